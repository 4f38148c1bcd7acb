(** * Properties C15-C26: creation, pairing, crossing and mutation *)

From Coq Require Import List Arith ZArith Bool Lia Reals Lra.
From Flocq Require Import Core IEEE754.BinarySingleNaN IEEE754.Binary.
From Verif Require Import Base Logic FloatModel Rng GaModel GaComponents SpecGa SpecSel SpecRand
  SpecBits FloatFacts RandFacts PairFacts CreateFacts BitFacts MutFacts ArithFacts CrossFacts DemoFloats
  DemoLibm.
Import ListNotations.

(** ** C15: RandomCreator *)
Theorem C15_new_panics :
  forall (G : Type) (NG : NumGene G) size (intervals : list (G * G)),
    (random_creator_new size intervals = Panic /\
     (size = 0 \/ intervals = [] \/ exists i, In i intervals /\ ng_lt (fst i) (snd i) = false)) \/
    (random_creator_new size intervals = Ret (RandomCreator size intervals) /\
     0 < size /\ intervals <> [] /\ forall i, In i intervals -> ng_lt (fst i) (snd i) = true).
Proof. exact @new_panics. Qed.
Print Assumptions C15_new_panics.

Theorem C15_create_f64 :
  forall np size intervals c r,
    @random_creator_new f64 NumGene64 size intervals = Ret c ->
    (forall i, In i intervals -> is_finite (b_sub np (snd i) (fst i)) = true) ->
    exists vs, @random_create f64 NumGene64 np c r = (Ret vs, shift (size * length intervals) r) /\
      length vs = size /\
      forall j v, nth_error vs j = Some v ->
        length v = length intervals /\
        forall k g lo hi, nth_error v k = Some g -> nth_error intervals k = Some (lo, hi) ->
          g = @drawn_incl f64 (FloatIEEE np) _ lo hi r (j * length intervals + k) /\
          leb lo g = true /\ leb g hi = true.
Proof. exact @random_creator_f64. Qed.
Print Assumptions C15_create_f64.

Theorem C15_create_f32 :
  forall np64 np32 size intervals c r,
    @random_creator_new f32 (NumGene32 np64 np32) size intervals = Ret c ->
    (forall i, In i intervals -> is_finite (fst i) = true /\ is_finite (snd i) = true) ->
    exists vs,
      @random_create f32 (NumGene32 np64 np32) np64 c r = (Ret vs, shift (size * length intervals) r) /\
      length vs = size /\
      forall j v, nth_error vs j = Some v ->
        length v = length intervals /\
        forall k g lo hi, nth_error v k = Some g -> nth_error intervals k = Some (lo, hi) ->
          g = fconv (np_of64 np32)
                (@drawn_incl f64 (FloatIEEE np64) _ (fconv (np_of32 np64) lo) (fconv (np_of32 np64) hi)
                   r (j * length intervals + k)) /\
          leb lo g = true /\ leb g hi = true.
Proof. exact @random_creator_f32. Qed.
Print Assumptions C15_create_f32.

Example C15_nonvacuous :
  @random_creator_new f64 NumGene64 2 [(one64, three64); (minus_two64, one64)]
    = Ret (RandomCreator 2 [(one64, three64); (minus_two64, one64)]) /\
  (forall i, In i [(one64, three64); (minus_two64, one64)] ->
     is_finite (b_sub np64_default (snd i) (fst i)) = true) /\
  (exists vs r, @random_create f64 NumGene64 np64_default
      (RandomCreator 2 [(one64, three64); (minus_two64, one64)]) one_two = (Ret vs, r) /\
      map (map to_bits64) vs =
        map (map to_bits64) [[one64; minus_two64]; [two64; minus_two64]]) /\
  @random_creator_new f32 (NumGene32 np64_default np32_default) 1 [(one32, two32)]
    = Ret (RandomCreator 1 [(one32, two32)]).
Proof.
  split; [reflexivity|]. split; [intros i [<-|[<-|[]]]; vm_compute; reflexivity|].
  split; [|reflexivity].
  eexists. eexists. split; [reflexivity|]. vm_compute. reflexivity.
Qed.

(** ** C16: RandomPairing *)
Theorem C16_random_pairing :
  forall (T : Type) (p : population T) r,
    (individuals p = [] -> fst (random_pairing p r) = Panic) /\
    (individuals p <> [] ->
     exists pairs,
       random_pairing p r = (Ret pairs, shift (2 * (length (individuals p) / 2)) r) /\
       length pairs = length (individuals p) / 2 /\
       forall j pair, nth_error pairs j = Some pair ->
         pair = [drawn r 0 (length (individuals p)) (2 * j);
                 drawn r 0 (length (individuals p)) (2 * j + 1)] /\
         Forall (fun i => i < length (individuals p)) pair).
Proof. exact @random_pairing_spec. Qed.
Print Assumptions C16_random_pairing.

Definition demo_pop : population Z :=
  Population [Individual 1%Z three64 true; Individual 2%Z one64 true; Individual 3%Z two64 true;
              Individual 4%Z four64 true; Individual 5%Z ten64 true] None None 0.

Example C16_nonvacuous :
  individuals demo_pop <> [] /\
  fst (random_pairing demo_pop counter) = Ret [[0; 1]; [2; 3]] /\
  fst (random_pairing demo_pop (fun n => Z.of_nat (7 * n * n))) = Ret [[0; 2]; [3; 3]].
Proof. split; [discriminate|]. split; vm_compute; reflexivity. Qed.

(** ** C17: Tournament *)
Theorem C17_tournament :
  forall (T : Type) t (p : population T) r,
    (individuals p = [] -> fst (tournament_pairs t p r) = Panic) /\
    (individuals p <> [] ->
     exists fams,
       tournament_pairs t p r =
         (Ret fams, shift (families_count t * (partners_count t * S (rounds_count t))) r) /\
       length fams = families_count t /\
       forall j fam, nth_error fams j = Some fam ->
         length fam = partners_count t /\
         forall i a, nth_error fam i = Some a ->
           let n := length (individuals p) in
           let slot := (j * partners_count t + i) * S (rounds_count t) in
           a < n /\
           (exists k, k <= rounds_count t /\ a = drawn r 0 n (slot + k)) /\
           ((forall k v, k <= rounds_count t -> fitness_is p (drawn r 0 n (slot + k)) v ->
               is_nan v = false) ->
            forall k, k <= rounds_count t -> ~ beats p (drawn r 0 n (slot + k)) a)).
Proof. exact @tournament_spec. Qed.
Print Assumptions C17_tournament.

Example C17_nonvacuous :
  individuals demo_pop <> [] /\
  fst (tournament_pairs (set_rounds_count (set_partners_count (tournament_new 2) 3) 1) demo_pop counter)
    = Ret [[1; 2; 0]; [1; 3; 1]] /\
  (forall k v, k <= 1 -> fitness_is demo_pop (drawn counter 0 5 (0 + k)) v -> is_nan v = false) /\
  beats demo_pop 1 0.
Proof.
  split; [discriminate|]. split; [vm_compute; reflexivity|]. split.
  - intros [|[|k]] v Hk [i [H <-]]; [| |lia]; vm_compute in H; inversion H; reflexivity.
  - exists one64, three64. split; [eexists; split; reflexivity|]. split; [eexists; split; reflexivity|].
    vm_compute. reflexivity.
Qed.

(** ** C18: CrossMean *)
Theorem C18_cross_mean :
  forall prec emax (Hp : Prec_gt_0 prec) (He : Prec_lt_emax prec emax) (np : nan_policy prec emax)
    (x y : bfloat prec emax),
    is_finite x = true -> is_finite y = true -> is_finite (b_add np x y) = true ->
    exists c, @cross_mean _ (@NumOpsFloat _ (FloatIEEE np)) [x; y] = Ret [c] /\
      is_finite c = true /\
      Binary.B2R prec emax c =
        round radix2 (SpecFloat.fexp prec emax) (round_mode mode_NE)
              ((Binary.B2R prec emax x + Binary.B2R prec emax y) / 2) /\
      (Rmin (Binary.B2R prec emax x) (Binary.B2R prec emax y) <= Binary.B2R prec emax c
       <= Rmax (Binary.B2R prec emax x) (Binary.B2R prec emax y))%R.
Proof. exact @cross_mean_two. Qed.
Print Assumptions C18_cross_mean.
Theorem C18_cross_mean_shape :
  forall prec emax (Hp : Prec_gt_0 prec) (He : Prec_lt_emax prec emax) (np : nan_policy prec emax)
    (parents : list (bfloat prec emax)),
    (length parents < 2 -> @cross_mean _ (@NumOpsFloat _ (FloatIEEE np)) parents = Panic) /\
    (2 <= length parents -> exists c, @cross_mean _ (@NumOpsFloat _ (FloatIEEE np)) parents = Ret [c]).
Proof. exact @cross_mean_float_shape. Qed.
Print Assumptions C18_cross_mean_shape.
(** The proviso is needed: the mean of two large numbers is infinite. *)
Theorem C18_cross_mean_overflow :
  exists (np : nan_policy 53 1024) (x c : f64),
    is_finite x = true /\ @cross_mean _ (@NumOpsFloat _ (FloatIEEE np)) [x; x] = Ret [c] /\
    is_finite c = false.
Proof.
  exists np64_default, f64_MAX. eexists. split; [reflexivity|]. split; [reflexivity|].
  vm_compute. reflexivity.
Qed.
Print Assumptions C18_cross_mean_overflow.

Example C18_nonvacuous :
  is_finite one64 = true /\ is_finite three64 = true /\
  is_finite (b_add np64_default one64 three64) = true /\
  exists c, @cross_mean _ (@NumOpsFloat _ (FloatIEEE np64_default)) [one64; three64] = Ret [c] /\
    to_bits64 c = to_bits64 two64.
Proof.
  split; [reflexivity|]. split; [reflexivity|]. split; [vm_compute; reflexivity|].
  eexists. split; [reflexivity|]. vm_compute. reflexivity.
Qed.

(** ** C19: FloatCrossGeometricMean *)
Theorem C19_geometric_mean :
  forall (T : Type) (FT : FloatTrait T) (LM : Libm T) (parents : list T),
    (length parents < 2 -> cross_geometric_mean parents = Panic) /\
    (2 <= length parents ->
     cross_geometric_mean parents =
       Ret [fpowf (fold_left fmul parents fone) (fdiv fone (fof_Z (Z.of_nat (length parents))))]).
Proof. exact @geometric_mean_spec. Qed.
Print Assumptions C19_geometric_mean.

Example C19_nonvacuous :
  exists c, @cross_geometric_mean f64 (FloatIEEE np64_default) demo_libm [two64; two64] = Ret [c] /\
    to_bits64 c = to_bits64 four64.
Proof. eexists. split; [reflexivity|]. vm_compute. reflexivity. Qed.

(** ** C20: unsigned single-point crossing *)
Theorem C20_cross_unsigned :
  forall w f, In (w, f) [(64%Z, cross_u64); (32%Z, cross_u32); (16%Z, cross_u16); (8%Z, cross_u8)] ->
  forall dbg p1 p2 pos, unsigned w p1 -> unsigned w p2 ->
    ((0 < Z.of_nat pos < w)%Z ->
     exists z, f dbg p1 p2 pos = Ret z /\ unsigned w z /\ crossed w p1 p2 (Z.of_nat pos) z) /\
    (pos = 0 \/ (w <= Z.of_nat pos)%Z -> f true p1 p2 pos = Panic).
Proof.
  intros w f [E|[E|[E|[E|[]]]]]; inversion E; intros; now apply cross_unsigned_spec.
Qed.
Print Assumptions C20_cross_unsigned.
Example C20_nonvacuous :
  unsigned 8 204 /\ unsigned 8 170 /\ cross_u8 true 204 170 4 = Ret 202%Z /\
  cross_u8 false 204 170 4 = Ret 202%Z /\ cross_u8 true 204 170 8 = Panic /\ cross_u8 true 204 170 0 = Panic.
Proof. unfold unsigned. repeat split; lia. Qed.

(** ** C21: signed single-point crossing *)
Theorem C21_cross_signed :
  forall w f, In (w, f) [(16%Z, cross_i16); (8%Z, cross_i8)] ->
  forall dbg p1 p2 pos, signed w p1 -> signed w p2 ->
    ((Z.of_nat pos < w)%Z ->
     exists z, f dbg p1 p2 pos = Ret z /\ signed w z /\ crossed w p1 p2 (Z.of_nat pos) z) /\
    ((w <= Z.of_nat pos)%Z -> f true p1 p2 pos = Panic).
Proof.
  intros w f [E|[E|[]]]; inversion E; intros; apply cross_signed_spec; auto; lia.
Qed.
Print Assumptions C21_cross_signed.
Example C21_nonvacuous :
  signed 8 (-86) /\ signed 8 85 /\ cross_i8 true (-86) 85 4 = Ret (-91)%Z /\
  cross_i8 true 85 (-86) 7 = Ret 42%Z /\ cross_i8 true (-86) 85 8 = Panic.
Proof. unfold signed. repeat split; vm_compute; congruence. Qed.

(** ** C22: bitwise crossing of floats *)
Theorem C22_cross_f64 :
  forall dbg p1 p2 pos,
    (0 < pos < 64 -> exists c, cross_f64 dbg p1 p2 pos = Ret c /\
       crossed 64 (to_bits64 p1) (to_bits64 p2) (Z.of_nat pos) (to_bits64 c)) /\
    (pos = 0 \/ 64 <= pos -> cross_f64 true p1 p2 pos = Panic).
Proof. exact cross_f64_spec. Qed.
Print Assumptions C22_cross_f64.
Theorem C22_cross_f32 :
  forall dbg p1 p2 pos,
    (0 < pos < 32 -> exists c, cross_f32 dbg p1 p2 pos = Ret c /\
       crossed 32 (to_bits32 p1) (to_bits32 p2) (Z.of_nat pos) (to_bits32 c)) /\
    (pos = 0 \/ 32 <= pos -> cross_f32 true p1 p2 pos = Panic).
Proof. exact cross_f32_spec. Qed.
Print Assumptions C22_cross_f32.
Theorem C22_cross_bitwise_f64 :
  forall dbg parents r,
    (forall p1 p2, parents = [p1; p2] -> exists c,
       cross_bitwise64 dbg parents r = (Ret [c], shift 1 r) /\
       crossed 64 (to_bits64 p1) (to_bits64 p2) (Z.of_nat (drawn r 1 64 0)) (to_bits64 c) /\
       0 < drawn r 1 64 0 < 64 /\ (p1 = p2 -> c = p1)) /\
    (length parents <> 2 -> cross_bitwise64 dbg parents r = (Panic, r)).
Proof. exact cross_bitwise64_spec. Qed.
Print Assumptions C22_cross_bitwise_f64.
Theorem C22_cross_bitwise_f32 :
  forall dbg parents r,
    (forall p1 p2, parents = [p1; p2] -> exists c,
       cross_bitwise32 dbg parents r = (Ret [c], shift 1 r) /\
       crossed 32 (to_bits32 p1) (to_bits32 p2) (Z.of_nat (drawn r 1 32 0)) (to_bits32 c) /\
       0 < drawn r 1 32 0 < 32 /\ (p1 = p2 -> c = p1)) /\
    (length parents <> 2 -> cross_bitwise32 dbg parents r = (Panic, r)).
Proof. exact cross_bitwise32_spec. Qed.
Print Assumptions C22_cross_bitwise_f32.
(** 1.0 crossed with 2.0 at bit 61: sign and first exponent bits of 1.0 (0x3ff...),
    the rest of 2.0 (0x400...): 0x2000000000000000. *)
Example C22_nonvacuous :
  exists c, cross_f64 true one64 two64 61 = Ret c /\ to_bits64 c = (2 ^ 61)%Z.
Proof. eexists. split; [reflexivity|]. vm_compute. reflexivity. Qed.

(** ** C23: VecCrossAllGenes *)
Theorem C23_vec_cross :
  forall (U G : Type) (single : list G -> comp U (list G)) parents u cs u',
    vec_cross_all_genes single parents u = (Ret cs, u') <->
    exists p1 p2 kids, parents = [p1; p2] /\ length p1 <= length p2 /\
      runs_each single (gene_pairs p1 p2) u kids u' /\ cs = [concat kids].
Proof. exact @vec_cross_spec. Qed.
Print Assumptions C23_vec_cross.
Theorem C23_vec_cross_length :
  forall (U G : Type) (single : list G -> comp U (list G)) parents u cs u' p1 p2,
    vec_cross_all_genes single parents u = (Ret cs, u') -> parents = [p1; p2] ->
    (forall args u kids u', single args u = (Ret kids, u') -> length kids = 1) ->
    exists c, cs = [c] /\ length c = length p1.
Proof. exact @vec_cross_length. Qed.
Print Assumptions C23_vec_cross_length.
Theorem C23_vec_cross_panics :
  forall (U G : Type) (single : list G -> comp U (list G)) parents u,
    (forall args u, exists kids u', single args u = (Ret kids, u')) ->
    (fst (vec_cross_all_genes single parents u) = Panic <->
     ~ exists p1 p2, parents = [p1; p2] /\ length p1 <= length p2).
Proof. exact @vec_cross_panics. Qed.
Print Assumptions C23_vec_cross_panics.
Example C23_nonvacuous :
  let single := fun args u => (Ret [fold_left Nat.add args u], S u) in
  vec_cross_all_genes single [[1; 2]; [10; 20; 30]] 0 = (Ret [[11; 23]], 2) /\
  fst (vec_cross_all_genes single [[1; 2]; [10]] 0) = Panic.
Proof. split; reflexivity. Qed.

(** ** C24: FloatCrossExp *)
Theorem C24_cross_exp_f64 :
  forall (LM : Libm f64) (np : nan_policy 53 1024) dbg (parents : list f64) r,
    (forall x y, parents = [x; y] -> exists m1 e1 s1 m2 e2 s2 m e s,
       decoded 53 1024 x (m1, e1, s1) /\ decoded 53 1024 y (m2, e2, s2) /\
       crossed 64 m1 m2 (Z.of_nat (drawn r 1 64 0)) m /\ unsigned 64 m /\
       crossed 16 e1 e2 (Z.of_nat (drawn r 1 16 1)) e /\ signed 16 e /\
       s = (if drawn_coin r 2 then s1 else s2) /\
       @float_cross_exp f64 (FloatIEEE np) LM _ dbg parents r =
         (Ret [b_mul np (b_mul np (b_of_Z s) (b_of_Z m)) (fexp2 (b_of_Z e))], shift 3 r)) /\
    (length parents <> 2 -> @float_cross_exp f64 (FloatIEEE np) LM _ dbg parents r = (Panic, r)).
Proof.
  intros LM np dbg parents r.
  exact (cross_exp_spec np decoded64 ltac:(lia) ltac:(vm_compute; discriminate) dbg parents r).
Qed.
Print Assumptions C24_cross_exp_f64.
Theorem C24_cross_exp_f32 :
  forall (LM : Libm f32) (np : nan_policy 24 128) dbg (parents : list f32) r,
    (forall x y, parents = [x; y] -> exists m1 e1 s1 m2 e2 s2 m e s,
       decoded 24 128 x (m1, e1, s1) /\ decoded 24 128 y (m2, e2, s2) /\
       crossed 64 m1 m2 (Z.of_nat (drawn r 1 64 0)) m /\ unsigned 64 m /\
       crossed 16 e1 e2 (Z.of_nat (drawn r 1 16 1)) e /\ signed 16 e /\
       s = (if drawn_coin r 2 then s1 else s2) /\
       @float_cross_exp f32 (FloatIEEE np) LM _ dbg parents r =
         (Ret [b_mul np (b_mul np (b_of_Z s) (b_of_Z m)) (fexp2 (b_of_Z e))], shift 3 r)) /\
    (length parents <> 2 -> @float_cross_exp f32 (FloatIEEE np) LM _ dbg parents r = (Panic, r)).
Proof.
  intros LM np dbg parents r.
  exact (cross_exp_spec np decoded32 ltac:(lia) ltac:(vm_compute; discriminate) dbg parents r).
Qed.
Print Assumptions C24_cross_exp_f32.
Theorem C24_self_cross_f64 :
  forall (LM : Libm f64) (np : nan_policy 53 1024) dbg (x : f64) r,
    exact_exp2 LM -> zero_or_normal x ->
    @float_cross_exp f64 (FloatIEEE np) LM _ dbg [x; x] r = (Ret [x], shift 3 r).
Proof.
  intros LM np dbg x r.
  exact (cross_exp_self np decoded64 ltac:(lia) ltac:(vm_compute; discriminate) dbg x r).
Qed.
Print Assumptions C24_self_cross_f64.
Theorem C24_self_cross_f32 :
  forall (LM : Libm f32) (np : nan_policy 24 128) dbg (x : f32) r,
    exact_exp2 LM -> zero_or_normal x ->
    @float_cross_exp f32 (FloatIEEE np) LM _ dbg [x; x] r = (Ret [x], shift 3 r).
Proof.
  intros LM np dbg x r.
  exact (cross_exp_self np decoded32 ltac:(lia) ltac:(vm_compute; discriminate) dbg x r).
Qed.
Print Assumptions C24_self_cross_f32.
Theorem C24_not_finite_f64 :
  forall (LM : Libm f64) (np : nan_policy 53 1024) dbg (x y : f64) r,
    exact_exp2 LM -> is_finite x = false -> is_finite y = false ->
    exists s, @float_cross_exp f64 (FloatIEEE np) LM _ dbg [x; y] r =
      (Ret [Binary.B754_infinity s], shift 3 r).
Proof.
  intros LM np dbg x y r.
  exact (cross_exp_not_finite np decoded64 ltac:(lia) ltac:(vm_compute; discriminate) dbg x y r ltac:(lia)).
Qed.
Print Assumptions C24_not_finite_f64.

(** The gap in "normal or zero": the least subnormal crossed with itself gives 0. *)
Theorem C24_subnormal_lost :
  exists (LM : Libm f64) np (x c : f64) r r', exact_exp2 LM /\ is_finite x = true /\
    @float_cross_exp f64 (FloatIEEE np) LM _ true [x; x] r = (Ret [c], r') /\ c <> x /\
    to_bits64 c = 0%Z.
Proof.
  exists demo_libm, np64_default, tiny64. eexists. exists counter. eexists.
  split; [exact demo_exact_exp2|]. split; [reflexivity|]. split; [reflexivity|]. 
  assert (Z : forall c : f64, to_bits64 c = 0%Z -> c <> tiny64 /\ to_bits64 c = 0%Z).
  { intros c H. split; [|exact H]. intros ->. vm_compute in H. discriminate. }
  apply Z. vm_compute. reflexivity.
Qed.
Print Assumptions C24_subnormal_lost.

Example C24_nonvacuous :
  exact_exp2 demo_libm /\ zero_or_normal three64 /\
  exists c r, @float_cross_exp f64 (FloatIEEE np64_default) demo_libm _ true [three64; minus_two64]
      (fun n => match n with 0 => 50%Z | 1 => 3%Z | _ => 1%Z end) = (Ret [c], r) /\
    to_bits64 c = to_bits64 (b_opp three64).
Proof.
  split; [exact demo_exact_exp2|]. split; [vm_compute; discriminate|].
  eexists. eexists. split; [reflexivity|]. vm_compute. reflexivity.
Qed.

(** ** C25: BitwiseMutation *)
Theorem C25_bitwise_mutation_f64 :
  forall n x r, exists y,
    bitwise_mutation64 n x r = (Ret y, shift n r) /\
    (forall k, drawn r 0 64 k < 64) /\
    (forall i, i < 64 -> Z.testbit (to_bits64 y) (Z.of_nat i) =
       xorb (Z.testbit (to_bits64 x) (Z.of_nat i)) (Nat.odd (times_drawn r 64 i n))) /\
    length (filter (fun i => xorb (Z.testbit (to_bits64 x) (Z.of_nat i))
                                  (Z.testbit (to_bits64 y) (Z.of_nat i))) (seq 0 64)) <= n /\
    (n = 0 -> y = x).
Proof. exact bitwise_mutation64_spec. Qed.
Print Assumptions C25_bitwise_mutation_f64.
Theorem C25_bitwise_mutation_f32 :
  forall n x r, exists y,
    bitwise_mutation32 n x r = (Ret y, shift n r) /\
    (forall k, drawn r 0 32 k < 32) /\
    (forall i, i < 32 -> Z.testbit (to_bits32 y) (Z.of_nat i) =
       xorb (Z.testbit (to_bits32 x) (Z.of_nat i)) (Nat.odd (times_drawn r 32 i n))) /\
    length (filter (fun i => xorb (Z.testbit (to_bits32 x) (Z.of_nat i))
                                  (Z.testbit (to_bits32 y) (Z.of_nat i))) (seq 0 32)) <= n /\
    (n = 0 -> y = x).
Proof. exact bitwise_mutation32_spec. Qed.
Print Assumptions C25_bitwise_mutation_f32.
(** Flipping bit 63 twice and bit 62 once turns 1.0 (0x3ff0...) into 0x7ff0... *)
Example C25_nonvacuous :
  let r := fun n => match n with 1 => 62%Z | _ => 63%Z end in
  exists y r', bitwise_mutation64 3 one64 r = (Ret y, r') /\
    to_bits64 y = (to_bits64 one64 + 2 ^ 62)%Z /\ times_drawn r 64 63 3 = 2 /\ times_drawn r 64 62 3 = 1.
Proof.
  eexists. eexists. split; [reflexivity|]. split; [vm_compute; reflexivity|].
  split; vm_compute; reflexivity.
Qed.

(** ** C26: VecMutation *)
Theorem C26_vec_mutation :
  forall (U G : Type) np (L : lens U rng) probability (single : G -> comp U G) l u l' u',
    vec_mutation np L probability single l u = (Ret l', u') <->
    mutated np L probability single l u l' u'.
Proof. exact @vec_mutation_spec. Qed.
Print Assumptions C26_vec_mutation.
Theorem C26_vec_mutation_genes :
  forall (U G : Type) np (L : lens U rng) probability (single : G -> comp U G) l u l' u',
    vec_mutation np L probability single l u = (Ret l', u') ->
    length l' = length l /\
    Forall2 (fun g g' => g' = g \/ exists v v', single g v = (Ret g', v')) l l'.
Proof. exact @vec_mutation_genes. Qed.
Print Assumptions C26_vec_mutation_genes.
(** [ltb 0 probability = false]: at most 0 or NaN.  No single mutation is run. *)
Theorem C26_never_mutates :
  forall (U G : Type) np (L : lens U rng) probability (single : G -> comp U G) l u,
    ltb (b_of_Z 0) probability = false ->
    exists u', vec_mutation np L probability single l u = (Ret l, u') /\
      forall single', vec_mutation np L probability single' l u = (Ret l, u').
Proof. exact @never_mutates. Qed.
Print Assumptions C26_never_mutates.
Theorem C26_always_mutates :
  forall (U G : Type) np (L : lens U rng) probability (single : G -> comp U G) l u l' u',
    leb (b_of_Z 100) probability = true ->
    vec_mutation np L probability single l u = (Ret l', u') ->
    Forall2 (fun g g' => exists v v', single g v = (Ret g', v')) l l'.
Proof. exact @always_mutates. Qed.
Print Assumptions C26_always_mutates.
(** Probability 10%: the first draw is 1.0 (mutate), the second 90.0 (keep). *)
Example C26_nonvacuous :
  let r := fun n => match n with 0 => to_bits64 one64 | _ => to_bits64 ninety64 end in
  fst (vec_mutation np64_default lens_id ten64 (fun g => cret (g + 1)%Z) [5%Z; 7%Z] r) = Ret [6%Z; 7%Z] /\
  ltb (b_of_Z 0) minus_two64 = false /\ leb (b_of_Z 100) f64_MAX = true /\
  fst (vec_mutation np64_default lens_id f64_MAX (fun g => cret (g + 1)%Z) [5%Z; 7%Z] r) = Ret [6%Z; 8%Z].
Proof. repeat split; vm_compute; reflexivity. Qed.
