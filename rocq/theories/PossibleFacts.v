(** * Possible outcomes of the random components: proofs *)

From Coq Require Import List Arith ZArith Bool Lia Reals Lra.
From Flocq Require Import Core IEEE754.BinarySingleNaN IEEE754.Binary.
From Verif Require Import Base Logic FloatModel Rng FloatFacts GaModel GaComponents PsoModel PsoComponents
  SpecGa SpecPso SpecBits SpecBox SpecRand SpecVel SpecInt SpecPossible RandFacts PairFacts CreateFacts ArithFacts
  BitFacts CrossFacts MutFacts PostFacts CalcFacts IntFacts BoxFacts.
Import ListNotations.

(** ** Composition *)
Lemma prepend_app zs1 zs2 r : prepend (zs1 ++ zs2) r = prepend zs1 (prepend zs2 r).
Proof. induction zs1 as [|z zs1 IH]; simpl; [reflexivity|]. now rewrite IH. Qed.

Lemma possible_ret {A} (a : A) : possible (cret a) a.
Proof. exists []. reflexivity. Qed.
Lemma possible_pure {A} (o : outcome A) a : o = Ret a -> possible (cpure o) a.
Proof. intros ->. exists []. reflexivity. Qed.
Lemma possible_draw z : possible draw z.
Proof. exists [z]. reflexivity. Qed.
Lemma possible_bind {A B} (m : comp rng A) (k : A -> comp rng B) a b :
  possible m a -> possible (k a) b -> possible (cbind m k) b.
Proof.
  intros [z1 H1] [z2 H2]. exists (z1 ++ z2). intros r. unfold cbind. now rewrite prepend_app, H1, H2.
Qed.
Lemma possible_bind_pure {A B} (o : outcome A) (k : A -> comp rng B) a b :
  o = Ret a -> possible (k a) b -> possible (cbind (cpure o) k) b.
Proof. intros H. apply possible_bind. now apply possible_pure. Qed.
Lemma possible_mapM {A B} (f : A -> comp rng B) l l' :
  Forall2 (fun x y => possible (f x) y) l l' -> possible (cmapM f l) l'.
Proof.
  induction 1 as [|x y l l' H _ IH]; cbn [cmapM]; [apply possible_ret|].
  apply (possible_bind _ _ y); [exact H|]. apply (possible_bind _ _ l'); [exact IH|]. apply possible_ret.
Qed.
Lemma possible_replicate {A} (m : comp rng A) l : Forall (possible m) l -> possible (creplicate (length l) m) l.
Proof.
  induction 1 as [|x l H _ IH]; cbn [creplicate length]; [apply possible_ret|].
  apply (possible_bind _ _ x); [exact H|]. apply (possible_bind _ _ l); [exact IH|]. apply possible_ret.
Qed.
Lemma possible_zoom_id {A} (c : comp rng A) a : possible c a -> possible (zoom lens_id c) a.
Proof. intros [zs H]. exists zs. intros r. unfold zoom, lens_id. cbn [lget lput]. now rewrite H. Qed.

(** ** Numbers *)
Lemma possible_usize lo hi n : lo <= n < hi -> possible (sample_usize (lo, hi)) n.
Proof.
  intros H. unfold sample_usize. apply (possible_bind _ _ (Z.of_nat (n - lo))); [apply possible_draw|].
  cbn [fst snd]. rewrite Z.mod_small by lia. rewrite Nat2Z.id. replace (lo + (n - lo)) with n by lia. apply possible_ret.
Qed.

(** Every float is drawn by some raw number. *)
Class Surjective {T} (SA : Sampler T) : Prop := raw_of : forall x : T, exists z, fraw z = x.
#[global] Instance Surjective64 : Surjective Sampler64.
Proof.
  intros x. exists (to_bits64 x). unfold fraw, Sampler64. pose proof (to_bits64_range x) as H. unfold unsigned in H.
  rewrite Z.mod_small by exact H. apply from_to_bits64.
Qed.
#[global] Instance Surjective32 : Surjective Sampler32.
Proof.
  intros x. exists (to_bits32 x). unfold fraw, Sampler32. pose proof (to_bits32_range x) as H. unfold unsigned in H.
  rewrite Z.mod_small by exact H. apply from_to_bits32.
Qed.

Section Floats.
  Context {T : Type} {FT : FloatTrait T} {SA : Sampler T} {Sur : Surjective SA}.
  Lemma possible_incl lo hi x : fle lo x = true -> fle x hi = true -> possible (sample_incl (lo, hi)) x.
  Proof.
    intros H1 H2. destruct (raw_of x) as [z E]. unfold sample_incl.
    apply (possible_bind _ _ z); [apply possible_draw|]. cbn [fst snd]. rewrite E, H1, H2. cbn [andb].
    destruct (ffinite (fsub hi lo)); apply possible_ret.
  Qed.
  Lemma possible_excl lo hi x : fle lo x = true -> flt x hi = true -> possible (sample_excl (lo, hi)) x.
  Proof.
    intros H1 H2. destruct (raw_of x) as [z E]. unfold sample_excl.
    apply (possible_bind _ _ z); [apply possible_draw|]. cbn [fst snd]. rewrite E, H1, H2. cbn [andb].
    destruct (ffinite (fsub hi lo)); apply possible_ret.
  Qed.
End Floats.

(** ** Creation *)
Lemma possible_genes {G} {NG : NumGene G} np intervals (x : list G) :
  Forall2 (fun g i => possible (random_gene np i) g) x intervals -> possible (cmapM (random_gene np) intervals) x.
Proof. intros H. apply possible_mapM. induction H; constructor; auto. Qed.
Lemma possible_creator {G} {NG : NumGene G} np size intervals c vs :
  random_creator_new size intervals = Ret c -> length vs = size ->
  Forall (fun x : list G => Forall2 (fun g i => possible (random_gene np i) g) x intervals) vs ->
  possible (random_create np c) vs.
Proof.
  intros N L H. destruct (new_panics size intervals) as [[E _]|[E _]]; rewrite E in N; [discriminate|].
  injection N as <-. unfold random_create. cbn [rc_population_size rc_intervals]. rewrite <- L.
  apply possible_replicate. eapply Forall_impl; [|exact H]. intros x. apply possible_genes.
Qed.
Lemma possible_vectors {G} {NG : NumGene G} np intervals n vs :
  (forall lo hi, In (lo, hi) intervals -> ng_lt lo hi = true) -> length vs = n ->
  Forall (fun x : list G => Forall2 (fun g i => possible (random_gene np i) g) x intervals) vs ->
  possible (random_vectors np intervals n) vs.
Proof.
  intros N L H. unfold random_vectors. rewrite <- L. apply possible_replicate.
  eapply Forall_impl; [|exact H]. intros x Hx. unfold create_vec.
  apply (possible_bind_pure _ _ tt); [|now apply possible_genes].
  clear - N. induction intervals as [|[lo hi] l IH]; [reflexivity|]. cbn [ofold fst snd].
  rewrite (N lo hi) by now left. cbn [oassert obind]. apply IH. intros a b Hin. apply N. now right.
Qed.

Lemma gene64 np (x : f64) i : is_finite (fst i) = true -> is_finite (snd i) = true ->
  leb (fst i) x = true -> leb x (snd i) = true -> possible (@random_gene f64 NumGene64 np i) x.
Proof.
  destruct i as [lo hi]. cbn [fst snd]. intros F1 F2 H1 H2. unfold random_gene.
  apply (possible_bind_pure _ _ (lo, hi)).
  { cbn [fst snd ng_to_f64 NumGene64 unwrap obind]. unfold uniform_incl. cbn [fle ffinite FloatIEEE FT64].
    assert (LE : leb lo hi = true). { fkeys. apply leb_key. repeat split; auto. lra. }
    change (@fle f64 (FT64 np)) with (@leb 53 1024). change (@ffinite f64 (FT64 np)) with (@is_finite 53 1024).
    now rewrite LE, F1, F2. }
  apply (possible_bind _ _ x).
  - now apply (@possible_incl f64 (FT64 np) Sampler64 Surjective64).
  - now apply possible_pure.
Qed.

(** An f32 survives the way to f64 and back. *)
Lemma conv_round_trip (np64 : f32 -> a_nan 53 1024) (np32 : f64 -> a_nan 24 128) (x : f32) : is_finite x = true ->
  fconv np32 (fconv np64 x) = x.
Proof.
  intros Fx. destruct (fconv_32_64 np64 x Fx) as [F E].
  destruct (fconv_between np32 (fconv np64 x) x x F Fx Fx) as [F' E']; [rewrite E; lra|].
  assert (R : Binary.B2R 24 128 (fconv np32 (fconv np64 x)) = Binary.B2R 24 128 x) by lra.
  apply (Binary.B2R_Bsign_inj 24 128); [exact F'|exact Fx|exact R|].
  destruct x as [s|s|s pl h|s m e h]; try discriminate Fx; [reflexivity|].
  (* a finite number that is not zero: the sign is that of the value *)
  assert (NZ : Binary.B2R 24 128 (Binary.B754_finite s m e h : f32) <> 0%R).
  { unfold Binary.B2R. intros Z. apply eq_0_F2R in Z. destruct s; discriminate Z. }
  assert (SG : forall y : f32, is_finite y = true -> Binary.B2R 24 128 y <> 0%R ->
     Binary.Bsign 24 128 y = Rlt_bool (Binary.B2R 24 128 y) 0).
  { clear. intros [s|s|s pl h|s m e h] Fy N; try discriminate Fy; [now elim N|].
    unfold Binary.Bsign, Binary.B2R. destruct s; cbn [cond_Zopp].
    - symmetry. apply Rlt_bool_true. apply F2R_lt_0. reflexivity.
    - symmetry. apply Rlt_bool_false. apply F2R_ge_0. cbn. lia. }
  rewrite (SG _ F') by (now rewrite R). rewrite R. symmetry. now apply SG.
Qed.

Lemma gene32 np64 np32 (x : f32) i : is_finite x = true -> is_finite (fst i) = true -> is_finite (snd i) = true ->
  leb (fst i) x = true -> leb x (snd i) = true -> possible (@random_gene f32 (NumGene32 np64 np32) np64 i) x.
Proof.
  destruct i as [lo hi]. cbn [fst snd]. intros Fx F1 F2 H1 H2. unfold random_gene.
  destruct (fconv_32_64 (np_of32 np64) _ Fx) as [Gx Ex].
  destruct (fconv_32_64 (np_of32 np64) _ F1) as [G1 E1].
  destruct (fconv_32_64 (np_of32 np64) _ F2) as [G2 E2].
  assert (B : forall a b : f32, is_finite a = true -> is_finite b = true -> leb a b = true ->
     leb (fconv (np_of32 np64) a : f64) (fconv (np_of32 np64) b) = true).
  { intros a b Fa Fb H. destruct (fconv_32_64 (np_of32 np64) _ Fa) as [Ga Ea].
    destruct (fconv_32_64 (np_of32 np64) _ Fb) as [Gb Eb]. apply leb_key in H. destruct H as [_ [_ H]].
    rewrite !key_finite in H by auto. apply leb_key. rewrite !key_finite, Ea, Eb by auto.
    repeat split; auto using finite_not_nan. }
  apply (possible_bind_pure _ _ (fconv (np_of32 np64) lo, fconv (np_of32 np64) hi)).
  { cbn [fst snd ng_to_f64 NumGene32 unwrap obind]. unfold uniform_incl.
    change (@fle f64 (FT64 np64)) with (@leb 53 1024). change (@ffinite f64 (FT64 np64)) with (@is_finite 53 1024).
    rewrite (B lo hi F1 F2), G1, G2; [reflexivity|]. fkeys. apply leb_key. repeat split; auto. lra. }
  apply (possible_bind _ _ (fconv (np_of32 np64) x)).
  - apply (@possible_incl f64 (FT64 np64) Sampler64 Surjective64); now apply B.
  - apply possible_pure. cbn [ng_from_f64 NumGene32 unwrap]. now rewrite conv_round_trip.
Qed.

Lemma gene_int np mn mx (n : Z) i : (mn <= n <= mx)%Z -> (Z.abs (fst i) <= 2 ^ 53)%Z -> (Z.abs (snd i) <= 2 ^ 53)%Z ->
  (fst i <= n <= snd i)%Z -> possible (@random_gene Z (NumGeneInt mn mx) np i) n.
Proof.
  destruct i as [lo hi]. cbn [fst snd]. intros R A1 A2 [H1 H2]. unfold random_gene.
  destruct (b64_of_Z lo A1) as [F1 E1]. destruct (b64_of_Z hi A2) as [F2 E2].
  assert (An : (Z.abs n <= 2 ^ 53)%Z) by lia. destruct (b64_of_Z n An) as [Fn En].
  apply (possible_bind_pure _ _ (b_of_Z lo, b_of_Z hi)).
  { cbn [fst snd ng_to_f64 NumGeneInt unwrap obind]. unfold uniform_incl.
    change (@fle f64 (FT64 np)) with (@leb 53 1024). change (@ffinite f64 (FT64 np)) with (@is_finite 53 1024).
    now rewrite (int_le lo hi A1 A2), F1, F2 by lia. }
  pose proof (int_le lo n A1 An H1) as L1. pose proof (int_le n hi An A2 H2) as L2.
  apply (possible_bind _ _ (b_of_Z n)).
  - now apply (@possible_incl f64 (FT64 np) Sampler64 Surjective64).
  - apply possible_pure. cbn [ng_from_f64 NumGeneInt]. rewrite Fn.
    pose proof (int_le n n An An (Z.le_refl n)) as L. destruct (trunc_between n n (b_of_Z n) An An L L) as [_ T].
    unfold toward_zero in T. replace (Binary.Btrunc 53 1024 (b_of_Z n)) with n by lia.
    unfold in_range. rewrite (proj2 (Z.leb_le mn n)), (proj2 (Z.leb_le n mx)) by lia. reflexivity.
Qed.

(** ** Pairing *)
Lemma pairing_possible {T} (p : population T) pairs :
  0 < length (individuals p) -> length pairs = length (individuals p) / 2 ->
  Forall (fun f => length f = 2 /\ Forall (fun i => i < length (individuals p)) f) pairs ->
  possible (random_pairing p) pairs.
Proof.
  intros N L H. unfold random_pairing, uniform_usize. apply Nat.ltb_lt in N. rewrite N.
  apply (possible_bind_pure _ _ (0, length (individuals p))); [reflexivity|]. rewrite <- L.
  apply possible_replicate. eapply Forall_impl; [|exact H]. intros f [Lf Hf].
  destruct f as [|i [|j [|]]]; try discriminate Lf. inversion Hf as [|? ? Hi Hf1]; subst. inversion Hf1 as [|? ? Hj _]; subst.
  apply (possible_bind _ _ i); [apply possible_usize; lia|]. apply (possible_bind _ _ j); [apply possible_usize; lia|].
  apply possible_ret.
Qed.

Lemma ltb_irrefl (x : f64) : ltb x x = false.
Proof.
  destruct (ltb x x) eqn:E; [|reflexivity]. apply ltb_key in E. destruct E as [_ [_ E]]. exfalso. lra.
Qed.

Lemma tournament_possible {T} (t : tournament) (p : population T) fams :
  0 < length (individuals p) -> length fams = families_count t ->
  Forall (fun f => length f = partners_count t /\ Forall (fun i => i < length (individuals p)) f) fams ->
  possible (tournament_pairs t p) fams.
Proof.
  intros N L H. unfold tournament_pairs, uniform_usize. apply Nat.ltb_lt in N. rewrite N.
  apply (possible_bind_pure _ _ (0, length (individuals p))); [reflexivity|]. rewrite <- L.
  apply possible_replicate. eapply Forall_impl; [|exact H]. intros f [Lf Hf]. rewrite <- Lf.
  apply possible_replicate. eapply Forall_impl; [|exact Hf]. intros i Hi. unfold tournament_partner.
  cbv beta in Hi. apply (possible_bind _ _ i); [apply possible_usize; lia|].
  generalize (seq 0 (rounds_count t)). intros rounds. induction rounds as [|r rounds IH]; cbn [cfold]; [apply possible_ret|].
  apply (possible_bind _ _ i); [|exact IH].
  apply (possible_bind _ _ i); [apply possible_usize; lia|].
  apply possible_pure. unfold index. destruct (nth_error (individuals p) i) as [x|] eqn:E.
  - cbn [obind]. now rewrite ltb_irrefl.
  - apply nth_error_None in E. lia.
Qed.

(** ** Crosses *)
Lemma cross_bitwise64_possible dbg p1 p2 pos : 0 < pos < 64 -> exists c,
  possible (cross_bitwise64 dbg [p1; p2]) [c] /\
  crossed 64 (to_bits64 p1) (to_bits64 p2) (Z.of_nat pos) (to_bits64 c).
Proof.
  intros H. destruct (proj1 (cross_f64_spec dbg p1 p2 pos) H) as [c [E C]]. exists c. split; [|exact C].
  unfold cross_bitwise64. apply (possible_bind_pure _ _ tt); [reflexivity|].
  apply (possible_bind_pure _ _ (1, 64)); [reflexivity|].
  apply (possible_bind _ _ pos); [apply possible_usize; lia|].
  apply possible_pure. unfold index. cbn [nth_error obind]. now rewrite E.
Qed.
Lemma cross_bitwise32_possible dbg p1 p2 pos : 0 < pos < 32 -> exists c,
  possible (cross_bitwise32 dbg [p1; p2]) [c] /\
  crossed 32 (to_bits32 p1) (to_bits32 p2) (Z.of_nat pos) (to_bits32 c).
Proof.
  intros H. destruct (proj1 (cross_f32_spec dbg p1 p2 pos) H) as [c [E C]]. exists c. split; [|exact C].
  unfold cross_bitwise32. apply (possible_bind_pure _ _ tt); [reflexivity|].
  apply (possible_bind_pure _ _ (1, 32)); [reflexivity|].
  apply (possible_bind _ _ pos); [apply possible_usize; lia|].
  apply possible_pure. unfold index. cbn [nth_error obind]. now rewrite E.
Qed.

Lemma vec_cross_possible {G} (single : list G -> comp rng (list G)) p1 p2 kids :
  length p1 <= length p2 ->
  Forall2 (fun gg k => possible (single [fst gg; snd gg]) k) (combine p1 p2) kids ->
  possible (vec_cross_all_genes single [p1; p2]) [concat kids].
Proof.
  intros L H. unfold vec_cross_all_genes.
  apply (possible_bind_pure _ _ tt); [reflexivity|].
  apply (possible_bind_pure _ _ p1); [reflexivity|].
  apply (possible_bind_pure _ _ p2); [reflexivity|].
  apply (possible_bind _ _ (concat kids)); [|apply possible_ret].
  assert (G0 : forall todo todo2 done done2 kids child, length done = length done2 -> length todo <= length todo2 ->
    Forall2 (fun gg k => possible (single [fst gg; snd gg]) k) (combine todo todo2) kids ->
    possible (cfold (fun child n =>
                       do g1 <- cpure (index (done ++ todo) n) ;;
                       do g2 <- cpure (index (done2 ++ todo2) n) ;;
                       do new_gene <- single [g1; g2] ;;
                       cret (child ++ new_gene)) (seq (length done) (length todo)) child) (child ++ concat kids)).
  { clear. induction todo as [|a todo IH]; intros [|b todo2] done done2 kids child Ld Lt H; cbn [length seq cfold combine] in *; try lia.
    - inversion H. cbn [concat]. rewrite app_nil_r. apply possible_ret.
    - inversion H. cbn [concat]. rewrite app_nil_r. apply possible_ret.
    - inversion H as [|? k ? kids' Hk Hr]; subst. cbn [fst snd] in Hk.
      apply (possible_bind _ _ (child ++ k)).
      + apply (possible_bind_pure _ _ a).
        { unfold index. now rewrite nth_error_app2, Nat.sub_diag by lia. }
        apply (possible_bind_pure _ _ b).
        { unfold index. rewrite Ld. now rewrite nth_error_app2, Nat.sub_diag by lia. }
        apply (possible_bind _ _ k); [exact Hk|]. apply possible_ret.
      + specialize (IH todo2 (done ++ [a]) (done2 ++ [b]) kids' (child ++ k)).
        rewrite <- !app_assoc in IH. cbn [app] in IH. rewrite !app_length in IH. cbn [length] in IH.
        rewrite Nat.add_1_r in IH. cbn [concat]. apply IH; [lia|lia|exact Hr]. }
  exact (G0 p1 p2 [] [] kids [] eq_refl L H).
Qed.

Section CrossExp.
  Context {p ex : Z} {Hp : Prec_gt_0 p} {He : Prec_lt_emax p ex}.
  Notation F := (bfloat p ex).
  Context {LM : Libm F} {FD : FloatDecode F}.
  Variable np : nan_policy p ex.
  Hypothesis HD : forall x : F, decoded p ex x (integer_decode x).
  Hypothesis Hp64 : (p <= 64)%Z.
  Hypothesis Hex : (2 * ex + p <= 2 ^ 15)%Z.
  #[local] Hint Extern 0 (FloatTrait (bfloat p ex)) => exact (FloatIEEE np) : typeclass_instances.

  Lemma cross_exp_possible dbg (x y : F) mpos epos (first : bool) : 0 < mpos < 64 -> 0 < epos < 16 ->
    exists m1 e1 s1 m2 e2 s2 m e s,
      decoded p ex x (m1, e1, s1) /\ decoded p ex y (m2, e2, s2) /\
      crossed 64 m1 m2 (Z.of_nat mpos) m /\ unsigned 64 m /\
      crossed 16 e1 e2 (Z.of_nat epos) e /\ signed 16 e /\
      s = (if first then s1 else s2) /\
      possible (float_cross_exp dbg [x; y]) [b_mul np (b_mul np (b_of_Z s) (b_of_Z m)) (fexp2 (b_of_Z e))].
  Proof.
    intros B1 B2. pose proof (HD x) as D1. pose proof (HD y) as D2.
    destruct (integer_decode x) as [[m1 e1] s1] eqn:EX. destruct (integer_decode y) as [[m2 e2] s2] eqn:EY.
    exists m1, e1, s1, m2, e2, s2.
    destruct (decoded_ranges Hp64 Hex _ _ _ _ D1) as [U1 S1].
    destruct (decoded_ranges Hp64 Hex _ _ _ _ D2) as [U2 S2].
    destruct (proj1 (cross_unsigned_spec dbg 64 m1 m2 mpos U1 U2)) as [m [M1 [M2 M3]]]; [lia|].
    destruct (proj1 (cross_signed_spec dbg 16 e1 e2 epos ltac:(lia) S1 S2)) as [e [E1 [E2 E3]]]; [lia|].
    exists m, e, (if first then s1 else s2).
    repeat (split; [assumption|]). split; [reflexivity|].
    unfold float_cross_exp.
    apply (possible_bind_pure _ _ tt); [reflexivity|].
    apply (possible_bind_pure _ _ x); [reflexivity|].
    apply (possible_bind_pure _ _ y); [reflexivity|].
    rewrite EX, EY.
    apply (possible_bind_pure _ _ (1, 64)); [reflexivity|].
    apply (possible_bind_pure _ _ (1, 16)); [reflexivity|].
    apply (possible_bind _ _ mpos); [apply possible_usize; lia|].
    apply (possible_bind _ _ epos); [apply possible_usize; lia|].
    apply (possible_bind_pure _ _ m); [exact M1|].
    apply (possible_bind_pure _ _ e); [exact E1|].
    apply (possible_bind _ _ (if first then 0%Z else 1%Z)); [apply possible_draw|].
    destruct first; apply possible_ret.
  Qed.
End CrossExp.

(** ** Mutations *)
Definition flip_all (positions : list nat) (bits : Z) : Z :=
  fold_left (fun b k => Z.lxor b (Z.shiftl 1 (Z.of_nat k))) positions bits.
Lemma flip_possible w positions bits : 0 < w -> Forall (fun k => k < w) positions ->
  possible (flip_bits w (length positions) bits) (flip_all positions bits).
Proof.
  intros Hw H. unfold flip_bits, uniform_usize. apply Nat.ltb_lt in Hw. rewrite Hw.
  apply (possible_bind_pure _ _ (0, w)); [reflexivity|].
  assert (G : forall a bits, possible (cfold (fun bit_value (_ : nat) =>
           do pos <- sample_usize (0, w) ;;
           cret (Z.lxor bit_value (Z.shiftl 1 (Z.of_nat pos)))) (seq a (length positions)) bits) (flip_all positions bits)).
  { clear bits. induction H as [|k l Hk _ IH]; intros a bits; cbn [length seq cfold]; [apply possible_ret|].
    eapply possible_bind; [|apply IH].
    apply (possible_bind _ _ k); [apply possible_usize; lia|]. apply possible_ret. }
  apply G.
Qed.
Lemma flip_all_bits positions bits i :
  Z.testbit (flip_all positions bits) (Z.of_nat i) =
  xorb (Z.testbit bits (Z.of_nat i)) (Nat.odd (count_occ Nat.eq_dec positions i)).
Proof.
  revert bits. induction positions as [|k l IH]; intros bits; [cbn; now rewrite xorb_false_r|].
  cbn [flip_all fold_left]. change (fold_left _ l ?b) with (flip_all l b). rewrite IH, Z.lxor_spec.
  cbn [count_occ]. destruct (Nat.eq_dec k i) as [->|N].
  - rewrite Z.shiftl_1_l, Z.pow2_bits_true by lia. rewrite Nat.odd_succ, <- Nat.negb_odd.
    destruct (Z.testbit bits (Z.of_nat i)), (Nat.odd (count_occ Nat.eq_dec l i)); reflexivity.
  - rewrite Z.shiftl_1_l, Z.pow2_bits_false by lia. now rewrite xorb_false_r.
Qed.
Lemma flip_all_range w positions bits : 0 < w -> Forall (fun k => k < w) positions -> unsigned (Z.of_nat w) bits ->
  unsigned (Z.of_nat w) (flip_all positions bits).
Proof.
  intros Hw H U. apply unsigned_bits; [lia|]. intros i Hi. rewrite <- (Z2Nat.id i) by lia. rewrite flip_all_bits.
  rewrite (unsigned_high (Z.of_nat w)) by (auto; lia).
  rewrite (proj1 (count_occ_not_In Nat.eq_dec positions (Z.to_nat i))); [reflexivity|].
  intros K. rewrite Forall_forall in H. specialize (H _ K). lia.
Qed.
Lemma mutation64_possible positions x : Forall (fun k => k < 64) positions -> exists y,
  possible (bitwise_mutation64 (length positions) x) y /\
  forall i, i < 64 -> Z.testbit (to_bits64 y) (Z.of_nat i) =
    xorb (Z.testbit (to_bits64 x) (Z.of_nat i)) (Nat.odd (count_occ Nat.eq_dec positions i)).
Proof.
  intros H. exists (from_bits64 (flip_all positions (to_bits64 x))). split.
  - unfold bitwise_mutation64. eapply possible_bind; [apply flip_possible; [lia|exact H]|apply possible_ret].
  - intros i Hi. rewrite to_from_bits64; [apply flip_all_bits|].
    apply (flip_all_range 64); [lia|exact H|apply to_bits64_range].
Qed.
Lemma mutation32_possible positions x : Forall (fun k => k < 32) positions -> exists y,
  possible (bitwise_mutation32 (length positions) x) y /\
  forall i, i < 32 -> Z.testbit (to_bits32 y) (Z.of_nat i) =
    xorb (Z.testbit (to_bits32 x) (Z.of_nat i)) (Nat.odd (count_occ Nat.eq_dec positions i)).
Proof.
  intros H. exists (from_bits32 (flip_all positions (to_bits32 x))). split.
  - unfold bitwise_mutation32. eapply possible_bind; [apply flip_possible; [lia|exact H]|apply possible_ret].
  - intros i Hi. rewrite to_from_bits32; [apply flip_all_bits|].
    apply (flip_all_range 32); [lia|exact H|apply to_bits32_range].
Qed.

Lemma excl_100 np : uniform_excl (FT := FloatIEEE np) (b_of_Z 0 : f64) (b_of_Z 100) = Ret (b_of_Z 0, b_of_Z 100).
Proof.
  unfold uniform_excl.
  assert (C : flt (FloatTrait := FloatIEEE np) (b_of_Z 0 : f64) (b_of_Z 100) &&
    (ffinite (FloatTrait := FloatIEEE np) (b_of_Z 0 : f64) && ffinite (FloatTrait := FloatIEEE np) (b_of_Z 100 : f64)) = true)
    by (vm_compute; reflexivity).
  now rewrite C.
Qed.
Lemma excl_1 np : uniform_excl (FT := FloatIEEE np) (b_of_Z 0 : f32) (b_of_Z 1) = Ret (b_of_Z 0, b_of_Z 1).
Proof.
  unfold uniform_excl.
  assert (C : flt (FloatTrait := FloatIEEE np) (b_of_Z 0 : f32) (b_of_Z 1) &&
    (ffinite (FloatTrait := FloatIEEE np) (b_of_Z 0 : f32) && ffinite (FloatTrait := FloatIEEE np) (b_of_Z 1 : f32)) = true)
    by (vm_compute; reflexivity).
  now rewrite C.
Qed.
Lemma vec_mutation_possible {G} np probability (single : G -> comp rng G) l l' :
  ltb (b_of_Z 0) probability = true -> ltb probability (b_of_Z 100) = true ->
  Forall2 (fun g g' => g' = g \/ possible (single g) g') l l' ->
  possible (vec_mutation np lens_id probability single l) l'.
Proof.
  intros H0 H1 H. unfold vec_mutation.
  apply (possible_bind_pure _ _ (b_of_Z 0, b_of_Z 100)); [apply excl_100|].
  apply possible_mapM. induction H as [|g g' l l' Hg _ IH]; constructor; [|exact IH]. clear IH.
  assert (LE : forall a b : f64, ltb a b = true -> leb a b = true).
  { intros a b K. apply ltb_key in K. apply leb_key. intuition lra. }
  destruct Hg as [->|Hg].
  - apply (possible_bind _ _ probability).
    + apply possible_zoom_id. apply (@possible_excl f64 (FloatIEEE np) Sampler64 Surjective64); [now apply LE|exact H1].
    + rewrite ltb_irrefl. apply possible_ret.
  - apply (possible_bind _ _ (b_of_Z 0)).
    + apply possible_zoom_id. apply (@possible_excl f64 (FloatIEEE np) Sampler64 Surjective64); vm_compute; reflexivity.
    + rewrite H0. exact Hg.
Qed.

(** ** RandomTeleport *)
Lemma b32_ltb_irrefl (x : f32) : ltb x x = false.
Proof.
  destruct (ltb x x) eqn:E; [|reflexivity]. apply ltb_key in E. destruct E as [_ [_ E]]. exfalso. lra.
Qed.
Section Teleport.
  Context {T : Type} {FT : FloatTrait T} {SA : Sampler T} {Sur : Surjective SA}.
  Variable np32 : nan_policy 24 128.

  Lemma teleport_fold_possible (intervals : list (T * T)) (x y : list T) :
    length x = length intervals ->
    Forall2 (fun g i => fle (fst i) g = true /\ fle g (snd i) = true) y intervals ->
    possible (cfold (fun x i =>
               do d <- cpure (index intervals i) ;;
               do y <- sample_incl d ;;
               cpure (update x i y)) (seq 0 (length x)) x) y.
  Proof.
    intros L H.
    assert (G : forall todo itodo ytodo done idone, length done = length idone -> length todo = length itodo ->
      Forall2 (fun g i => fle (fst i) g = true /\ fle g (snd i) = true) ytodo itodo ->
      possible (cfold (fun x i =>
               do d <- cpure (index (idone ++ itodo) i) ;;
               do y <- sample_incl d ;;
               cpure (update x i y)) (seq (length done) (length todo)) (done ++ todo)) (done ++ ytodo)).
    { clear - Sur. induction todo as [|a todo IH]; intros [|[lo hi] itodo] ytodo done idone Ld Lt H; try discriminate Lt.
      - inversion H; subst. apply possible_ret.
      - inversion H as [|g ? ytodo' ? [H1 H2] Hr]; subst. cbn [length seq cfold].
        apply (possible_bind _ _ (done ++ g :: todo)).
        + apply (possible_bind_pure _ _ (lo, hi)).
          { unfold index. rewrite Ld. now rewrite nth_error_app2, Nat.sub_diag by lia. }
          apply (possible_bind _ _ g); [now apply possible_incl|].
          apply possible_pure. apply update_nth.
        + specialize (IH itodo ytodo' (done ++ [g]) (idone ++ [(lo, hi)])).
          rewrite <- !app_assoc in IH. cbn [app] in IH. rewrite !app_length in IH. cbn [length] in IH.
          rewrite Nat.add_1_r in IH. apply IH; [lia|now injection Lt|exact Hr]. }
    exact (G x intervals y [] [] eq_refl L H).
  Qed.

  Lemma teleport_possible intervals p rt (x y : list T) :
    random_teleport_new intervals p = Ret rt -> length x = length intervals ->
    (ltb (b_of_Z 0) p = true ->
     Forall2 (fun g i => fle (fst i) g = true /\ fle g (snd i) = true) y intervals ->
     possible (random_teleport_post_move np32 rt x) y) /\
    (ltb p (b_of_Z 1) = true -> possible (random_teleport_post_move np32 rt x) x).
  Proof.
    intros N L. assert (NP : random_teleport_new intervals p <> Panic) by (rewrite N; discriminate).
    assert (P0 : leb (b_of_Z 0) p = true).
    { destruct (leb (b_of_Z 0) p) eqn:E; [reflexivity|]. elim NP. apply (teleport_new intervals p). left. now rewrite E. }
    rewrite (proj2 (teleport_new intervals p) NP) in N. injection N as <-.
    assert (S : forall y, possible
      (do between <- cpure (uniform_excl (FT := FloatIEEE np32) (b_of_Z 0) (b_of_Z 1)) ;;
       do rnd <- sample_excl (FT := FloatIEEE np32) between ;;
       if ltb rnd p then cfold (fun x i =>
               do d <- cpure (index intervals i) ;;
               do y <- sample_incl d ;;
               cpure (update x i y)) (seq 0 (length x)) x
       else cret x) y ->
      possible (random_teleport_post_move np32 (RandomTeleport intervals p intervals) x) y).
    { intros z Hz. unfold random_teleport_post_move. cbn [rt_intervals rt_probability rt_random_intervals].
      apply (possible_bind_pure _ _ tt); [now rewrite L, Nat.eqb_refl|exact Hz]. }
    split.
    - intros H0 Hy. apply S. apply (possible_bind_pure _ _ (b_of_Z 0, b_of_Z 1)); [apply excl_1|].
      apply (possible_bind _ _ (b_of_Z 0)).
      { apply (@possible_excl f32 (FloatIEEE np32) Sampler32 Surjective32); vm_compute; reflexivity. }
      rewrite H0. now apply teleport_fold_possible.
    - intros H1. apply S. apply (possible_bind_pure _ _ (b_of_Z 0, b_of_Z 1)); [apply excl_1|].
      apply (possible_bind _ _ p).
      { now apply (@possible_excl f32 (FloatIEEE np32) Sampler32 Surjective32). }
      rewrite b32_ltb_irrefl. apply possible_ret.
  Qed.
End Teleport.
