(** * Property C100: what breeding cannot leave *)

From Coq Require Import List Arith ZArith Bool Lia.
From Flocq Require Import Core.FLX IEEE754.BinarySingleNaN IEEE754.Binary.
From Verif Require Import Base Logic FloatModel Rng GaModel GaComponents StopModel
  SpecGa SpecBits SpecBox SpecStandard SpecClosed ClosedFacts DemoFloats DemoLibm.
Import ListNotations.

(** A set closed under the components contains everything that is ever evaluated, shown or returned. *)
Theorem C100_find_min :
  forall (U T : Type) (cfg : ga_config U T) (S : T -> Prop), closed S cfg ->
  forall fuel p u o u' t,
    (forall xs u1, ga_creator cfg u = (Ret xs, u1) -> Forall S xs) ->
    ga_find_min cfg fuel p u = (o, u', t) ->
    lived_in S t /\ forall r p', o = Ret (r, p') -> inside S p' /\ forall x v, r = Some (x, v) -> S x.
Proof. exact @closed_find. Qed.
Print Assumptions C100_find_min.

Theorem C100_next_iterations :
  forall (U T : Type) (cfg : ga_config U T) (S : T -> Prop), closed S cfg ->
  forall fuel p u o u' t, inside S p ->
    ga_next_iterations cfg fuel p u = (o, u', t) ->
    lived_in S t /\ forall r p', o = Ret (r, p') -> inside S p' /\ forall x v, r = Some (x, v) -> S x.
Proof. exact @closed_next. Qed.
Print Assumptions C100_next_iterations.

(** ** Components *)
Theorem C100_vec_cross :
  forall (U G : Type) d (Q : nat -> G -> Prop) (single : list G -> comp U (list G)), (forall k, inherits (Q k) single) ->
  forall xs u ys u', Forall (gene_wise d Q) xs -> vec_cross_all_genes single xs u = (Ret ys, u') -> Forall (gene_wise d Q) ys.
Proof. exact @vec_cross_closed. Qed.
Print Assumptions C100_vec_cross.

Theorem C100_vec_mutation :
  forall (U G : Type) (np : nan_policy 53 1024) (L : lens U rng) probability (single : G -> comp U G) d (Q : nat -> G -> Prop),
    (forall k g u g' u', Q k g -> single g u = (Ret g', u') -> Q k g') ->
    forall x u y u', gene_wise d Q x -> vec_mutation np L probability single x u = (Ret y, u') -> gene_wise d Q y.
Proof. exact @vec_mutation_closed. Qed.
Print Assumptions C100_vec_mutation.

(** CrossMean keeps intervals whose doubled ends are finite. *)
Theorem C100_mean :
  forall (prec emax : Z) (Hp : Prec_gt_0 prec) (He : Prec_lt_emax prec emax) (np : nan_policy prec emax) (U : Type)
    (lo hi : bfloat prec emax),
    is_finite (b_add np lo lo) = true -> is_finite (b_add np hi hi) = true ->
    inherits (fun g => is_finite g = true /\ leb lo g = true /\ leb g hi = true)
      (fun parents => @cpure U _ (@cross_mean (bfloat prec emax) (@NumOpsFloat _ (FloatIEEE np)) parents)).
Proof. exact @mean_inherits. Qed.
Print Assumptions C100_mean.

(** CrossBitwise keeps the bits on which the parents agree. *)
Theorem C100_bits_f64 :
  forall (U : Type) (L : lens U rng) dbg mask pattern,
    inherits (fun g => schema mask pattern (to_bits64 g)) (fun parents => zoom L (cross_bitwise64 dbg parents)).
Proof. exact @bitwise64_inherits. Qed.
Print Assumptions C100_bits_f64.
Theorem C100_bits_f32 :
  forall (U : Type) (L : lens U rng) dbg mask pattern,
    inherits (fun g => schema mask pattern (to_bits32 g)) (fun parents => zoom L (cross_bitwise32 dbg parents)).
Proof. exact @bitwise32_inherits. Qed.
Print Assumptions C100_bits_f32.

(** FloatCrossExp keeps a gene, zero or normal, that the parents share. *)
Theorem C100_exp_f64 :
  forall (U : Type) (L : lens U rng) (LM : Libm f64) np dbg x, exact_exp2 LM -> zero_or_normal x ->
    inherits (eq x) (fun parents => zoom L (@float_cross_exp f64 (FloatIEEE np) LM _ dbg parents)).
Proof. exact @exp64_clone. Qed.
Print Assumptions C100_exp_f64.
Theorem C100_exp_f32 :
  forall (U : Type) (L : lens U rng) (LM : Libm f32) np dbg x, exact_exp2 LM -> zero_or_normal x ->
    inherits (eq x) (fun parents => zoom L (@float_cross_exp f32 (FloatIEEE np) LM _ dbg parents)).
Proof. exact @exp32_clone. Qed.
Print Assumptions C100_exp_f32.
Theorem C100_bits_clone_f64 :
  forall (U : Type) (L : lens U rng) dbg x, inherits (eq x) (fun parents => zoom L (cross_bitwise64 dbg parents)).
Proof. exact @bitwise64_clone. Qed.
Print Assumptions C100_bits_clone_f64.
Theorem C100_bits_clone_f32 :
  forall (U : Type) (L : lens U rng) dbg x, inherits (eq x) (fun parents => zoom L (cross_bitwise32 dbg parents)).
Proof. exact @bitwise32_clone. Qed.
Print Assumptions C100_bits_clone_f32.

(** ** Optimizers whose mutation probability is not positive *)

(** What every cross of genes keeps, the run keeps. *)
Theorem C100_unmutated :
  forall (prec emax : Z) (Hp : Prec_gt_0 prec) (He : Prec_lt_emax prec emax) (np : nan_policy prec emax)
    (np64 : nan_policy 53 1024) (U : Type) (L : lens U rng) box d (Q : nat -> bfloat prec emax -> Prop)
    (cfg : ga_config U (list (bfloat prec emax))) probability single mutation,
    ga_cross cfg = vec_cross_all_genes single -> (forall k, inherits (Q k) single) ->
    ga_mutation cfg = vec_mutation np64 L probability mutation -> ltb (b_of_Z 0 : f64) probability = false ->
    Forall (fun f => exists b, f = fun p xs => cpure (@pre_birth_interval _ (FloatIEEE np) b p xs)) (ga_pre_births cfg) ->
    Forall (standard_selection np box) (ga_selections cfg) ->
    closed (gene_wise d Q) cfg.
Proof. exact @unmutated_closed. Qed.
Print Assumptions C100_unmutated.

(** With CrossMean the run stays in every box that holds the first population. *)
Theorem C100_mean_hull :
  forall (prec emax : Z) (Hp : Prec_gt_0 prec) (He : Prec_lt_emax prec emax) (np : nan_policy prec emax)
    (np64 : nan_policy 53 1024) (U : Type) (L : lens U rng) box sel_box
    (cfg : ga_config U (list (bfloat prec emax))) probability mutation,
    ga_cross cfg = vec_cross_all_genes (fun parents => cpure (@cross_mean _ (@NumOpsFloat _ (FloatIEEE np)) parents)) ->
    (forall lo hi, In (lo, hi) box -> is_finite (b_add np lo lo) = true /\ is_finite (b_add np hi hi) = true) ->
    ga_mutation cfg = vec_mutation np64 L probability mutation -> ltb (b_of_Z 0 : f64) probability = false ->
    Forall (fun f => exists b, f = fun p xs => cpure (@pre_birth_interval _ (FloatIEEE np) b p xs)) (ga_pre_births cfg) ->
    Forall (standard_selection np sel_box) (ga_selections cfg) ->
    closed (in_box box) cfg.
Proof. exact @mean_hull. Qed.
Print Assumptions C100_mean_hull.

(** A population of clones breeds nothing but clones. *)
Theorem C100_clones :
  forall (prec emax : Z) (Hp : Prec_gt_0 prec) (He : Prec_lt_emax prec emax) (np : nan_policy prec emax)
    (np64 : nan_policy 53 1024) (U : Type) (L : lens U rng) box (x : list (bfloat prec emax))
    (cfg : ga_config U (list (bfloat prec emax))) probability single mutation,
    ga_cross cfg = vec_cross_all_genes single -> (forall g, In g x -> inherits (eq g) single) ->
    ga_mutation cfg = vec_mutation np64 L probability mutation -> ltb (b_of_Z 0 : f64) probability = false ->
    Forall (fun f => exists b, f = fun p xs => cpure (@pre_birth_interval _ (FloatIEEE np) b p xs)) (ga_pre_births cfg) ->
    Forall (standard_selection np box) (ga_selections cfg) ->
    closed (eq x) cfg.
Proof. exact @clones_closed. Qed.
Print Assumptions C100_clones.

(** Two parents, their mean, and its mean with a parent: all between -2 and 10, between 1 and 4. *)
Definition hull_box : list (f64 * f64) := [(minus_two64, ten64); (one64, four64)].
Definition hull_ga : ga_config rng (list f64) :=
  GaConfig (goal_from_function (fun x => nth 0 x ten64)) (max_iterations 2)
    (cret [[minus_two64; four64]; [ten64; one64]]) (fun p => cret [[0; length (individuals p) - 1]])
    (vec_cross_all_genes (fun parents => cpure (@cross_mean f64 (@NumOpsFloat f64 (FloatIEEE np64_default)) parents)))
    (vec_mutation np64_default lens_id (b_of_Z 0) (fun g => zoom lens_id (bitwise_mutation64 3 g)))
    [fun p => cret (kill_fitness_nan p); fun p => cpure (limit_population 4 p)]
    [fun p cs => cpure (@pre_birth_interval f64 (FloatIEEE np64_default) hull_box p cs)] [].
Definition no_population : population (list f64) := Population [] None None 0.

Example C100_nonvacuous :
  closed (in_box hull_box) hull_ga /\
  (forall xs u1, ga_creator hull_ga counter = (Ret xs, u1) -> Forall (in_box hull_box) xs) /\
  map (map to_bits64) (evals (snd (ga_find_min hull_ga 5 no_population counter))) =
    map (map to_bits64) [[minus_two64; four64]; [ten64; one64]; [b_of_Z 4; b_div np64_default (b_of_Z 5) two64];
                         [one64; b_div np64_default (b_of_Z 13) four64]].
Proof.
  split; [|split].
  - eapply (C100_mean_hull 53 1024 _ _ np64_default np64_default rng lens_id hull_box hull_box hull_ga (b_of_Z 0)); try reflexivity.
    + intros lo hi [E|[E|[]]]; injection E as <- <-; split; reflexivity.
    + constructor; [|constructor]. exists hull_box. reflexivity.
    + constructor; [apply std_kill_nan|]. constructor; [apply std_limit; lia|constructor].
  - intros xs u1 E. injection E as <- _. repeat constructor.
  - vm_compute. reflexivity.
Qed.

(** Clones of (-2, 4) under FloatCrossExp. *)
Definition clone_ga : ga_config rng (list f64) :=
  GaConfig (goal_from_function (fun x => nth 0 x ten64)) (max_iterations 2)
    (cret [[minus_two64; four64]; [minus_two64; four64]]) (fun p => cret [[0; length (individuals p) - 1]])
    (vec_cross_all_genes (fun parents => zoom lens_id (@float_cross_exp f64 (FloatIEEE np64_default) demo_libm _ true parents)))
    (vec_mutation np64_default lens_id minus_two64 (fun g => zoom lens_id (bitwise_mutation64 3 g)))
    [fun p => cret (kill_fitness_nan p); fun p => cpure (limit_population 3 p)] [] [].
Example C100_clones_nonvacuous :
  closed (eq [minus_two64; four64]) clone_ga /\
  map (map to_bits64) (evals (snd (ga_find_min clone_ga 5 no_population counter))) =
    repeat (map to_bits64 [minus_two64; four64]) 4.
Proof.
  split.
  - eapply (C100_clones 53 1024 _ _ np64_default np64_default rng lens_id hull_box _ clone_ga minus_two64); try reflexivity.
    + intros g [<-|[<-|[]]]; apply C100_exp_f64; try exact demo_exact_exp2; vm_compute; discriminate.
    + constructor.
    + constructor; [apply std_kill_nan|]. constructor; [apply std_limit; lia|constructor].
  - vm_compute. reflexivity.
Qed.

(** Genes that agree on the sign and the exponent, under CrossBitwise. *)
Example C100_bits_nonvacuous :
  let mask := Z.lxor (2 ^ 64 - 1) (2 ^ 52 - 1) in
  schema mask (to_bits64 two64) (to_bits64 two64) /\ schema mask (to_bits64 two64) (to_bits64 three64) /\
  ~ schema mask (to_bits64 two64) (to_bits64 four64) /\
  exists l, fst (zoom lens_id (cross_bitwise64 true [two64; three64]) counter) = Ret l /\ length l = 1.
Proof.
  cbv zeta. split; [vm_compute; reflexivity|]. split; [vm_compute; reflexivity|]. split; [vm_compute; discriminate|].
  apply (show_ret (@length f64)). vm_compute. reflexivity.
Qed.

(** The doubled ends must be finite: the mean of the greatest number with itself is infinite. *)
Definition greatest64 : f64 := @Binary.B754_finite 53 1024 false 9007199254740991 971 eq_refl.
Theorem C100_overflow_limit :
  exists c, @cross_mean f64 (@NumOpsFloat f64 (FloatIEEE np64_default)) [greatest64; greatest64] = Ret [c] /\
    is_finite c = false.
Proof. eexists. split; [cbv; reflexivity|reflexivity]. Qed.
Print Assumptions C100_overflow_limit.
