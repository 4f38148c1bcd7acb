(** * Property C97: accuracy of standard deviations *)

From Coq Require Import List Arith ZArith Bool Lia Reals Lra.
From Flocq Require Import Core IEEE754.BinarySingleNaN IEEE754.Binary.
From Verif Require Import Base FloatModel GaModel StatModel SpecStat SpecMean SpecSpeed SpecDev DevFacts
  DemoFloats.
Import ListNotations.

(** ** C97 *)
Theorem C97_goal :
  forall (T : Type) (np64 : nan_policy 53 1024) (l : list (option (T * f64))) d,
    get_standard_deviation_goal np64 l = Some d -> summable (goals l) -> is_finite d = true ->
    near_deviation d (goals l).
Proof. exact @goal_deviation_near. Qed.
Print Assumptions C97_goal.
Theorem C97_vector :
  forall prec emax (Hp : Prec_gt_0 prec) (He : Prec_lt_emax prec emax) (np : nan_policy prec emax),
    (1 < prec)%Z ->
    forall (np64 : nan_policy 53 1024) (l : list (option (list (bfloat prec emax) * f64))) v goal j d,
    @get_standard_deviation _ (FloatIEEE np) np64 l = Ret (Some (v, goal)) -> nth_error v j = Some d ->
    summable (components j l) -> is_finite d = true -> near_deviation d (components j l).
Proof. exact @vector_deviation_near. Qed.
Print Assumptions C97_vector.

(** Goals 1, 3, 2 of four runs; their deviation is 1. *)
Definition dev_results : list (option (nat * f64)) :=
  [Some (0, one64); None; Some (1, three64); Some (2, two64)].
Definition dev_vectors : list (option (list f64 * f64)) :=
  [Some ([one64], one64); Some ([three64], one64); None; Some ([two64], one64)].
Lemma dev_summable : summable [one64; three64; two64].
Proof.
  assert (E : total [one64; three64; two64] = 6%R).
  { unfold total, real_sum. simpl. unfold F2R. simpl. rewrite !Rabs_pos_eq by lra. lra. }
  split; [|split].
  - intros x [<-|[<-|[<-|[]]]]; reflexivity.
  - vm_compute. discriminate.
  - rewrite E. unfold roundoff. simpl length. simpl Nat.sub.
    assert (U : (0 < bpow radix2 (-53) <= bpow radix2 0)%R) by (split; [apply bpow_gt_0|apply bpow_le; lia]).
    assert (B : (bpow radix2 10 < bpow radix2 1024)%R) by (apply bpow_lt; lia).
    change (bpow radix2 0) with 1%R in U. change (bpow radix2 10) with 1024%R in B.
    eapply Rle_lt_trans; [|exact B]. simpl pow. nra.
Qed.
Example C97_nonvacuous :
  summable (goals dev_results) /\
  (exists d, get_standard_deviation_goal np64_default dev_results = Some d /\ is_finite d = true /\
     to_bits64 d = to_bits64 one64) /\
  real_deviation (map value64 (goals dev_results)) = 1%R.
Proof.
  split; [exact dev_summable|]. split.
  - eexists. split; [reflexivity|]. split; vm_compute; reflexivity.
  - assert (E : map value64 (goals dev_results) = [1; 3; 2]%R).
    { simpl. unfold F2R. simpl. repeat (apply f_equal2; [lra|]). reflexivity. }
    rewrite E. unfold real_deviation, real_mean, real_sum, Rsqr. cbn [map fold_right length Nat.sub INR].
    match goal with |- sqrt ?x = _ => replace x with (1 * 1)%R by field end. apply sqrt_square. lra.
Qed.
Example C97_vector_nonvacuous :
  summable (components 0 dev_vectors) /\
  option_map (option_map (fun s : list f64 * f64 => map to_bits64 (fst s)))
    (show (fun x => x) (@get_standard_deviation f64 (FloatIEEE np64_default) np64_default dev_vectors))
    = Some (Some [to_bits64 one64]).
Proof. split; [exact dev_summable|]. vm_compute. reflexivity. Qed.
(** How small the slack is there. *)
Example C97_slack :
  (mean_error (prec := 53) (emax := 1024) [one64; three64; two64] <= bpow radix2 (-50))%R.
Proof.
  assert (E : total [one64; three64; two64] = 6%R).
  { unfold total, real_sum. simpl. unfold F2R. simpl. rewrite !Rabs_pos_eq by lra. lra. }
  unfold mean_error, roundoff. rewrite E.
  assert (S : (bpow radix2 (3 - 1024 - 53) <= bpow radix2 (-60))%R) by (apply bpow_le; lia).
  set (t := bpow radix2 (3 - 1024 - 53)) in *. clearbody t.
  simpl length. unfold bpow in *. simpl Z.pow_pos in *. simpl INR. simpl pow. lra.
Qed.

(** Limits.  Squares overflow: the deviation of 2^600 and -2^600 is infinite. *)
Theorem C97_overflow_limit :
  exists (l : list (option (nat * f64))) d,
    forallb is_finite (goals l) = true /\ get_standard_deviation_goal np64_default l = Some d /\ is_finite d = false.
Proof.
  exists [Some (0, @Binary.B754_finite 53 1024 false 4503599627370496 548 eq_refl);
          Some (1, @Binary.B754_finite 53 1024 true 4503599627370496 548 eq_refl)].
  eexists. split; [vm_compute; reflexivity|]. split; [reflexivity|]. vm_compute. reflexivity.
Qed.
Print Assumptions C97_overflow_limit.
(** The error of the mean enters: three equal goals 0.1 have a positive deviation. *)
Theorem C97_equal_goals_limit :
  exists (g d : f64),
    is_finite g = true /\ get_standard_deviation_goal np64_default [Some (0, g); Some (1, g); Some (2, g)] = Some d /\
    ltb (Binary.B754_zero false) d = true.
Proof.
  exists (from_bits64 0x3FB999999999999A). eexists. split; [vm_compute; reflexivity|].
  split; [reflexivity|]. vm_compute. reflexivity.
Qed.
Print Assumptions C97_equal_goals_limit.
