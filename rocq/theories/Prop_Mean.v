(** * Property C84: accuracy of means *)

From Coq Require Import List Arith ZArith Bool Lia Reals Lra.
From Flocq Require Import Core IEEE754.BinarySingleNaN IEEE754.Binary.
From Verif Require Import Base FloatModel GaModel GaComponents StatModel SpecStat SpecMean SumFacts DemoFloats.
Import ListNotations.

(** ** C84 *)
Theorem C84_cross_mean :
  forall prec emax (Hp : Prec_gt_0 prec) (He : Prec_lt_emax prec emax) (np : nan_policy prec emax)
    (parents : list (bfloat prec emax)),
    2 <= length parents -> summable parents ->
    exists c, @cross_mean _ (@NumOpsFloat _ (FloatIEEE np)) parents = Ret [c] /\ near_mean c parents.
Proof. exact @cross_mean_near. Qed.
Print Assumptions C84_cross_mean.
Theorem C84_average_goal :
  forall (T : Type) (np64 : nan_policy 53 1024) (l : list (option (T * f64))) a,
    get_average_goal np64 l = Some a -> summable (goals l) -> near_mean a (goals l).
Proof. exact @average_goal_near. Qed.
Print Assumptions C84_average_goal.
Theorem C84_average_convergence :
  forall (T : Type) (np64 : nan_policy 53 1024) (c : list (list (option (T * f64)))) l i,
    get_average_convergence np64 c = Ret l -> i < length l -> column c i <> [] -> summable (column c i) ->
    exists a, nth_error l i = Some (Some a) /\ near_mean a (column c i).
Proof. exact @average_convergence_near. Qed.
Print Assumptions C84_average_convergence.
Theorem C84_average :
  forall prec emax (Hp : Prec_gt_0 prec) (He : Prec_lt_emax prec emax) (np : nan_policy prec emax)
    (np64 : nan_policy 53 1024) (l : list (option (list (bfloat prec emax) * f64))) v goal j x,
    @get_average _ (FloatIEEE np) np64 l = Ret (Some (v, goal)) -> nth_error v j = Some x ->
    summable (components j l) -> near_mean x (components j l).
Proof. exact @average_near. Qed.
Print Assumptions C84_average.

Definition three_goals : list f64 := [one64; three64; two64].
Example C84_summable : summable three_goals.
Proof.
  assert (E : total three_goals = 6%R).
  { unfold total, three_goals, real_sum. simpl. unfold F2R. simpl.
    rewrite !Rabs_pos_eq by lra. lra. }
  split; [|split].
  - intros x [<-|[<-|[<-|[]]]]; reflexivity.
  - vm_compute. discriminate.
  - rewrite E. unfold roundoff. change (length three_goals - 1) with 2.
    assert (U : (0 < bpow radix2 (-53) <= bpow radix2 0)%R) by (split; [apply bpow_gt_0|apply bpow_le; lia]).
    assert (B : (bpow radix2 10 < bpow radix2 1024)%R) by (apply bpow_lt; lia).
    change (bpow radix2 0) with 1%R in U. change (bpow radix2 10) with 1024%R in B.
    eapply Rle_lt_trans; [|exact B]. simpl pow. nra.
Qed.
Example C84_nonvacuous :
  summable (goals [Some (0, one64); None; Some (1, three64); Some (2, two64)]) /\
  exists a, get_average_goal np64_default [Some (0, one64); None; Some (1, three64); Some (2, two64)] = Some a /\
    to_bits64 a = to_bits64 two64.
Proof. split; [exact C84_summable|]. eexists. split; [reflexivity|]. vm_compute. reflexivity. Qed.
Example C84_convergence_nonvacuous :
  let c := [[Some (0, one64)]; [None; None]; [Some (1, three64)]; [Some (2, two64)]] in
  column c 0 = three_goals /\
  exists l, get_average_convergence np64_default c = Ret l /\ map (option_map to_bits64) l = [Some (to_bits64 two64)].
Proof. split; [reflexivity|]. apply (show_ret (map (option_map to_bits64))). vm_compute. reflexivity. Qed.
Example C84_vectors_nonvacuous :
  let l := [Some ([one64], one64); Some ([three64], one64); None; Some ([two64], one64)] in
  components 0 l = three_goals /\
  option_map (option_map (fun s : list f64 * f64 => map to_bits64 (fst s)))
    (show (fun x => x) (@get_average f64 (FloatIEEE np64_default) np64_default l)) = Some (Some [to_bits64 two64]).
Proof. split; [reflexivity|vm_compute; reflexivity]. Qed.

(** Exactness cannot be had, nor even a child between its parents, once there
    are three of them: the mean of three parents 0.1 is greater than 0.1. *)
Theorem C84_three_parents_limit :
  exists (np : nan_policy 53 1024) (x c : f64),
    is_finite x = true /\ @cross_mean _ (@NumOpsFloat _ (FloatIEEE np)) [x; x; x] = Ret [c] /\ ltb x c = true.
Proof.
  exists np64_default, (from_bits64 0x3FB999999999999A). eexists. split; [vm_compute; reflexivity|].
  split; [reflexivity|]. vm_compute. reflexivity.
Qed.
Print Assumptions C84_three_parents_limit.
