(** * Runs and configurations for the examples of C89 and C90 *)

From Coq Require Import List Arith ZArith Bool Lia Permutation.
From Flocq Require Import IEEE754.Binary.
From Verif Require Import Base FloatModel Rng GaModel StatModel TestFuncModel ExampleModel StatProgramModel
  SpecGa SpecSel SpecBox SpecTest SpecExample SpecStat SpecStatProgram SpecBudget FloatFacts StatProgramFacts StatProgramRuns
  ExampleAsserts DemoFloats DemoGa DemoExample.
Import ListNotations.
Local Open Scope nat_scope.

(** Two processors make 500 runs each, whichever is first. *)
Lemma demo_programs : exists rp1 rp2,
  @particleswarm_schwefel_statistics np32_default np64_default demo_libm32 3001 [counter; one_two] [0; 1] = Ret rp1 /\
  @particleswarm_schwefel_statistics np32_default np64_default demo_libm32 3001 [counter; one_two] [1; 0] = Ret rp2 /\
  rp_run_count rp1 = 1000 /\ length (rp_solutions rp1) = 1000 /\ same_summary rp1 rp2.
Proof.
  destruct demo_terminal as (_ & _ & _ & Hs & _).
  pose proof (@particleswarm_schwefel_reports np32_default np64_default demo_libm32 true 3001 Hs ltac:(lia)) as H.
  destruct (H [counter; one_two] ltac:(simpl; lia)) as [per [Lp [Fp R]]].
  assert (P1 : Permutation [0; 1] (seq 0 2)) by apply Permutation_refl.
  assert (P2 : Permutation [1; 0] (seq 0 2)) by apply perm_swap.
  destruct (R _ P1) as [rp1 [E1 R1]], (R _ P2) as [rp2 [E2 R2]].
  exists rp1, rp2. split; [exact E1|]. split; [exact E2|].
  assert (L : length (concat (map (fun i => nth i per []) [0; 1])) = 1000).
  { destruct per as [|a [|b [|? ?]]]; simpl in Lp; try lia. inversion Fp as [|? ? [A _] F2]; subst. inversion F2 as [|? ? [B _] _]; subst.
    cbn [map concat nth]. rewrite !app_length. cbn [length] in *. change (1000 / 2) with 500 in *.
    rewrite A, B. reflexivity. }
  split; [|split].
  - destruct R1 as (N & _). rewrite L in N. exact N.
  - destruct R1 as (_ & S & _). rewrite S, combine_length, seq_length, map_length, L. reflexivity.
  - exact (any_order _ _ _ _ _ _ _ [counter; one_two] _ _ _ _ H ltac:(simpl; lia) P1 P2 E1 E2).
Qed.

(** A report on two runs: one has found the minimum at (1, 1, 1), with 40 calls, the other is
    at (0, 0, 0), with 61 calls.  Half of them succeed; the mean goal is 1. *)
Definition two_runs : list stat_run :=
  [StatRun ([b_of_Z 1; b_of_Z 1; b_of_Z 1], b_of_Z 0) [([b_of_Z 0; b_of_Z 1; b_of_Z 1], b_of_Z 1); ([b_of_Z 1; b_of_Z 1; b_of_Z 1], b_of_Z 0)] 40;
   StatRun ([b_of_Z 0; b_of_Z 0; b_of_Z 0], b_of_Z 2) [([b_of_Z 0; b_of_Z 0; b_of_Z 0], b_of_Z 2)] 61].
Lemma demo_report : exists rp,
  print_report np32_default np64_default (b_of_Z 1) (decimal32 1 2) 3 (data_of two_runs) = Ret rp /\
  rp_run_count rp = 2 /\ map fst (rp_solutions rp) = [0; 1] /\ map fst (rp_convergence rp) = [0] /\
  map (fun x => to_bits64 x)
    (rp_success_rate rp :: rp_average_goal rp :: rp_average_calls rp :: map snd (rp_convergence rp)) =
  map (fun x => to_bits64 x) [decimal64 5 1; decimal64 1 0; decimal64 505 1; decimal64 15 1].
Proof.
  destruct (print_report np32_default np64_default (b_of_Z 1) (decimal32 1 2) 3 (data_of two_runs)) as [rp| |] eqn:E.
  - exists rp. split; [reflexivity|].
    assert (K : forall {A} (f : report -> A) d, f rp = match print_report np32_default np64_default (b_of_Z 1) (decimal32 1 2) 3 (data_of two_runs) with Ret r => f r | _ => d end).
    { intros A f d. now rewrite E. }
    split; [rewrite (K _ rp_run_count 0); vm_compute; reflexivity|].
    split; [rewrite (K _ (fun r => map fst (rp_solutions r)) []); vm_compute; reflexivity|].
    split; [rewrite (K _ (fun r => map fst (rp_convergence r)) []); vm_compute; reflexivity|].
    rewrite (K _ (fun r => map (fun x => to_bits64 x) (rp_success_rate r :: rp_average_goal r :: rp_average_calls r :: map snd (rp_convergence r))) []).
    vm_compute. reflexivity.
  - exfalso. assert (C : match print_report np32_default np64_default (b_of_Z 1) (decimal32 1 2) 3 (data_of two_runs) with Ret _ => true | _ => false end = true)
      by (vm_compute; reflexivity). rewrite E in C. discriminate C.
  - exfalso. assert (C : match print_report np32_default np64_default (b_of_Z 1) (decimal32 1 2) 3 (data_of two_runs) with Ret _ => true | _ => false end = true)
      by (vm_compute; reflexivity). rewrite E in C. discriminate C.
Qed.

(** The sum of the goals is rounded, so the average can depend on the order of the runs. *)
Lemma order_matters : exists gs1 gs2 : list f64, Permutation gs1 gs2 /\ Forall (fun g => is_finite g = true) gs1 /\
  mean64 np64_default gs1 <> mean64 np64_default gs2.
Proof.
  exists [b_of_Z (2 ^ 53); b_of_Z 1; b_of_Z 1], [b_of_Z 1; b_of_Z 1; b_of_Z (2 ^ 53)]. split; [|split].
  - apply (Permutation_app_comm [_] [_; _]).
  - repeat constructor; vm_compute; reflexivity.
  - intros H. apply (f_equal to_bits64) in H. vm_compute in H. discriminate H.
Qed.

(** The demo optimizer: two chromosomes, one family, two children. *)
Lemma demo_economy : ga_economy (fun _ => True) 2 1 2 demo.
Proof.
  constructor.
  - intros u xs u' H. injection H as <- _. reflexivity.
  - exact I.
  - intros p u l u' _ H. injection H as <- _. auto.
  - intros xs u ys u' H. change (ga_cross demo xs u) with (demo_cross xs u) in H. unfold demo_cross in H.
    destruct xs as [|a [|b [|? ?]]]; try discriminate H. injection H as <- _. auto.
  - intros f p xs u ys u' [<-|[]] H. injection H as <- _. clear. induction xs as [|x l IH]; simpl; [auto|].
    destruct (Z.abs x <=? 6)%Z; simpl; lia.
  - now left.
Qed.

(** Every coordinate created is 1. *)
Definition ones : rng := fun _ => to_bits64 one64.
Lemma map_repeat {A B} (f : A -> B) a n : map f (repeat a n) = repeat (f a) n.
Proof. induction n as [|n IH]; simpl; [reflexivity|now rewrite IH]. Qed.
Lemma returned_unit (o : outcome unit) : returned o = true -> o = Ret tt.
Proof. destruct o as [[]| |]; [reflexivity|discriminate|discriminate]. Qed.
Lemma demo_rosenbrock_test :
  @test_genetic_rosenbrock np32_default np64_default demo_libm32 true 2 (repeat ones 100) (seq 0 100) = Ret tt.
Proof.
  apply returned_unit. unfold test_genetic_rosenbrock. rewrite repeat_length. cbn [Nat.eqb obind]. rewrite map_repeat.
  match goal with |- context [fst ?m] => pattern (fst m) end.
  vm_compute. reflexivity.
Qed.
