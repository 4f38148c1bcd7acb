(** * Full populations: a small run and a cosine *)

From Coq Require Import List Arith ZArith Bool Lia Reals Lra.
From Flocq Require Import Core IEEE754.BinarySingleNaN IEEE754.Binary.
From Verif Require Import Base FloatModel Rng GaModel GaComponents StopModel SpecGa SpecTest SpecExample SpecAccuracy SpecWorst FloatFacts
  ExampleRuns DemoFloats DemoGa DemoTrig WorstFacts.
Import ListNotations.

(** Two points, 5 and 3; every generation bears the points 1 and 4 (goal: 2x); keep two individuals. *)
Definition pair_run : ga_config nat Z :=
  ga_new (goal_from_function (fun x => fl (2 * x))) (max_iterations 2) (cret [5; 3]%Z)
         (fun _ => cret [[0; 1]]) (fun _ => cret [1; 4]%Z) (fun x => cret x)
         [fun p => cret (kill_fitness_nan p); fun p => cpure (limit_population 2 p)] [].
(** [lose] with KillFitnessNaN. *)
Definition lose_more : ga_config nat Z := ga_set_selection lose [fun p => cret (kill_fitness_nan p); fun p => cpure (limit_population 1 p)].

Definition found_at (c : ga_config nat Z) : option Z :=
  match fst (fst (ga_find_min c 9 demo_start 0)) with Ret (Some (x, _), _) => Some x | _ => None end.
Lemma pair_found : found_at pair_run = Some 1%Z.
Proof. vm_compute. reflexivity. Qed.
Lemma lose_more_found : found_at lose_more = Some 4%Z.
Proof. vm_compute. reflexivity. Qed.
Lemma pair_first : ga_creator pair_run 0 = (Ret [5; 3]%Z, 0) /\
  Forall (fun x => forall u v u', ga_goal pair_run x u = (Ret v, u') -> is_finite v = true /\ leb v (fl 10) = true) [5; 3]%Z.
Proof.
  split; [reflexivity|]. repeat constructor.
  all: injection H as <- _; vm_compute; reflexivity.
Qed.
Lemma pair_full : full 2 (fl 10) (Population [Individual 5%Z (fl 10) true; Individual 3%Z (fl 6) true] None None 0).
Proof.
  split; [reflexivity|]. split.
  - intros i [<-|[<-|[]]]; repeat split; vm_compute; reflexivity.
  - intros i [H|H]; discriminate H.
Qed.

Lemma fine_zero np : cos_zero (@fcos f32 (fine_libm np)).
Proof.
  intros z Fz Vz. cbn [fcos fine_libm]. unfold fine. rewrite Vz, cos_0, Rmult_1_r, Zfloor_IZR. same_float.
Qed.
Lemma fine_bounded np : cos_bounded (@fcos f32 (fine_libm np)) /\ cos_near (@fcos f32 (fine_libm np)) /\ cos_bounded (@fsin f32 (fine_libm np)).
Proof.
  destruct (fine_libm_near np) as [[B1 N1] [B2 N2]]. split; [exact B1|]. split; [|exact B2].
  intros z Fz Hz. eapply Rle_trans; [apply N1; [exact Fz|lra]|lra].
Qed.
