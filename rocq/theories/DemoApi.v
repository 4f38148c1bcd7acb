(** * A genetic optimizer whose selection remembers an individual *)

From Coq Require Import List Arith ZArith Bool.
From Verif Require Import Base Logic FloatModel GaModel SpecGa SpecRun StopModel ApiModel SpecApi ApiFacts DemoGa.
Import ListNotations.

(** The environment: the number of runs begun, and what the selection has saved. *)
Notation elite_env := (nat * list (individual Z))%type.
(** The first run starts from 1, every later one from 5. *)
Definition elite_creator : comp elite_env (list Z) :=
  fun u => (Ret [if (fst u =? 0)%nat then 1 else 5]%Z, (S (fst u), snd u)).
(** Save the first individual; put the one saved first in its place. *)
Definition elite_selection : sel_prog elite_env Z :=
  SSave 0 (SRead (fun p saved => if length saved =? 1 then SDone else SPut 0 0 SDone)).
Definition elite : ga_config elite_env Z :=
  ga_new (goal_from_function demo_goal) (max_iterations 1) elite_creator (fun _ => cret []) (fun xs => cret xs)
    (fun x => cret x) [selection_of lens_snd elite_selection] [].

Lemma elite_lens : lens_ok (@lens_snd nat (list (individual Z))).
Proof. split; intros; try destruct u; reflexivity. Qed.
Lemma elite_tidy : tidy lens_snd elite_selection.
Proof. cbn. intros p l. destruct (length l =? 1); exact I. Qed.
Lemma elite_honest : honest snd elite.
Proof.
  split.
  1-5: intros; intros u; apply copies_refl; intros i Hi; exact Hi.
  - intros l k s [].
  - intros p u. apply copies_refl. intros i Hi. now left.
  - intros f p xs [].
  - intros f p [<-|[]]. apply (programs_honest lens_snd elite_lens elite_selection p elite_tidy).
Qed.

Definition elite_run1 := ga_find_min elite 3 (Population [] None None 0) (0, []).
Lemma elite_run1_eq : elite_run1 = ga_find_min elite 3 (Population [] None None 0) (0, []).
Proof. reflexivity. Qed.
Definition elite_result1 : option (Z * f64) * population Z :=
  match fst (fst elite_run1) with Ret r => r | _ => (None, demo_start) end.
Lemma elite_ret1 : returned (fst (fst elite_run1)) = true.
Proof. vm_compute. reflexivity. Qed.
Lemma elite_returns1 : ga_find_min elite 3 (Population [] None None 0) (0, []) =
  (Ret (fst elite_result1, snd elite_result1), snd (fst elite_run1), snd elite_run1).
Proof. rewrite <- elite_run1_eq. unfold elite_result1. exact (ret_parts elite_run1 (None, demo_start) elite_ret1). Qed.

Definition elite_run2 := ga_find_min elite 3 (snd elite_result1) (snd (fst elite_run1)).
Lemma elite_run2_eq : elite_run2 = ga_find_min elite 3 (snd elite_result1) (snd (fst elite_run1)).
Proof. reflexivity. Qed.
Definition elite_result2 : option (Z * f64) * population Z :=
  match fst (fst elite_run2) with Ret r => r | _ => (None, demo_start) end.
Lemma elite_ret2 : returned (fst (fst elite_run2)) = true.
Proof. vm_compute. reflexivity. Qed.
Lemma elite_returns2 : ga_find_min elite 3 (snd elite_result1) (snd (fst elite_run1)) =
  (Ret (fst elite_result2, snd elite_result2), snd (fst elite_run2), snd elite_run2).
Proof. rewrite <- elite_run2_eq. unfold elite_result2. exact (ret_parts elite_run2 (None, demo_start) elite_ret2). Qed.
Lemma elite_found2 : exists v, fst elite_result2 = Some (1%Z, v) /\ to_bits64 v = to_bits64 (fl 1).
Proof. apply found_some. vm_compute. reflexivity. Qed.
Lemma elite_evals2 : evals (snd elite_run2) = [5%Z].
Proof. vm_compute. reflexivity. Qed.
Lemma elite_life : ga_life snd (eq elite) (snd elite_result1) (snd (fst elite_run1)) (snd elite_run1).
Proof. exact (life_find snd (eq elite) elite 3 _ _ [] _ _ _ _ eq_refl (life_new snd (eq elite) (0, []) eq_refl) elite_returns1). Qed.

Lemma elite_old_point : exists (cfg : ga_config elite_env Z) fuel p u h x v p' u' t,
  honest snd cfg /\ ga_life snd (eq cfg) p u h /\
  ga_find_min cfg fuel p u = (Ret (Some (x, v), p'), u', t) /\ ~ In x (evals t).
Proof.
  destruct elite_found2 as [v [E _]]. pose proof elite_returns2 as R. rewrite E in R.
  exists elite, 3. eexists _, _, _, _, _, _, _, _. split; [exact elite_honest|]. split; [exact elite_life|].
  split; [exact R|]. rewrite elite_evals2. intros [H|[]]. discriminate.
Qed.
