(** * Concrete runs for the examples about stop checkers *)

From Coq Require Import List Arith ZArith Bool RelationClasses.
From Verif Require Import Base Logic FloatModel FloatFacts GaModel PsoModel StopModel SpecGa SpecPso SpecRun
  SpecStop DemoGa DemoFloats DemoPso.
Import ListNotations.

(** ** A GoalNotChange checker that is used for two runs

    The environment: the state of the checker, and the number of calls of the
    creator.  The first population is [5], later ones are [1]; the goal is the
    point itself, and children are smaller by two, down to 1. *)
Definition reuse (dbg : bool) : ga_config (gnc * nat) Z :=
  ga_new (goal_from_function fl)
         (fun s => zoom lens_fst (goal_not_change np64_default dbg 2 (fl 0) s))
         (fun u => (Ret [if snd u =? 0 then 5%Z else 1%Z], (fst u, S (snd u))))
         (fun p => cret [[length (individuals p) - 1; length (individuals p) - 1]])
         (fun parents => cret [Z.max 1 (hd 0 parents - 2)]%Z) (fun x => cret x) [] [].
Definition reuse_first dbg := ga_find_min (reuse dbg) 20 demo_start (gnc_new, 0).
Definition reuse_pop dbg : population Z :=
  match fst (fst (reuse_first dbg)) with Ret r => snd r | _ => demo_start end.
Definition reuse_env dbg : gnc * nat := snd (fst (reuse_first dbg)).
(** ... again, with the checker as the first run left it, or with a new one. *)
Definition reuse_second dbg := ga_find_min (reuse dbg) 20 (reuse_pop dbg) (reuse_env dbg).
Definition reuse_renewed dbg :=
  ga_find_min (reuse dbg) 20 (reuse_pop dbg) (gnc_new, snd (reuse_env dbg)).

Definition ended {A} (o : outcome (A * population Z)) : option nat :=
  match o with Ret r => Some (iteration (snd r)) | _ => None end.
Lemma ended_some {A U E} (m : outcome (A * population Z) * U * list E) n : ended (fst (fst m)) = Some n ->
  exists r p' u' t, m = (Ret (r, p'), u', t) /\ iteration p' = n.
Proof. destruct m as [[[[r p]| |] u] t]; simpl; intros H; inversion H. eauto 8. Qed.
Definition panicked {A} (o : outcome A) : bool := match o with Panic => true | _ => false end.
Lemma panicked_eq {A} (o : outcome A) : panicked o = true -> o = Panic.
Proof. destruct o; simpl; congruence. Qed.

Lemma reuse_ret dbg : exists r t,
  ga_find_min (reuse dbg) 20 demo_start (gnc_new, 0) = (Ret (r, reuse_pop dbg), reuse_env dbg, t) /\
  iteration (reuse_pop dbg) = 5.
Proof.
  assert (E : ended (fst (fst (reuse_first dbg))) = Some 5) by (destruct dbg; vm_compute; reflexivity).
  apply ended_some in E. destruct E as [r [p' [u' [t [E I]]]]].
  exists r, t. unfold reuse_pop, reuse_env. change (ga_find_min _ _ _ _) with (reuse_first dbg).
  rewrite E. simpl. auto.
Qed.
Lemma reuse_panics : fst (fst (reuse_second true)) = Panic.
Proof. apply panicked_eq. vm_compute. reflexivity. Qed.
Lemma reuse_early : ended (fst (fst (reuse_second false))) = Some 1.
Proof. vm_compute. reflexivity. Qed.
Lemma reuse_new dbg : ended (fst (fst (reuse_renewed dbg))) = Some 4.
Proof. destruct dbg; vm_compute; reflexivity. Qed.

Lemma reuse_witness_debug :
  exists (cfg : ga_config (gnc * nat) Z) p1 u1,
    ga_stop cfg = (fun s => zoom lens_fst (goal_not_change np64_default true 2 (fl 0) s)) /\
    (exists r1 t1, ga_find_min cfg 20 (Population [] None None 0) (gnc_new, 0) = (Ret (r1, p1), u1, t1)) /\
    fst (fst (ga_find_min cfg 20 p1 u1)) = Panic /\
    (exists r p' u' t, ga_find_min cfg 20 p1 (gnc_new, snd u1) = (Ret (r, p'), u', t) /\ iteration p' = 4).
Proof.
  exists (reuse true), (reuse_pop true), (reuse_env true). split; [reflexivity|].
  split; [destruct (reuse_ret true) as [r [t [E _]]]; exists r, t; exact E|].
  split; [exact reuse_panics|]. apply (ended_some _ _ (reuse_new true)).
Qed.
Lemma reuse_witness_release :
  exists (cfg : ga_config (gnc * nat) Z) p1 u1,
    ga_stop cfg = (fun s => zoom lens_fst (goal_not_change np64_default false 2 (fl 0) s)) /\
    (exists r1 t1, ga_find_min cfg 20 (Population [] None None 0) (gnc_new, 0) = (Ret (r1, p1), u1, t1)) /\
    (exists r p' u' t, ga_find_min cfg 20 p1 u1 = (Ret (r, p'), u', t) /\ iteration p' = 1) /\
    (exists r p' u' t, ga_find_min cfg 20 p1 (gnc_new, snd u1) = (Ret (r, p'), u', t) /\ iteration p' = 4).
Proof.
  exists (reuse false), (reuse_pop false), (reuse_env false). split; [reflexivity|].
  split; [destruct (reuse_ret false) as [r [t [E _]]]; exists r, t; exact E|].
  split; [apply (ended_some _ _ reuse_early)|]. apply (ended_some _ _ (reuse_new false)).
Qed.

(** ** Threshold *)
Definition demo_threshold : ga_config nat Z := ga_set_stop_checker demo (threshold (fl 1)).
Lemma demo_threshold_returns : exists r p' u' t,
  ga_find_min demo_threshold 10 demo_start 0 = (Ret (r, p'), u', t) /\ iteration p' = 1.
Proof. apply ended_some. vm_compute. reflexivity. Qed.
Definition flock_threshold : pso_config (nat * nat) f64 := pso_set_stop_checker flock (threshold two64).
Definition swarm_ended {A} (o : outcome (A * swarm f64)) : option nat :=
  match o with Ret r => Some (sw_iteration (snd r)) | _ => None end.
Lemma swarm_ended_some {A U E} (m : outcome (A * swarm f64) * U * list E) n :
  swarm_ended (fst (fst m)) = Some n ->
  exists r p' u' t, m = (Ret (r, p'), u', t) /\ sw_iteration p' = n.
Proof. destruct m as [[[[r p]| |] u] t]; simpl; intros H; inversion H. eauto 8. Qed.
Lemma flock_threshold_returns : exists r p' u' t,
  pso_find_min flock_threshold 10 flock_start (0, 0) = (Ret (r, p'), u', t) /\ sw_iteration p' = 2.
Proof. apply swarm_ended_some. vm_compute. reflexivity. Qed.

(** ** Pausing: loggers with a counter of their own *)
Definition pausing : ga_config (nat * nat) Z :=
  ga_set_loggers
    (ga_new (goal_from_function demo_goal) (max_iterations 0) (tick (fun _ => [3; -2]%Z))
       (fun p => tick (fun _ => [[0; length (individuals p) - 1]]))
       (fun parents => tick (fun _ => parents))
       (fun x => tick (fun n => if Nat.even n then (x + 1)%Z else (1 - x)%Z)) [] [])
    [env_logger; env_logger].
Lemma pausing_unaffected : ga_unaffected same_work pausing.
Proof.
  split; [apply same_work_equivalence|].
  assert (H : forall A (a : nat -> A), comp_respects same_work (tick a)).
  { intros A a u1 u2 E. unfold tick, same_work in *. simpl. rewrite E. auto. }
  split; [intros x u1 u2 E; simpl; auto|]. split; [apply H|]. split; [intros; apply H|].
  split; [intros; apply H|]. split; [intros; apply H|]. split; [intros f p []|].
  split; [intros f p xs []|].
  intros l [<-|[<-|[]]] [] st u; simpl; split; reflexivity.
Qed.
Lemma pausing_returns : exists r p' u' t,
  ga_find_min (ga_set_stop_checker pausing (max_iterations (2 + 3))) 10 demo_start (0, 0)
    = (Ret (r, p'), u', t) /\ iteration p' = 5.
Proof. apply ended_some. vm_compute. reflexivity. Qed.
Lemma flock_five_returns : exists r p' u' t,
  pso_find_min (pso_set_stop_checker flock (max_iterations (2 + 3))) 10 flock_start (0, 0)
    = (Ret (r, p'), u', t) /\ sw_iteration p' = 5.
Proof. apply swarm_ended_some. vm_compute. reflexivity. Qed.

(** A run without any iteration still finds something. *)
Definition swarm_finds {T U E} (m : outcome (option (list T * f64) * swarm T) * U * list E) : bool :=
  match m with (Ret (Some _, _), _, _) => true | _ => false end.
Lemma swarm_finds_some T U E (m : outcome (option (list T * f64) * swarm T) * U * list E) :
  swarm_finds m = true -> exists x v s' u' t, m = (Ret (Some (x, v), s'), u', t).
Proof. destruct m as [[[[[[x v]|] s']| |] u'] t]; try discriminate. intros _. eauto 8. Qed.
Lemma flock_zero : exists x v s' u' t,
  pso_find_min (pso_set_stop_checker flock (max_iterations 0)) 10 flock_start (0, 0)
    = (Ret (Some (x, v), s'), u', t).
Proof. apply swarm_finds_some. vm_compute. reflexivity. Qed.
Definition no_flock : pso_config (nat * nat) f64 :=
  PsoConfig (goal_from_function swarm_goal) (max_iterations 3) (cret []) (cret []) swarm_calc [] [] [].
Definition swarm_finds_none {T U E} (m : outcome (option (list T * f64) * swarm T) * U * list E) : bool :=
  match m with (Ret (None, _), _, _) => true | _ => false end.
Lemma swarm_finds_none_eq T U E (m : outcome (option (list T * f64) * swarm T) * U * list E) :
  swarm_finds_none m = true -> exists s' u' t, m = (Ret (None, s'), u', t).
Proof. destruct m as [[[[[[x v]|] s']| |] u'] t]; try discriminate. intros _. eauto 8. Qed.
Lemma no_flock_none : exists s' u' t,
  pso_find_min no_flock 10 flock_start (0, 0) = (Ret (None, s'), u', t).
Proof. apply swarm_finds_none_eq. vm_compute. reflexivity. Qed.

(** ** More facts about the examples *)
Lemma pausing_ends : ga_ends pausing.
Proof.
  assert (H : forall A (a : nat -> A), ends (tick a)) by (intros A a u; discriminate).
  split; [intros x u; discriminate|]. split; [apply H|]. split; [intros; apply H|].
  split; [intros; apply H|]. split; [intros; apply H|]. split; [intros f p []|].
  split; [intros f p xs []|]. intros l k s [<-|[<-|[]]] u; destruct k; discriminate.
Qed.
Lemma reuse_keeps dbg : ga_keeps (lget lens_fst) (reuse dbg).
Proof.
  split; [intros x u; reflexivity|]. split; [intros u; reflexivity|]. split; [intros p u; reflexivity|].
  split; [intros p u; reflexivity|]. split; [intros p u; reflexivity|]. split; [intros f p []|].
  split; [intros f p xs []|intros l k s []].
Qed.
Lemma lens_fst_ok {A B} : lens_ok (@lens_fst A B).
Proof. split; intros; [reflexivity|destruct u; reflexivity|reflexivity]. Qed.
(** A checker that counts how often it is asked. *)
Definition counting (b : bool) : stop_checker nat Z := fun _ n => (Ret b, S n).
