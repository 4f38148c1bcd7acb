(** * Concrete runs for the examples about loggers and the counted goal *)

From Coq Require Import List Arith ZArith Bool String.
From Verif Require Import Base Logic FloatModel FloatFacts GaModel PsoModel StopModel StatModel LogModel SpecGa SpecPso SpecRun
  SpecStop SpecLog LogFacts DemoGa DemoFloats DemoPso DemoStop.
Import ListNotations.

Lemma lens_snd_ok {A B} : lens_ok (@lens_snd A B).
Proof. split; intros; [reflexivity|destruct u; reflexivity|reflexivity]. Qed.
Lemma lens_id_ok {A} : lens_ok (@lens_id A).
Proof. split; intros; reflexivity. Qed.

(** A component that uses the first half of the environment leaves the second alone. *)
Definition left {U G A} (c : comp U A) : comp (U * G) A := zoom lens_fst c.
Lemma left_apart {U G A} (c : comp U A) : apart (@lens_snd U G) (left c).
Proof.
  split.
  - intros u. unfold left, zoom. simpl. destruct (c (fst u)). reflexivity.
  - intros [a1 b1] [a2 b2] H. specialize (H b1). simpl in H. injection H as ->.
    unfold left, zoom. simpl. destruct (c a2) as [o a']. simpl. split; auto. intros _ _ g. reflexivity.
Qed.
Lemma ret_apart {U G A} (L : lens U G) (a : A) : apart L (cret a).
Proof. split; [intros u; reflexivity|]. intros u1 u2 H. simpl. auto. Qed.
Lemma ga_apart_keep {U T G} i (L : lens U G) (cfg : ga_config U T) : ga_others_apart i L cfg -> ga_others_keep i (lget L) cfg.
Proof.
  intros [Hg [Hst [Hc [Hp [Hx [Hm [Hs [Hb Ho]]]]]]]].
  split; [apply Hg|]. split; [apply Hst|]. split; [apply Hc|]. split; [apply Hp|]. split; [apply Hx|]. split; [apply Hm|].
  split; [now apply Hs|]. split; [now apply Hb|]. intros. now apply (Ho j).
Qed.
Lemma pso_apart_keep {U T G} i (L : lens U G) (cfg : pso_config U T) : pso_others_apart i L cfg -> pso_others_keep i (lget L) cfg.
Proof.
  intros [Hg [Hst [Hc [Hv [Hk [Hpv [Hpm Ho]]]]]]].
  split; [apply Hg|]. split; [apply Hst|]. split; [apply Hc|]. split; [apply Hv|]. split; [apply Hk|].
  split; [now apply Hpv|]. split; [now apply Hpm|]. intros. now apply (Ho j).
Qed.

(** ** A swarm and a herd that are watched by a logger with state [G] *)
Section Watched.
  Context {G : Type} (stop : nat).
  Definition watched_flock (ls : list (logger (env * G) (list f64))) : pso_config (env * G) f64 :=
    PsoConfig (goal_from_function swarm_goal) (max_iterations stop) (left swarm_coordinates) (left swarm_velocities)
      (fun s p => left (swarm_calc s p)) [fun v => left (keep_velocity v)] [fun x => left (box_move x)] ls.
  (** Chromosomes of one gene, children next to their parents. *)
  Definition watched_herd (ls : list (logger (env * G) (list Z))) : ga_config (env * G) (list Z) :=
    ga_set_loggers
      (ga_new (goal_from_function (fun x => fl (hd 0%Z x))) (max_iterations stop) (left (tick (fun _ => [[30]; [20]]%Z)))
         (fun p => left (tick (fun _ => match individuals p with [] => [] | _ => [[0; List.length (individuals p) - 1]] end)))
         (fun parents => left (tick (fun _ => parents)))
         (fun x => left (tick (fun n => map (fun z => (z - 3 + Z.of_nat (n mod 2))%Z) x))) [] [])
      ls.
  Variable l : logger G (list f64).
  Variable k : logger G (list Z).
  Definition flock_watch := watched_flock [attached lens_fst env_logger; attached lens_snd l].
  Definition herd_watch := watched_herd [attached lens_fst env_logger; attached lens_snd k].
  Lemma flock_watch_apart : pso_others_apart 1 lens_snd flock_watch.
  Proof.
    split; [intros x; apply ret_apart|]. split; [intros s; apply ret_apart|]. split; [apply left_apart|].
    split; [apply left_apart|]. split; [intros s p; apply left_apart|].
    split; [intros f v [<-|[]]; apply left_apart|]. split; [intros f x [<-|[]]; apply left_apart|].
    intros [|[|j]] m q s Hj Hne; simpl in Hj; try congruence; [|now destruct j].
    inversion Hj; subst. destruct q; apply left_apart.
  Qed.
  Lemma herd_watch_apart : ga_others_apart 1 lens_snd herd_watch.
  Proof.
    split; [intros x; apply ret_apart|]. split; [intros s; apply ret_apart|]. split; [apply left_apart|].
    split; [intros p; apply left_apart|]. split; [intros p; apply left_apart|]. split; [intros p; apply left_apart|].
    split; [intros f p []|]. split; [intros f p xs []|].
    intros [|[|j]] m q s Hj Hne; simpl in Hj; try congruence; [|now destruct j].
    inversion Hj; subst. destruct q; apply left_apart.
  Qed.
  (** One logger only, the goal counted. *)
  Definition flock_plain := watched_flock [attached lens_fst env_logger].
  Definition herd_plain := watched_herd [attached lens_fst env_logger].
  Lemma flock_plain_apart : pso_others_apart 1 lens_snd flock_plain.
  Proof.
    split; [intros x; apply ret_apart|]. split; [intros s; apply ret_apart|]. split; [apply left_apart|].
    split; [apply left_apart|]. split; [intros s p; apply left_apart|].
    split; [intros f v [<-|[]]; apply left_apart|]. split; [intros f x [<-|[]]; apply left_apart|].
    intros [|j] m q s Hj Hne; simpl in Hj; try congruence; [|now destruct j].
    inversion Hj; subst. destruct q; apply left_apart.
  Qed.
  Lemma herd_plain_apart : ga_others_apart 1 lens_snd herd_plain.
  Proof.
    split; [intros x; apply ret_apart|]. split; [intros s; apply ret_apart|]. split; [apply left_apart|].
    split; [intros p; apply left_apart|]. split; [intros p; apply left_apart|]. split; [intros p; apply left_apart|].
    split; [intros f p []|]. split; [intros f p xs []|].
    intros [|j] m q s Hj Hne; simpl in Hj; try congruence; [|now destruct j].
    inversion Hj; subst. destruct q; apply left_apart.
  Qed.
End Watched.

Definition herd_start : population (list Z) := Population [] None None 0.
Definition env0 : env := (0, 0).
Arguments env0 : simpl never.

Definition returned3 {A B U E} (m : outcome (A * B) * U * list E) : bool :=
  match m with (Ret _, _, _) => true | _ => false end.
Lemma returned3_some {A B U E} (m : outcome (A * B) * U * list E) (P : A -> B -> U -> bool) :
  match m with (Ret (a, b), u, _) => P a b u | _ => false end = true ->
  exists a b u t, m = (Ret (a, b), u, t) /\ P a b u = true.
Proof. destruct m as [[[[a b]| |] u] t]; try discriminate. eauto 8. Qed.

(** ** The statistics logger *)
Definition flock_stat stop : pso_config (env * statistics (list f64)) f64 := flock_watch stop statistics_logger.
Definition herd_stat stop : ga_config (env * statistics (list Z)) (list Z) := herd_watch stop statistics_logger.
Notation counts st n m := ((get_run_count st =? n) && (List.length (convergence st) =? m)).
Lemma flock_stat_returns : exists r s' u' t,
  pso_find_min (flock_stat 3) 10 flock_start (env0, statistics_new) = (Ret (r, s'), u', t) /\
  (counts (snd u') 1 1 && (sw_iteration s' =? 3)) = true.
Proof. apply (returned3_some _ (fun r s' u' => (counts (snd u') 1 1 && (sw_iteration s' =? 3)))). vm_compute. reflexivity. Qed.
Lemma herd_stat_returns : exists r s' u' t,
  ga_find_min (herd_stat 3) 10 herd_start (env0, statistics_new) = (Ret (r, s'), u', t) /\
  (counts (snd u') 1 1 && (iteration s' =? 3)) = true.
Proof. apply (returned3_some _ (fun r s' u' => (counts (snd u') 1 1 && (iteration s' =? 3)))). vm_compute. reflexivity. Qed.

Lemma flock_stat_three : exists r s' u' t,
  pso_find_min (flock_stat 3) 10 flock_start (env0, statistics_new) = (Ret (r, s'), u', t) /\ sw_iteration s' = 3.
Proof.
  destruct flock_stat_returns as [r [s' [u' [t [E H]]]]]. apply andb_true_iff in H. destruct H as [_ H].
  apply Nat.eqb_eq in H. eauto 8.
Qed.
Lemma herd_stat_three : exists r s' u' t,
  ga_find_min (herd_stat 3) 10 herd_start (env0, statistics_new) = (Ret (r, s'), u', t) /\ iteration s' = 3.
Proof.
  destruct herd_stat_returns as [r [s' [u' [t [E H]]]]]. apply andb_true_iff in H. destruct H as [_ H].
  apply Nat.eqb_eq in H. eauto 8.
Qed.
(** The goal counted. *)
Definition same_list (a b : list nat) : bool := if list_eq_dec Nat.eq_dec a b then true else false.
Lemma same_list_eq a b : same_list a b = true -> a = b.
Proof. unfold same_list. destruct list_eq_dec; [auto|discriminate]. Qed.
Lemma herd_counts : exists r p' u' t,
  ga_find_min (ga_with_goal (herd_plain 3) (goal_calc_statistics lens_snd (ga_goal (herd_plain 3)))) 10 herd_start
    (env0, [5; 9]) = (Ret (r, p'), u', t) /\ snd u' = [5; 17].
Proof.
  edestruct (returned3_some (ga_find_min (ga_with_goal (herd_plain 3) (goal_calc_statistics lens_snd (ga_goal (herd_plain 3)))) 10
    herd_start (env0, [5; 9])) (fun _ _ u => same_list (snd u) [5; 17])) as [a [b [c [d [E H]]]]]; [vm_compute; reflexivity|].
  apply same_list_eq in H. eauto 8.
Qed.
Lemma flock_counts : exists r s' u' t,
  pso_find_min (pso_with_goal (flock_plain 3) (goal_calc_statistics lens_snd (pso_goal (flock_plain 3)))) 10 flock_start
    (env0, []) = (Ret (r, s'), u', t) /\ snd u' = [8].
Proof.
  edestruct (returned3_some (pso_find_min (pso_with_goal (flock_plain 3) (goal_calc_statistics lens_snd (pso_goal (flock_plain 3)))) 10
    flock_start (env0, [])) (fun _ _ u => same_list (snd u) [8])) as [a [b [c [d [E H]]]]]; [vm_compute; reflexivity|].
  apply same_list_eq in H. eauto 8.
Qed.

(** Two iterations, then three more. *)
Definition flock_first := pso_find_min (flock_stat 2) 10 flock_start (env0, statistics_new).
Definition flock_first_swarm : swarm f64 := match fst (fst flock_first) with Ret r => snd r | _ => flock_start end.
Definition herd_first := ga_find_min (herd_stat 2) 10 herd_start (env0, statistics_new).
Definition herd_first_pop : population (list Z) := match fst (fst herd_first) with Ret r => snd r | _ => herd_start end.
Definition both {A B U E} (m : outcome (A * B) * U * list E) (d : B) (next : B -> U -> outcome (A * B) * U * list E)
  (P : U -> bool) : bool :=
  match m with
  | (Ret (_, b), u, _) => match next b u with (Ret _, u', _) => P u' | _ => false end
  | _ => false
  end.
Lemma both_some {A B U E} (m : outcome (A * B) * U * list E) d next P : both m d next P = true ->
  exists a b u t a' b' u' t', m = (Ret (a, b), u, t) /\ next b u = (Ret (a', b'), u', t') /\ P u' = true.
Proof.
  destruct m as [[[[a b]| |] u] t]; try discriminate. simpl. destruct (next b u) as [[[[a' b']| |] u'] t'] eqn:En; try discriminate.
  intros H. exists a, b, u, t, a', b', u', t'. auto.
Qed.
Lemma flock_paused : exists r s u t r' s' u' t',
  pso_find_min (flock_stat 2) 10 flock_start (env0, statistics_new) = (Ret (r, s), u, t) /\
  pso_next_iterations (flock_stat 5) 10 s u = (Ret (r', s'), u', t') /\ counts (snd u') 2 1 = true.
Proof.
  apply (both_some _ flock_start (fun s u => pso_next_iterations (flock_stat 5) 10 s u) (fun u => counts (snd u) 2 1)).
  vm_compute. reflexivity.
Qed.
Lemma herd_paused : exists r s u t r' s' u' t',
  ga_find_min (herd_stat 2) 10 herd_start (env0, statistics_new) = (Ret (r, s), u, t) /\
  ga_next_iterations (herd_stat 5) 10 s u = (Ret (r', s'), u', t') /\ counts (snd u') 2 1 = true.
Proof.
  apply (both_some _ herd_start (fun s u => ga_next_iterations (herd_stat 5) 10 s u) (fun u => counts (snd u) 2 1)).
  vm_compute. reflexivity.
Qed.
Lemma flock_stat_ok stop : pso_stat_ok lens_snd (flock_stat stop).
Proof. exists 1. split; [reflexivity|]. apply pso_apart_keep, flock_watch_apart. Qed.
Lemma herd_stat_ok stop : ga_stat_ok lens_snd (herd_stat stop).
Proof. exists 1. split; [reflexivity|]. apply ga_apart_keep, herd_watch_apart. Qed.
Lemma herd_session : exists (p : population (list Z)) (g : statistics (list Z)),
  ga_session (ga_stat_ok lens_snd) (lget (@lens_snd env _)) statistics_new p g 1 1 /\ get_run_count g = 2 /\
  List.length (convergence g) = 1.
Proof.
  destruct herd_paused as [r [s [u [t [r' [s' [u' [t' [E1 [E2 H]]]]]]]]]].
  apply andb_true_iff in H. destruct H as [H1 H2]. apply Nat.eqb_eq in H1, H2.
  exists s', (snd u'). split; auto.
  refine (ga_session_next _ _ _ (herd_stat 5) 10 u s 1 0 r' s' u' t' (herd_stat_ok 5) _ E2).
  refine (ga_session_find _ _ _ (herd_stat 2) 10 (env0, statistics_new) herd_start 0 0 r s u t (herd_stat_ok 2) _ E1).
  apply ga_session_new.
Qed.
Lemma flock_session : exists (s : swarm f64) (g : statistics (list f64)),
  pso_session (pso_stat_ok lens_snd) (lget (@lens_snd env _)) statistics_new s g 1 1 /\ get_run_count g = 2 /\
  List.length (convergence g) = 1.
Proof.
  destruct flock_paused as [r [s [u [t [r' [s' [u' [t' [E1 [E2 H]]]]]]]]]].
  apply andb_true_iff in H. destruct H as [H1 H2]. apply Nat.eqb_eq in H1, H2.
  exists s', (snd u'). split; auto.
  refine (pso_session_next _ _ _ (flock_stat 5) 10 u s 1 0 r' s' u' t' (flock_stat_ok 5) _ E2).
  refine (pso_session_find _ _ _ (flock_stat 2) 10 (env0, statistics_new) flock_start 0 0 r s u t (flock_stat_ok 2) _ E1).
  apply pso_session_new.
Qed.

(** next_iterations before any find_min: with the statistics logger it panics,
    with a logger that does nothing in its place it returns. *)
Lemma fresh_flock :
  fst (fst (pso_next_iterations (flock_stat 3) 10 flock_start (env0, statistics_new))) = Panic /\
  exists r s' u' t, pso_next_iterations (flock_watch 3 no_logger) 10 flock_start (env0, @statistics_new (list f64)) = (Ret (r, s'), u', t).
Proof.
  split; [apply panicked_eq; vm_compute; reflexivity|].
  edestruct (returned3_some (pso_next_iterations (flock_watch 3 no_logger) 10 flock_start (env0, @statistics_new (list f64)))
    (fun _ _ _ => true)) as [a [b [c [d [E _]]]]]; [vm_compute; reflexivity|]. eauto.
Qed.
Lemma fresh_herd :
  fst (fst (ga_next_iterations (herd_stat 3) 10 herd_start (env0, statistics_new))) = Panic /\
  exists r s' u' t, ga_next_iterations (herd_watch 3 no_logger) 10 herd_start (env0, @statistics_new (list Z)) = (Ret (r, s'), u', t).
Proof.
  split; [apply panicked_eq; vm_compute; reflexivity|].
  edestruct (returned3_some (ga_next_iterations (herd_watch 3 no_logger) 10 herd_start (env0, @statistics_new (list Z)))
    (fun _ _ _ => true)) as [a [b [c [d [E _]]]]]; [vm_compute; reflexivity|]. eauto.
Qed.

(** ** The printing loggers: a page of text, a clock and the time logger's start time *)
Notation desk := (string * Z * option Z)%type.
Definition page (d : desk) : string := fst (fst d).
Definition pen (s : string) : comp desk bool := fun d => (Ret true, ((fst (fst d) ++ s)%string, snd (fst d), snd d)).
(** Every look at the clock takes 2.5 ms. *)
Definition clock : comp desk Z := fun d => (Ret (snd (fst d)), (fst (fst d), (snd (fst d) + 2500000)%Z, snd d)).
Definition tally (n : nat) : string := String.concat "" (repeat "|"%string n).
Definition plain {T} : formatter T :=
  Formatter T tally (fun _ _ => "x"%string) (fun _ _ => "v"%string) (fun _ _ => "x"%string) (fun _ _ => "v"%string) tally
    (fun z => tally (Z.to_nat z)).
Lemma pen_prints : prints page pen.
Proof. intros s g. eexists. split; reflexivity. Qed.
Lemma clock_ticks : ticks clock.
Proof. intros g. eexists. eexists. reflexivity. Qed.
Definition desk0 : desk := (""%string, 7%Z, None).
Arguments desk0 : simpl never.
Definition page_is (s : string) (u : env * desk) : bool := if string_dec (page (snd u)) s then true else false.
Lemma page_is_eq s u : page_is s u = true -> page (snd u) = s.
Proof. unfold page_is. destruct string_dec; [auto|discriminate]. Qed.

Definition flock_verbose := flock_watch 2 (verbose_logger plain pen 3).
Definition flock_report := flock_watch 2 (result_only_logger plain pen 3).
Definition flock_time := flock_watch 2 (time_logger plain pen lens_snd clock).
Definition herd_verbose := herd_watch 2 (verbose_logger plain pen 3).
Definition herd_report := herd_watch 2 (result_only_logger plain pen 3).
Definition herd_time := herd_watch 2 (time_logger plain pen lens_snd clock).
Lemma flock_prints cfg s : match pso_find_min cfg 10 flock_start (env0, desk0) with (Ret (_, _), u, _) => page_is s u | _ => false end = true ->
  exists r s' u' t, pso_find_min cfg 10 flock_start (env0, desk0) = (Ret (r, s'), u', t) /\ page (snd u') = s.
Proof.
  intros H. apply (returned3_some _ (fun _ _ u => page_is s u)) in H. destruct H as [r [s' [u' [t [E P]]]]].
  apply page_is_eq in P. eauto 8.
Qed.
Lemma herd_prints cfg s : match ga_find_min cfg 10 herd_start (env0, desk0) with (Ret (_, _), u, _) => page_is s u | _ => false end = true ->
  exists r s' u' t, ga_find_min cfg 10 herd_start (env0, desk0) = (Ret (r, s'), u', t) /\ page (snd u') = s.
Proof.
  intros H. apply (returned3_some _ (fun _ _ u => page_is s u)) in H. destruct H as [r [s' [u' [t [E P]]]]].
  apply page_is_eq in P. eauto 8.
Qed.
