(** * Properties C48-C52, C73: stop checkers, pausing *)

From Coq Require Import List Arith ZArith Bool Lia.
From Verif Require Import Base Logic FloatModel GaModel PsoModel StopModel SpecGa SpecPso SpecRun SpecStop
  FloatFacts LoopFacts StopProofs StopRuns DemoFloats DemoGa DemoPso DemoStop.
Import ListNotations.

(** ** C48: MaxIterations(n) stops exactly at n. *)
Theorem C48_ga_find_min_iterations :
  forall (U T : Type) (cfg : ga_config U T) n fuel p u r p' u' t, ga_stop cfg = max_iterations n ->
    ga_find_min cfg fuel p u = (Ret (r, p'), u', t) -> iteration p' = n.
Proof. exact @ga_max_find. Qed.
Print Assumptions C48_ga_find_min_iterations.
Theorem C48_ga_next_iterations_iterations :
  forall (U T : Type) (cfg : ga_config U T) n fuel p u r p' u' t, ga_stop cfg = max_iterations n ->
    ga_next_iterations cfg fuel p u = (Ret (r, p'), u', t) -> iteration p' = Nat.max (iteration p) n.
Proof. exact @ga_max_next. Qed.
Print Assumptions C48_ga_next_iterations_iterations.
Theorem C48_pso_find_min_iterations :
  forall (U T : Type) (FT : FloatTrait T) (cfg : pso_config U T) n fuel s u r s' u' t,
    pso_stop cfg = max_iterations n ->
    pso_find_min cfg fuel s u = (Ret (r, s'), u', t) -> sw_iteration s' = n.
Proof. exact @pso_max_find. Qed.
Print Assumptions C48_pso_find_min_iterations.
Theorem C48_pso_next_iterations_iterations :
  forall (U T : Type) (FT : FloatTrait T) (cfg : pso_config U T) n fuel s u r s' u' t,
    pso_stop cfg = max_iterations n ->
    pso_next_iterations cfg fuel s u = (Ret (r, s'), u', t) -> sw_iteration s' = Nat.max (sw_iteration s) n.
Proof. exact @pso_max_next. Qed.
Print Assumptions C48_pso_next_iterations_iterations.
(** Termination: if every component call returns or panics, so does the run. *)
Theorem C48_ga_find_min_ends :
  forall (U T : Type) (cfg : ga_config U T) n fuel p u,
    ga_ends cfg -> ga_stop cfg = max_iterations n -> n < fuel ->
    fst (fst (ga_find_min cfg fuel p u)) <> NoFuel.
Proof. exact @ga_ends_find. Qed.
Print Assumptions C48_ga_find_min_ends.
Theorem C48_ga_next_iterations_ends :
  forall (U T : Type) (cfg : ga_config U T) n fuel p u,
    ga_ends cfg -> ga_stop cfg = max_iterations n -> n - iteration p < fuel ->
    fst (fst (ga_next_iterations cfg fuel p u)) <> NoFuel.
Proof. exact @ga_ends_next. Qed.
Print Assumptions C48_ga_next_iterations_ends.
Theorem C48_pso_find_min_ends :
  forall (U T : Type) (FT : FloatTrait T) (cfg : pso_config U T) n fuel s u,
    pso_ends cfg -> pso_stop cfg = max_iterations n -> n < fuel ->
    fst (fst (pso_find_min cfg fuel s u)) <> NoFuel.
Proof. exact @pso_ends_find. Qed.
Print Assumptions C48_pso_find_min_ends.
Theorem C48_pso_next_iterations_ends :
  forall (U T : Type) (FT : FloatTrait T) (cfg : pso_config U T) n fuel s u,
    pso_ends cfg -> pso_stop cfg = max_iterations n -> n - sw_iteration s < fuel ->
    fst (fst (pso_next_iterations cfg fuel s u)) <> NoFuel.
Proof. exact @pso_ends_next. Qed.
Print Assumptions C48_pso_next_iterations_ends.

Example C48_nonvacuous :
  ga_stop pausing = max_iterations 0 /\ ga_ends pausing /\
  (exists r p' u' t,
     ga_find_min (ga_set_stop_checker pausing (max_iterations (2 + 3))) 10 demo_start (0, 0)
       = (Ret (r, p'), u', t) /\ iteration p' = 5) /\
  exists r s' u' t,
    pso_find_min (pso_set_stop_checker flock (max_iterations (2 + 3))) 10 flock_start (0, 0)
      = (Ret (r, s'), u', t) /\ sw_iteration s' = 5.
Proof.
  split; [reflexivity|]. split; [exact pausing_ends|]. split; [exact pausing_returns|exact flock_five_returns].
Qed.

(** ** C49: Threshold(t) stops at the first state that has reached t. *)
Theorem C49_ga_threshold :
  forall (U T : Type) (cfg : ga_config U T) thr fuel p u r p' u' t, ga_stop cfg = threshold thr ->
    ga_find_min cfg fuel p u = (Ret (r, p'), u', t) \/
    ga_next_iterations cfg fuel p u = (Ret (r, p'), u', t) ->
    (exists x v, r = Some (x, v) /\ leb v thr = true) /\
    exists l, stops t = map (fun q => (q, false)) l ++ [(p', true)] /\
      forall q i, In q l -> best_individual q = Some i -> leb (fitness i) thr = false.
Proof. exact @ga_threshold. Qed.
Print Assumptions C49_ga_threshold.
Theorem C49_pso_threshold :
  forall (U T : Type) (FT : FloatTrait T) (cfg : pso_config U T) thr fuel s u r s' u' t,
    pso_stop cfg = threshold thr ->
    pso_find_min cfg fuel s u = (Ret (r, s'), u', t) \/
    pso_next_iterations cfg fuel s u = (Ret (r, s'), u', t) ->
    (exists x v, r = Some (x, v) /\ leb v thr = true) /\
    exists l, stops t = map (fun q => (q, false)) l ++ [(s', true)] /\
      forall q b, In q l -> best_particle q = Some b -> leb (value b) thr = false.
Proof. exact @pso_threshold. Qed.
Print Assumptions C49_pso_threshold.

Example C49_nonvacuous :
  ga_stop demo_threshold = threshold (fl 1) /\
  (exists r p' u' t, ga_find_min demo_threshold 10 demo_start 0 = (Ret (r, p'), u', t) /\ iteration p' = 1) /\
  pso_stop flock_threshold = threshold two64 /\
  exists r p' u' t,
    pso_find_min flock_threshold 10 flock_start (0, 0) = (Ret (r, p'), u', t) /\ sw_iteration p' = 2.
Proof.
  split; [reflexivity|]. split; [exact demo_threshold_returns|]. split; [reflexivity|exact flock_threshold_returns].
Qed.

(** ** C50: the composite checkers. *)
Theorem C50_composite_any :
  forall (U T : Type) (cs : list (stop_checker U T)) s u o u', composite_any cs s u = (o, u') ->
    match o with
    | Ret true => exists pre c post, cs = pre ++ c :: post /\
        asked (map (fun c => c s) (pre ++ [c])) u (repeat false (length pre) ++ [true]) u'
    | Ret false => asked (map (fun c => c s) cs) u (repeat false (length cs)) u'
    | _ => exists pre c post u1, cs = pre ++ c :: post /\
        asked (map (fun c => c s) pre) u (repeat false (length pre)) u1 /\ c s u1 = (o, u')
    end.
Proof. exact @any_spec. Qed.
Print Assumptions C50_composite_any.
Theorem C50_composite_all :
  forall (U T : Type) (cs : list (stop_checker U T)) s u o u', composite_all cs s u = (o, u') ->
    match o with
    | Ret false => exists pre c post, cs = pre ++ c :: post /\
        asked (map (fun c => c s) (pre ++ [c])) u (repeat true (length pre) ++ [false]) u'
    | Ret true => asked (map (fun c => c s) cs) u (repeat true (length cs)) u'
    | _ => exists pre c post u1, cs = pre ++ c :: post /\
        asked (map (fun c => c s) pre) u (repeat true (length pre)) u1 /\ c s u1 = (o, u')
    end.
Proof. exact @all_spec. Qed.
Print Assumptions C50_composite_all.
Theorem C50_any_is_or :
  forall (U T : Type) (fs : list (alg_state T -> bool)) (cs : list (stop_checker U T)),
    Forall2 decides fs cs -> decides (fun s => existsb (fun f => f s) fs) (composite_any cs).
Proof. exact @any_decides. Qed.
Print Assumptions C50_any_is_or.
Theorem C50_all_is_and :
  forall (U T : Type) (fs : list (alg_state T -> bool)) (cs : list (stop_checker U T)),
    Forall2 decides fs cs -> decides (fun s => forallb (fun f => f s) fs) (composite_all cs).
Proof. exact @all_decides. Qed.
Print Assumptions C50_all_is_and.
Theorem C50_new :
  forall (U T : Type) (cs : list (stop_checker U T)),
    (cs = [] <-> composite_new cs = Panic) /\ (cs <> [] <-> composite_new cs = Ret cs).
Proof. exact @new_spec. Qed.
Print Assumptions C50_new.

(** Checkers that count how often they are asked. *)
Example C50_nonvacuous :
  composite_any [counting false; counting true; counting true] (AlgState (@None (Z * f64)) 0) 5 = (Ret true, 7) /\
  composite_any [counting false; counting false] (AlgState (@None (Z * f64)) 0) 5 = (Ret false, 7) /\
  composite_all [counting true; counting false; counting true] (AlgState (@None (Z * f64)) 0) 5 = (Ret false, 7) /\
  Forall2 decides [fun s => 3 <=? as_iter s; fun _ => false]
          [max_iterations 3; composite_any [] : stop_checker nat Z].
Proof.
  split; [reflexivity|]. split; [reflexivity|]. split; [reflexivity|].
  constructor; [intros s u; reflexivity|]. constructor; [intros s u; reflexivity|constructor].
Qed.

(** ** C51: GoalNotChange, asked of a new object about a sequence of states. *)
Theorem C51_goal_not_change :
  forall (T : Type) (np64 : nan_policy 53 1024) (dbg : bool) (m : nat) (delta : f64) (ss : list (alg_state T)),
    not_decreasing (map as_iter ss) ->
    exists bs g, asked (map (goal_not_change np64 dbg m delta) ss) gnc_new bs g /\ length bs = length ss /\
      forall k s b, nth_error ss k = Some s -> nth_error bs k = Some b ->
        (b = true <-> as_best s <> None /\
           exists r c, reference (differ np64 delta) (best_goals (firstn k ss ++ [s])) r c /\
             m < as_iter s - c).
Proof. exact @gnc_run. Qed.
Print Assumptions C51_goal_not_change.
(** ... which is what happens in a whole run, and no other component can interfere. *)
Theorem C51_ga_goal_not_change :
  forall (np64 : nan_policy 53 1024) (dbg : bool) (m : nat) (delta : f64) (U T : Type) (l : lens U gnc)
         (cfg : ga_config U T) fuel p u r p' u' t,
    lens_ok l -> ga_keeps (lget l) cfg ->
    ga_stop cfg = (fun s => zoom l (goal_not_change np64 dbg m delta s)) ->
    lget l u = gnc_new -> ga_find_min cfg fuel p u = (Ret (r, p'), u', t) ->
    quiet_answers np64 m delta ga_view t.
Proof. exact @ga_goal_not_change. Qed.
Print Assumptions C51_ga_goal_not_change.
Theorem C51_pso_goal_not_change :
  forall (np64 : nan_policy 53 1024) (dbg : bool) (m : nat) (delta : f64) (U T : Type) (FT : FloatTrait T)
         (l : lens U gnc) (cfg : pso_config U T) fuel s u r s' u' t,
    lens_ok l -> pso_keeps (lget l) cfg ->
    pso_stop cfg = (fun s => zoom l (goal_not_change np64 dbg m delta s)) ->
    lget l u = gnc_new -> pso_find_min cfg fuel s u = (Ret (r, s'), u', t) ->
    quiet_answers np64 m delta pso_view t.
Proof. exact @pso_goal_not_change. Qed.
Print Assumptions C51_pso_goal_not_change.
(** Any checker with state of its own: the run asks it about consecutive
    iterations, once each, and obeys. *)
Theorem C51_ga_stop_checker_asked :
  forall (U T G : Type) (l : lens U G), lens_ok l ->
  forall (cfg : ga_config U T) (stop : alg_state T -> comp G bool) fuel p u r p' u' t,
    ga_keeps (lget l) cfg -> ga_stop cfg = (fun s => zoom l (stop s)) ->
    (ga_find_min cfg fuel p u = (Ret (r, p'), u', t) ->
       consult ga_view stop 0 t (lget l u) (lget l u')) /\
    (ga_next_iterations cfg fuel p u = (Ret (r, p'), u', t) ->
       consult ga_view stop (iteration p) t (lget l u) (lget l u')).
Proof. exact @ga_asked. Qed.
Print Assumptions C51_ga_stop_checker_asked.
Theorem C51_pso_stop_checker_asked :
  forall (U T G : Type) (l : lens U G), lens_ok l ->
  forall (FT : FloatTrait T) (cfg : pso_config U T) (stop : alg_state (list T) -> comp G bool)
         fuel s u r s' u' t,
    pso_keeps (lget l) cfg -> pso_stop cfg = (fun s => zoom l (stop s)) ->
    (pso_find_min cfg fuel s u = (Ret (r, s'), u', t) ->
       consult pso_view stop 0 t (lget l u) (lget l u')) /\
    (pso_next_iterations cfg fuel s u = (Ret (r, s'), u', t) ->
       consult pso_view stop (sw_iteration s) t (lget l u) (lget l u')).
Proof. exact @pso_asked. Qed.
Print Assumptions C51_pso_stop_checker_asked.
(** What the reference means: all goals since it was taken are within delta. *)
Theorem C51_reference_quiet :
  forall (np64 : nan_policy 53 1024) (delta : f64) h r c, reference (differ np64 delta) h r c ->
    exists h1 h2, h = h1 ++ h2 /\ Forall (fun iv => differ np64 delta (snd iv) r = false) h2 /\
      (h1 = [] /\ r = f64_MAX /\ c = 0 \/ exists h0, h1 = h0 ++ [(c, r)]).
Proof. exact @reference_quiet. Qed.
Print Assumptions C51_reference_quiet.
Theorem C51_reference_unique :
  forall (np64 : nan_policy 53 1024) (delta : f64) h r c, reference (differ np64 delta) h r c ->
    forall r' c', reference (differ np64 delta) h r' c' -> r' = r /\ c' = c.
Proof. exact @reference_unique. Qed.
Print Assumptions C51_reference_unique.
(** A finite goal that stays the same for more than m iterations is noticed. *)
Theorem C51_constant_goal_stops :
  forall (T : Type) (np64 : nan_policy 53 1024) (dbg : bool) (m : nat) (delta : f64)
         (ss1 : list (alg_state T)) s0 ss2 s v,
    is_finite v = true -> leb (b_of_Z 0) delta = true ->
    not_decreasing (map as_iter (ss1 ++ s0 :: ss2 ++ [s])) ->
    (forall q, In q (s0 :: ss2 ++ [s]) -> exists x, as_best q = Some (x, v)) ->
    m < as_iter s - as_iter s0 ->
    exists bs g, asked (map (goal_not_change np64 dbg m delta) (ss1 ++ s0 :: ss2 ++ [s])) gnc_new (bs ++ [true]) g.
Proof. exact @gnc_quiet. Qed.
Print Assumptions C51_constant_goal_stops.

(** The first run of [reuse]: best goals 5, 3, 1, 1, 1, 1, stopped at iteration 5. *)
Example C51_nonvacuous :
  lens_ok (@lens_fst gnc nat) /\ ga_keeps (lget lens_fst) (reuse true) /\
  ga_stop (reuse true) = (fun s => zoom lens_fst (goal_not_change np64_default true 2 (fl 0) s)) /\
  exists r t,
    ga_find_min (reuse true) 20 demo_start (gnc_new, 0) = (Ret (r, reuse_pop true), reuse_env true, t) /\
    iteration (reuse_pop true) = 5.
Proof.
  split; [exact lens_fst_ok|]. split; [exact (reuse_keeps true)|]. split; [reflexivity|exact (reuse_ret true)].
Qed.

(** ** C52: using a checker object for a second run.  False for GoalNotChange: the
    iteration number and goal of the last run stay in it.  Witness: with debug
    assertions the second run panics, without it stops after one iteration; a
    fresh checker lets it run for four. *)
Theorem C52_stop_checker_reuse_refuted :
  exists (cfg : ga_config (gnc * nat) Z) p1 u1,
    ga_stop cfg = (fun s => zoom lens_fst (goal_not_change np64_default true 2 (fl 0) s)) /\
    (exists r1 t1, ga_find_min cfg 20 (Population [] None None 0) (gnc_new, 0) = (Ret (r1, p1), u1, t1)) /\
    fst (fst (ga_find_min cfg 20 p1 u1)) = Panic /\
    (exists r p' u' t, ga_find_min cfg 20 p1 (gnc_new, snd u1) = (Ret (r, p'), u', t) /\ iteration p' = 4).
Proof. exact reuse_witness_debug. Qed.
Print Assumptions C52_stop_checker_reuse_refuted.
Theorem C52_stop_checker_reuse_release_refuted :
  exists (cfg : ga_config (gnc * nat) Z) p1 u1,
    ga_stop cfg = (fun s => zoom lens_fst (goal_not_change np64_default false 2 (fl 0) s)) /\
    (exists r1 t1, ga_find_min cfg 20 (Population [] None None 0) (gnc_new, 0) = (Ret (r1, p1), u1, t1)) /\
    (exists r p' u' t, ga_find_min cfg 20 p1 u1 = (Ret (r, p'), u', t) /\ iteration p' = 1) /\
    (exists r p' u' t, ga_find_min cfg 20 p1 (gnc_new, snd u1) = (Ret (r, p'), u', t) /\ iteration p' = 4).
Proof. exact reuse_witness_release. Qed.
Print Assumptions C52_stop_checker_reuse_release_refuted.
(** What holds: if the first best goal of the second run differs enough from what
    the checker remembers (and from f64::MAX), it answers like a new one, for ever.
    Missing: goals near the remembered one. *)
Theorem C52_stop_checker_reuse_partial :
  forall (T : Type) (np64 : nan_policy 53 1024) (dbg : bool) (m : nat) (delta : f64)
         (s : alg_state T) ss x v g,
    as_best s = Some (x, v) -> differ np64 delta v (old_goal g) = true ->
    differ np64 delta v f64_MAX = true ->
    forall bs g', asked (map (goal_not_change np64 dbg m delta) (s :: ss)) g bs g' <->
                  asked (map (goal_not_change np64 dbg m delta) (s :: ss)) gnc_new bs g'.
Proof. exact @gnc_reused. Qed.
Print Assumptions C52_stop_checker_reuse_partial.

(** MaxIterations and Threshold have no state at all (see C50: [decides]). *)
Example C52_nonvacuous :
  differ np64_default one64 three64 two64 = false /\ differ np64_default tiny64 three64 two64 = true /\
  differ np64_default tiny64 three64 f64_MAX = true /\
  decides (fun s : alg_state Z => 7 <=? as_iter s) (max_iterations 7 : stop_checker nat Z) /\
  exists f, decides f (threshold two64 : stop_checker nat Z).
Proof.
  split; [vm_compute; reflexivity|]. split; [vm_compute; reflexivity|]. split; [vm_compute; reflexivity|].
  split; [intros s u; reflexivity|]. eexists. intros s u. unfold threshold, cret. reflexivity.
Qed.

(** ** C73: pausing and resuming the genetic algorithm changes nothing. *)
Theorem C73_ga_pause_resume :
  forall (U T : Type) (R : U -> U -> Prop) (cfg : ga_config U T) n m fuel p u r p' u' t,
    ga_unaffected R cfg ->
    ga_find_min (ga_set_stop_checker cfg (max_iterations (n + m))) fuel p u = (Ret (r, p'), u', t) ->
    exists r1 p1 u1 t1 u2 t2,
      ga_find_min (ga_set_stop_checker cfg (max_iterations n)) fuel p u = (Ret (r1, p1), u1, t1) /\
      ga_next_iterations (ga_set_stop_checker cfg (max_iterations (n + m))) fuel p1 u1
        = (Ret (r, p'), u2, t2) /\
      work t1 ++ work t2 = work t /\ R u' u2.
Proof. exact @ga_pause_resume. Qed.
Print Assumptions C73_ga_pause_resume.

Example C73_nonvacuous :
  ga_unaffected same_work pausing /\ length (ga_loggers pausing) = 2 /\
  exists r p' u' t,
    ga_find_min (ga_set_stop_checker pausing (max_iterations (2 + 3))) 10 demo_start (0, 0)
      = (Ret (r, p'), u', t) /\ iteration p' = 5.
Proof. split; [exact pausing_unaffected|]. split; [reflexivity|exact pausing_returns]. Qed.
