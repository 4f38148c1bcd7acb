(** * Properties C29-C37, C47, C71, C72, C74: the particle swarm optimizer *)

From Coq Require Import List Arith ZArith Bool Lia.
From Verif Require Import Base Logic FloatModel GaModel PsoModel PsoComponents StopModel SpecGa SpecPso SpecRun
  SpecBox FloatFacts PsoFacts PsoRuns PsoProofs BoxFacts StopProofs DemoFloats DemoGa DemoPso DemoStop.
Import ListNotations.

(** ** C29: a returned solution was really evaluated. *)
Theorem C29_pso_result_evaluated :
  forall (U T : Type) (FT : FloatTrait T) (ok : pso_config U T -> Prop) s h (cfg : pso_config U T) fuel u x v s' u' t,
    pso_reach ok s h ->
    (pso_find_min cfg fuel s u = (Ret (Some (x, v), s'), u', t) -> evaluated t x v) /\
    (pso_next_iterations cfg fuel s u = (Ret (Some (x, v), s'), u', t) -> evaluated (h ++ t) x v).
Proof. exact @pso_result_evaluated. Qed.
Print Assumptions C29_pso_result_evaluated.
(** The recorded answers are answers the components really gave, whatever the outcome. *)
Theorem C29_pso_events_genuine :
  forall (U T : Type) (FT : FloatTrait T) (cfg : pso_config U T) fuel s u o u' t,
    pso_find_min cfg fuel s u = (o, u', t) -> Forall (pso_genuine cfg) t.
Proof. exact @pso_find_genuine. Qed.
Print Assumptions C29_pso_events_genuine.
Theorem C29_pso_next_events_genuine :
  forall (U T : Type) (FT : FloatTrait T) (cfg : pso_config U T) fuel s u o u' t,
    pso_next_iterations cfg fuel s u = (o, u', t) -> Forall (pso_genuine cfg) t.
Proof. exact @pso_next_genuine. Qed.
Print Assumptions C29_pso_next_events_genuine.
Theorem C29_pso_result_is_goal_value :
  forall (U T : Type) (FT : FloatTrait T) (ok : pso_config U T -> Prop) (f : list T -> f64)
         s h (cfg : pso_config U T) fuel u x v s' u' t,
    (forall cfg, ok cfg -> pso_goal cfg = goal_from_function f) ->
    pso_reach ok s h -> ok cfg ->
    pso_find_min cfg fuel s u = (Ret (Some (x, v), s'), u', t) \/
    pso_next_iterations cfg fuel s u = (Ret (Some (x, v), s'), u', t) -> v = f x.
Proof. exact @pso_result_is_f. Qed.
Print Assumptions C29_pso_result_is_goal_value.

Example C29_nonvacuous :
  (forall cfg, flock_ok cfg -> pso_goal cfg = goal_from_function swarm_goal) /\
  flock_ok flock /\ flock_ok flock_more /\ pso_reach flock_ok flock_swarm flock_trace /\
  (exists x v s' u' t, pso_find_min flock 10 flock_start (0, 0) = (Ret (Some (x, v), s'), u', t)) /\
  (exists x v s' u' t,
     pso_next_iterations flock_more 10 flock_swarm flock_env = (Ret (Some (x, v), s'), u', t)).
Proof.
  split; [intros c H; apply H|]. split; [apply flock_is_ok|]. split; [apply flock_is_ok|].
  split; [apply flock_reach|]. split.
  - destruct flock_value as [x [v E]]. exists x, v. rewrite <- E. eexists _, _, _. exact flock_returns.
  - destruct flock_value2 as [x [v E]]. exists x, v. rewrite <- E. eexists _, _, _. exact flock_returns2.
Qed.

(** ** C30: the result is the least value evaluated, at its first occurrence. *)
Theorem C30_pso_least_value :
  forall (U T : Type) (FT : FloatTrait T) (ok : pso_config U T -> Prop) s h (cfg : pso_config U T) fuel u x v s' u' t,
    pso_reach ok s h ->
    (pso_find_min cfg fuel s u = (Ret (Some (x, v), s'), u', t) ->
       forall y w, evaluated t y w ->
         (is_finite w = true -> is_finite v = true /\ leb v w = true)) /\
    (pso_next_iterations cfg fuel s u = (Ret (Some (x, v), s'), u', t) ->
       forall y w, evaluated (h ++ t) y w ->
         (is_finite w = true -> is_finite v = true /\ leb v w = true)).
Proof. exact @pso_least_value. Qed.
Print Assumptions C30_pso_least_value.
Theorem C30_pso_first_least :
  forall (U T : Type) (FT : FloatTrait T) (ok : pso_config U T -> Prop) s h (cfg : pso_config U T) fuel u x v s' u' t,
    pso_reach ok s h ->
    (pso_find_min cfg fuel s u = (Ret (Some (x, v), s'), u', t) ->
       first_least snd (answers t) (x, v)) /\
    (pso_next_iterations cfg fuel s u = (Ret (Some (x, v), s'), u', t) ->
       first_least snd (answers (h ++ t)) (x, v)).
Proof. exact @pso_first_least. Qed.
Print Assumptions C30_pso_first_least.

Example C30_nonvacuous :
  exists x v, fst flock_result = Some (x, v) /\ to_bits64 v = to_bits64 one64 /\
    length (answers flock_trace) = 8.
Proof.
  destruct flock_found as [x [v [E [_ B]]]]. exists x, v. split; [exact E|]. split; [exact B|].
  vm_compute. reflexivity.
Qed.

(** ** C31: from one observation to a later one the best never gets worse, the
    worst never better; and both are the extremes of all answers so far. *)
Theorem C31_pso_never_worse :
  forall (U T : Type) (FT : FloatTrait T) (ok : pso_config U T -> Prop) s h (cfg : pso_config U T) fuel u o u' t,
    pso_reach ok s h ->
    (pso_find_min cfg fuel s u = (o, u', t) -> never_worse t) /\
    (pso_next_iterations cfg fuel s u = (o, u', t) -> never_worse (h ++ t)).
Proof. exact @pso_never_worse. Qed.
Print Assumptions C31_pso_never_worse.
Theorem C31_pso_observations :
  forall (U T : Type) (FT : FloatTrait T) (ok : pso_config U T -> Prop) s h (cfg : pso_config U T) fuel u o u' t,
    pso_reach ok s h ->
    (pso_find_min cfg fuel s u = (o, u', t) ->
       swarms_valued t /\ reports_extremes t /\ never_worse t) /\
    (pso_next_iterations cfg fuel s u = (o, u', t) ->
       swarms_valued (h ++ t) /\ reports_extremes (h ++ t) /\ never_worse (h ++ t)).
Proof. exact @pso_observations. Qed.
Print Assumptions C31_pso_observations.

(** In the run of the example the best improves between two observations. *)
Example C31_nonvacuous :
  existsb (fun e1 => existsb (fun e2 =>
    match shows e1, shows e2 with
    | Some s1, Some s2 =>
        match best_particle s1, best_particle s2 with
        | Some b1, Some b2 => ltb (value b2) (value b1)
        | _, _ => false
        end
    | _, _ => false
    end) flock_trace) flock_trace = true.
Proof. vm_compute. reflexivity. Qed.

(** ** C32: a particle remembers the extremes of its own history. *)
Theorem C32_memories_of_moves :
  forall (T : Type) (x v : list T) y ops,
    remembers ((x, y) :: visited ops)
      (fold_left (fun p op => match op with
                              | OpVelocity w => set_velocity p w
                              | OpMove z w => move_to p z w end) ops (particle_new x v y)).
Proof. exact @memories_of_moves. Qed.
Print Assumptions C32_memories_of_moves.
Theorem C32_pso_memories :
  forall (U T : Type) (FT : FloatTrait T) (cfg : pso_config U T) fuel s u r s' u' t,
    pso_find_min cfg fuel s u = (Ret (r, s'), u', t) ->
    forall t1 q b t2, t = t1 ++ EStop q b :: t2 ->
      forall n p, nth_error (particles q) n = Some p -> remembers (trail n (consulted t1 ++ [q])) p.
Proof. exact @pso_memories. Qed.
Print Assumptions C32_pso_memories.

Example C32_nonvacuous :
  pso_find_min flock 10 flock_start (0, 0) = (Ret (fst flock_result, flock_swarm), flock_env, flock_trace) /\
  existsb (fun p : particle f64 =>
    ltb (best_personal_value p) (value p) && ltb (value p) (worst_personal_value p))
    (particles flock_swarm) = true.
Proof. split; [exact flock_returns|]. vm_compute. reflexivity. Qed.

(** ** C33: None exactly for an empty swarm. *)
Theorem C33_pso_none_iff_empty :
  forall (U T : Type) (FT : FloatTrait T) (cfg : pso_config U T) fuel s u r s' u' t,
    pso_find_min cfg fuel s u = (Ret (r, s'), u', t) ->
    exists xs t1, t = ECall (PCoordinates xs) :: t1 /\ (r = None <-> xs = []).
Proof. exact @pso_none. Qed.
Print Assumptions C33_pso_none_iff_empty.

(** Zero iterations, and no particles at all. *)
Example C33_nonvacuous :
  (exists x v s' u' t, pso_find_min (pso_set_stop_checker flock (max_iterations 0)) 10 flock_start (0, 0)
     = (Ret (Some (x, v), s'), u', t)) /\
  (exists s' u' t, pso_find_min no_flock 10 flock_start (0, 0) = (Ret (None, s'), u', t)).
Proof.
  split; [exact flock_zero|exact no_flock_none].
Qed.

(** ** C34: one goal call per particle and iteration, in order. *)
Theorem C34_pso_goal_calls :
  forall (U T : Type) (FT : FloatTrait T) (cfg : pso_config U T) fuel s u r s' u' t,
    pso_find_min cfg fuel s u = (Ret (r, s'), u', t) ->
    evals t = all_points (consulted t) /\ answers t = all_places (consulted t) /\
    length (consulted t) = sw_iteration s' + 1 /\
    length (evals t) = length (particles s') * (sw_iteration s' + 1) /\
    exists xs t1, t = ECall (PCoordinates xs) :: t1 /\ length (particles s') = length xs.
Proof. exact @pso_evaluations. Qed.
Print Assumptions C34_pso_goal_calls.
Theorem C34_pso_next_goal_calls :
  forall (U T : Type) (FT : FloatTrait T) (cfg : pso_config U T) fuel s u r s' u' t,
    pso_next_iterations cfg fuel s u = (Ret (r, s'), u', t) ->
    exists rest, consulted t = s :: rest /\ evals t = all_points rest /\ answers t = all_places rest /\
      sw_iteration s' = sw_iteration s + length rest /\
      (forall q, In q rest -> length (particles q) = length (particles s)) /\
      length (evals t) = length (particles s) * length rest.
Proof. exact @pso_next_evaluations. Qed.
Print Assumptions C34_pso_next_goal_calls.

Example C34_nonvacuous :
  pso_find_min flock 10 flock_start (0, 0) = (Ret (fst flock_result, flock_swarm), flock_env, flock_trace) /\
  length (evals flock_trace) = 8 /\ length (particles flock_swarm) = 2 /\ sw_iteration flock_swarm = 3.
Proof. split; [exact flock_returns|]. vm_compute. auto. Qed.

(** ** C35: the protocol seen by each logger and the stop checker. *)
Theorem C35_pso_find_min_protocol :
  forall (U T : Type) (FT : FloatTrait T) (cfg : pso_config U T) fuel s u r s' u' t i,
    pso_find_min cfg fuel s u = (Ret (r, s'), u', t) -> i < length (pso_loggers cfg) ->
    protocol (fun s : swarm T => sw_iteration s) i t =
      PLog LStart 0 :: PLog LResume 0 :: rounds 0 (sw_iteration s') ++ [PLog LFinish (sw_iteration s')].
Proof. exact @pso_find_protocol. Qed.
Print Assumptions C35_pso_find_min_protocol.
Theorem C35_pso_next_iterations_protocol :
  forall (U T : Type) (FT : FloatTrait T) (cfg : pso_config U T) fuel s u r s' u' t i,
    pso_next_iterations cfg fuel s u = (Ret (r, s'), u', t) -> i < length (pso_loggers cfg) ->
    exists k, sw_iteration s' = sw_iteration s + k /\
    protocol (fun s : swarm T => sw_iteration s) i t =
      PLog LResume (sw_iteration s) :: rounds (sw_iteration s) k ++ [PLog LFinish (sw_iteration s')].
Proof. exact @pso_next_protocol. Qed.
Print Assumptions C35_pso_next_iterations_protocol.
Theorem C35_pso_finish_state :
  forall (U T : Type) (FT : FloatTrait T) (cfg : pso_config U T) fuel s u r s' u' t,
    pso_find_min cfg fuel s u = (Ret (r, s'), u', t) \/
    pso_next_iterations cfg fuel s u = (Ret (r, s'), u', t) ->
    (exists t0, t = t0 ++ EStop s' true :: log_events LFinish (length (pso_loggers cfg)) s') /\
    r = option_map place (best_particle s').
Proof. exact @pso_finish. Qed.
Print Assumptions C35_pso_finish_state.

Example C35_nonvacuous :
  1 < length (pso_loggers flock) /\ sw_iteration flock_swarm = 3 /\
  sw_iteration (snd flock_result2) = 5 /\
  pso_next_iterations flock_more 10 flock_swarm flock_env
    = (Ret (fst flock_result2, snd flock_result2), snd (fst flock_run2), snd flock_run2).
Proof. split; [simpl; lia|]. split; [apply flock_three|]. split; [apply flock_five|exact flock_returns2]. Qed.

(** ** C36: with MoveToBoundary as the last post-move the swarm never leaves the
    box (f32 and f64), even in runs that panic or do not end. *)
Theorem C36_pso_stays_in_box :
  forall (prec emax : Z) (Hp : FLX.Prec_gt_0 prec) (He : BinarySingleNaN.Prec_lt_emax prec emax)
         (np : nan_policy prec emax) (U : Type) (box : list (bfloat prec emax * bfloat prec emax))
         (ok : pso_config U (bfloat prec emax) -> Prop) s h (cfg : pso_config U (bfloat prec emax)) fuel u o u' t,
    good_box box ->
    (forall cfg, ok cfg -> exists earlier,
       pso_post_move cfg =
         earlier ++ [fun x => cpure (@move_to_boundary (bfloat prec emax) (FloatIEEE np) box x)]) ->
    @pso_reach U (bfloat prec emax) (FloatIEEE np) ok s h -> ok cfg ->
    @pso_find_min U (bfloat prec emax) (FloatIEEE np) cfg fuel s u = (o, u', t) \/
    @pso_next_iterations U (bfloat prec emax) (FloatIEEE np) cfg fuel s u = (o, u', t) ->
    Forall (in_box box) (evals t) /\
    (forall e q, In e t -> shows e = Some q -> swarm_inside (in_box box) q) /\
    (forall r s', o = Ret (r, s') -> swarm_inside (in_box box) s' /\
       forall x v, r = Some (x, v) -> in_box box x).
Proof. exact @pso_in_box. Qed.
Print Assumptions C36_pso_stays_in_box.
(** The same for any set the last post-move returns points of. *)
Theorem C36_pso_stays_in_set :
  forall (U T : Type) (FT : FloatTrait T) (ok : pso_config U T -> Prop) (S : list T -> Prop)
         s h (cfg : pso_config U T) fuel u o u' t,
    (forall cfg, ok cfg -> pso_stays_in S cfg) ->
    pso_reach ok s h -> ok cfg ->
    pso_find_min cfg fuel s u = (o, u', t) \/ pso_next_iterations cfg fuel s u = (o, u', t) ->
    Forall S (evals t) /\
    (forall e q, In e t -> shows e = Some q -> swarm_inside S q) /\
    (forall r s', o = Ret (r, s') -> swarm_inside S s' /\ forall x v, r = Some (x, v) -> S x).
Proof. exact @pso_run_inside. Qed.
Print Assumptions C36_pso_stays_in_set.

(** The flock is pushed back to the box: without the post-move it leaves it. *)
Example C36_nonvacuous :
  @good_box 53 1024 swarm_box /\
  (forall cfg, flock_ok cfg -> exists earlier,
     pso_post_move cfg = earlier ++ [fun x => cpure (move_to_boundary swarm_box x)]) /\
  pso_reach flock_ok flock_swarm flock_trace /\ flock_ok flock /\
  existsb (fun e : pso_event f64 => match e with
     | ECall (PPostMove x y) => negb (forallb (fun ab => to_bits64 (fst ab) =? to_bits64 (snd ab))%Z (combine x y))
     | _ => false end) flock_trace = true.
Proof.
  split; [repeat constructor|]. split; [|split; [apply flock_reach|split; [apply flock_is_ok|]]].
  - intros c [_ [_ [_ [_ E]]]]. exists []. exact E.
  - vm_compute. reflexivity.
Qed.

(** ** C37: pausing and resuming changes nothing. *)
Theorem C37_pso_pause_resume :
  forall (U T : Type) (FT : FloatTrait T) (R : U -> U -> Prop) (cfg : pso_config U T) n m fuel s u r s' u' t,
    pso_unaffected R cfg ->
    pso_find_min (pso_set_stop_checker cfg (max_iterations (n + m))) fuel s u = (Ret (r, s'), u', t) ->
    exists r1 s1 u1 t1 u2 t2,
      pso_find_min (pso_set_stop_checker cfg (max_iterations n)) fuel s u = (Ret (r1, s1), u1, t1) /\
      pso_next_iterations (pso_set_stop_checker cfg (max_iterations (n + m))) fuel s1 u1
        = (Ret (r, s'), u2, t2) /\
      work t1 ++ work t2 = work t /\ R u' u2.
Proof. exact @pso_pause_resume. Qed.
Print Assumptions C37_pso_pause_resume.

Example C37_nonvacuous :
  pso_unaffected same_work flock /\ pso_loggers flock <> [] /\
  exists r s' u' t,
    pso_find_min (pso_set_stop_checker flock (max_iterations (2 + 3))) 10 flock_start (0, 0)
      = (Ret (r, s'), u', t) /\ sw_iteration s' = 5.
Proof. split; [exact flock_unaffected|]. split; [discriminate|exact flock_five_returns]. Qed.

(** ** C47: every point keeps the dimension. *)
Theorem C47_pso_dimension :
  forall (U T : Type) (FT : FloatTrait T) (ok : pso_config U T -> Prop) (d : nat) s h (cfg : pso_config U T) fuel u o u' t,
    (forall cfg, ok cfg -> keeps_dimension d cfg) ->
    pso_reach ok s h -> ok cfg ->
    pso_find_min cfg fuel s u = (o, u', t) \/ pso_next_iterations cfg fuel s u = (o, u', t) ->
    Forall (fun x => length x = d) (evals t) /\
    (forall e q, In e t -> shows e = Some q -> swarm_inside (fun x => length x = d) q) /\
    (forall r s', o = Ret (r, s') -> swarm_inside (fun x => length x = d) s' /\
       forall x v, r = Some (x, v) -> length x = d).
Proof. exact @pso_dimension. Qed.
Print Assumptions C47_pso_dimension.

Example C47_nonvacuous :
  (forall cfg, flock_ok cfg -> keeps_dimension 2 cfg) /\ flock_ok flock /\
  pso_reach flock_ok flock_swarm flock_trace /\ length (evals flock_trace) = 8.
Proof.
  split; [exact flock_dimension|]. split; [exact flock_is_ok|]. split; [exact flock_reach|].
  vm_compute. reflexivity.
Qed.

(** ** C71 (particle swarm part): after any history of calls with any configurations. *)
Theorem C71_pso_reach_invariants :
  forall (U T : Type) (FT : FloatTrait T) (ok : pso_config U T -> Prop) s h, pso_reach ok s h ->
    swarm_valued h s /\ extremes_of h s /\ sw_iteration s = iterations_of h.
Proof. exact @pso_reach_invariants. Qed.
Print Assumptions C71_pso_reach_invariants.

Example C71_pso_nonvacuous :
  pso_reach flock_ok (snd flock_result2) (flock_trace ++ snd flock_run2) /\
  sw_iteration (snd flock_result2) = 5.
Proof.
  split; [|apply flock_five].
  eapply pso_reach_next; [|exact flock_reach|exact flock_returns2]. apply flock_is_ok.
Qed.

(** ** C72: the order of goal values. *)
Theorem C72_compare_floats :
  forall x y : f64,
    (compare_floats x y = Lt <-> lt_fin x y) /\ (compare_floats x y = Gt <-> lt_fin y x) /\
    (compare_floats x y = Eq <-> le_fin x y /\ le_fin y x).
Proof. exact compare_floats_spec. Qed.
Print Assumptions C72_compare_floats.
Theorem C72_total_preorder :
  (forall a, le_fin a a) /\ (forall a b, le_fin a b \/ le_fin b a) /\
  (forall a b c, le_fin a b -> le_fin b c -> le_fin a c).
Proof. exact (conj le_fin_refl (conj le_fin_total le_fin_trans)). Qed.
Print Assumptions C72_total_preorder.

Example C72_nonvacuous :
  compare_floats one64 two64 = Lt /\ compare_floats two64 (Binary.B754_infinity true) = Lt /\
  compare_floats (Binary.B754_infinity true) (Binary.B754_infinity false) = Eq.
Proof. vm_compute. auto. Qed.

(** ** C74: what happens in each iteration, event by event. *)
Theorem C74_pso_find_min_structure :
  forall (U T : Type) (FT : FloatTrait T) (cfg : pso_config U T) fuel s u r s' u' t,
    pso_find_min cfg fuel s u = (Ret (r, s'), u', t) ->
    r = option_map place (best_particle s') /\
    exists s0 g t1 k,
      pso_start (length (pso_post_move cfg)) g s0 /\
      pso_rounds (length (pso_post_velocity cfg)) (length (pso_post_move cfg))
        (length (pso_loggers cfg)) s0 t1 s' k /\
      t = g ++ log_events LStart (length (pso_loggers cfg)) s0
            ++ log_events LResume (length (pso_loggers cfg)) s0 ++ t1
            ++ log_events LFinish (length (pso_loggers cfg)) s'.
Proof. exact @pso_find_ret. Qed.
Print Assumptions C74_pso_find_min_structure.
Theorem C74_pso_next_iterations_structure :
  forall (U T : Type) (FT : FloatTrait T) (cfg : pso_config U T) fuel s u r s' u' t,
    pso_next_iterations cfg fuel s u = (Ret (r, s'), u', t) ->
    r = option_map place (best_particle s') /\
    exists t1 k,
      pso_rounds (length (pso_post_velocity cfg)) (length (pso_post_move cfg))
        (length (pso_loggers cfg)) s t1 s' k /\
      t = log_events LResume (length (pso_loggers cfg)) s ++ t1
            ++ log_events LFinish (length (pso_loggers cfg)) s'.
Proof. exact @pso_next_ret. Qed.
Print Assumptions C74_pso_next_iterations_structure.

Example C74_nonvacuous :
  pso_find_min flock 10 flock_start (0, 0) = (Ret (fst flock_result, flock_swarm), flock_env, flock_trace) /\
  length (pso_post_velocity flock) = 1 /\ length (pso_post_move flock) = 1.
Proof. split; [exact flock_returns|]. vm_compute. auto. Qed.
