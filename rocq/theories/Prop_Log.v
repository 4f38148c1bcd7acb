(** * Properties C53-C55, C64-C66, C81: loggers and the counted goal

    A logger object is [attached L l]: its state is the part [L] of the environment,
    which the other components leave alone ([.._others_keep]) or neither read nor
    write ([.._others_apart]). *)

From Coq Require Import List Arith ZArith Bool Lia String.
From Verif Require Import Base Logic FloatModel GaModel PsoModel StopModel StatModel LogModel SpecGa SpecPso SpecRun
  SpecStop SpecLog FloatFacts LoopFacts LogRuns LogFacts GaTheorems DemoFloats DemoGa DemoPso DemoStop DemoLog.
Import ListNotations.
Local Open Scope list_scope.

(** ** C53: StatisticsLogger records every iteration and every result.
    [consulted t] are the states the stop checker saw: the initial one and the one after
    each iteration. *)
Theorem C53_ga_statistics :
  forall (U T : Type) (L : lens U (statistics T)) i (cfg : ga_config U T) fuel p u r p' u' t, lens_ok L ->
    nth_error (ga_loggers cfg) i = Some (attached L statistics_logger) -> ga_others_keep i (lget L) cfg ->
    ga_find_min cfg fuel p u = (Ret (r, p'), u', t) ->
    results (lget L u') = results (lget L u) ++ [r] /\
    convergence (lget L u') = convergence (lget L u) ++ [bests ga_view (tl (consulted t))] /\
    map (fun q => iteration q) (tl (consulted t)) = seq 1 (iteration p').
Proof. exact @ga_statistics_find. Qed.
Print Assumptions C53_ga_statistics.
Theorem C53_pso_statistics :
  forall (U T : Type) (FT : FloatTrait T) (L : lens U (statistics (list T))) i (cfg : pso_config U T)
    fuel s u r s' u' t, lens_ok L ->
    nth_error (pso_loggers cfg) i = Some (attached L statistics_logger) -> pso_others_keep i (lget L) cfg ->
    pso_find_min cfg fuel s u = (Ret (r, s'), u', t) ->
    results (lget L u') = results (lget L u) ++ [r] /\
    convergence (lget L u') = convergence (lget L u) ++ [bests pso_view (tl (consulted t))] /\
    map (fun q => sw_iteration q) (tl (consulted t)) = seq 1 (sw_iteration s').
Proof. exact @pso_statistics_find. Qed.
Print Assumptions C53_pso_statistics.
(** The logger never disturbs a [find_min]: a logger that does nothing in its place
    gives the same outcome and the same events. *)
Theorem C53_ga_undisturbed :
  forall (U T : Type) (L : lens U (statistics T)) i (cfg : ga_config U T) fuel p u, lens_ok L ->
    nth_error (ga_loggers cfg) i = Some (attached L statistics_logger) -> ga_others_apart i L cfg ->
    alike L (ga_find_min cfg fuel p u)
            (ga_find_min (ga_set_loggers cfg (replaced i no_logger (ga_loggers cfg))) fuel p u).
Proof. exact @ga_statistics_undisturbed. Qed.
Print Assumptions C53_ga_undisturbed.
Theorem C53_pso_undisturbed :
  forall (U T : Type) (FT : FloatTrait T) (L : lens U (statistics (list T))) i (cfg : pso_config U T) fuel s u, lens_ok L ->
    nth_error (pso_loggers cfg) i = Some (attached L statistics_logger) -> pso_others_apart i L cfg ->
    alike L (pso_find_min cfg fuel s u)
            (pso_find_min (pso_set_loggers cfg (replaced i no_logger (pso_loggers cfg))) fuel s u).
Proof. exact @pso_statistics_undisturbed. Qed.
Print Assumptions C53_pso_undisturbed.

(** Three iterations of a herd and of a swarm. *)
Example C53_nonvacuous :
  lens_ok (@lens_snd env (statistics (list f64))) /\
  nth_error (ga_loggers (herd_stat 3)) 1 = Some (attached lens_snd statistics_logger) /\
  ga_others_apart 1 lens_snd (herd_stat 3) /\ ga_others_keep 1 (lget lens_snd) (herd_stat 3) /\
  (exists r p' u' t, ga_find_min (herd_stat 3) 10 herd_start (env0, statistics_new) = (Ret (r, p'), u', t) /\
     iteration p' = 3) /\
  nth_error (pso_loggers (flock_stat 3)) 1 = Some (attached lens_snd statistics_logger) /\
  pso_others_apart 1 lens_snd (flock_stat 3) /\ pso_others_keep 1 (lget lens_snd) (flock_stat 3) /\
  (exists r s' u' t, pso_find_min (flock_stat 3) 10 flock_start (env0, statistics_new) = (Ret (r, s'), u', t) /\
     sw_iteration s' = 3).
Proof.
  split; [apply lens_snd_ok|]. split; [reflexivity|]. split; [apply herd_watch_apart|].
  split; [apply ga_apart_keep, herd_watch_apart|]. split; [exact herd_stat_three|]. split; [reflexivity|].
  split; [apply flock_watch_apart|]. split; [apply pso_apart_keep, flock_watch_apart|]. exact flock_stat_three.
Qed.

(** ** C54: Run count counts optimisation runs.
    Refuted: a run that is paused and resumed is counted twice and has two results but
    one row.  [ga_session ok get g0 p g finds nexts] is a sequence of [finds] calls of
    find_min and [nexts] calls of next_iterations with the logger attached. *)
Theorem C54_ga_run_count_refuted :
  exists (p : population (list Z)) (g : statistics (list Z)),
    ga_session (ga_stat_ok lens_snd) (lget (@lens_snd env _)) statistics_new p g 1 1 /\
    get_run_count g = 2 /\ List.length (convergence g) = 1.
Proof. exact herd_session. Qed.
Print Assumptions C54_ga_run_count_refuted.
Theorem C54_pso_run_count_refuted :
  exists (s : swarm f64) (g : statistics (list f64)),
    pso_session (pso_stat_ok lens_snd) (lget (@lens_snd env _)) statistics_new s g 1 1 /\
    get_run_count g = 2 /\ List.length (convergence g) = 1.
Proof. exact flock_session. Qed.
Print Assumptions C54_pso_run_count_refuted.
(** What holds of every session: each call adds a result, each find_min a row.
    Full statement: get_run_count g = get_run_count g0 + finds.  Missing: it is false
    when nexts > 0 (see above). *)
Theorem C54_ga_run_count_partial :
  forall (U T : Type) (L : lens U (statistics T)) g0 p g finds nexts, lens_ok L ->
    ga_session (ga_stat_ok L) (lget L) g0 p g finds nexts ->
    get_run_count g = get_run_count g0 + finds + nexts /\
    List.length (convergence g) = List.length (convergence g0) + finds.
Proof. exact @ga_statistics_session. Qed.
Print Assumptions C54_ga_run_count_partial.
Theorem C54_pso_run_count_partial :
  forall (U T : Type) (FT : FloatTrait T) (L : lens U (statistics (list T))) g0 s g finds nexts, lens_ok L ->
    pso_session (pso_stat_ok L) (lget L) g0 s g finds nexts ->
    get_run_count g = get_run_count g0 + finds + nexts /\
    List.length (convergence g) = List.length (convergence g0) + finds.
Proof. exact @pso_statistics_session. Qed.
Print Assumptions C54_pso_run_count_partial.
(** A resumed run goes on in the last row and adds a second result. *)
Theorem C54_ga_resumed_partial :
  forall (U T : Type) (L : lens U (statistics T)) i (cfg : ga_config U T) fuel p u r p' u' t, lens_ok L ->
    nth_error (ga_loggers cfg) i = Some (attached L statistics_logger) -> ga_others_keep i (lget L) cfg ->
    ga_next_iterations cfg fuel p u = (Ret (r, p'), u', t) ->
    results (lget L u') = results (lget L u) ++ [r] /\
    (forall rows row, convergence (lget L u) = rows ++ [row] ->
       convergence (lget L u') = rows ++ [row ++ bests ga_view (tl (consulted t))]) /\
    (convergence (lget L u) = [] -> tl (consulted t) = [] /\ convergence (lget L u') = []) /\
    iteration p <= iteration p' /\
    map (fun q => iteration q) (tl (consulted t)) = seq (iteration p + 1) (iteration p' - iteration p).
Proof. exact @ga_statistics_next. Qed.
Print Assumptions C54_ga_resumed_partial.
Theorem C54_pso_resumed_partial :
  forall (U T : Type) (FT : FloatTrait T) (L : lens U (statistics (list T))) i (cfg : pso_config U T)
    fuel s u r s' u' t, lens_ok L ->
    nth_error (pso_loggers cfg) i = Some (attached L statistics_logger) -> pso_others_keep i (lget L) cfg ->
    pso_next_iterations cfg fuel s u = (Ret (r, s'), u', t) ->
    results (lget L u') = results (lget L u) ++ [r] /\
    (forall rows row, convergence (lget L u) = rows ++ [row] ->
       convergence (lget L u') = rows ++ [row ++ bests pso_view (tl (consulted t))]) /\
    (convergence (lget L u) = [] -> tl (consulted t) = [] /\ convergence (lget L u') = []) /\
    sw_iteration s <= sw_iteration s' /\
    map (fun q => sw_iteration q) (tl (consulted t)) = seq (sw_iteration s + 1) (sw_iteration s' - sw_iteration s).
Proof. exact @pso_statistics_next. Qed.
Print Assumptions C54_pso_resumed_partial.

Example C54_nonvacuous :
  ga_stat_ok lens_snd (herd_stat 5) /\ pso_stat_ok lens_snd (flock_stat 5) /\
  (exists p g, ga_session (ga_stat_ok lens_snd) (lget (@lens_snd env _)) (@statistics_new (list Z)) p g 1 1) /\
  (exists s g, pso_session (pso_stat_ok lens_snd) (lget (@lens_snd env _)) (@statistics_new (list f64)) s g 1 1).
Proof.
  split; [apply herd_stat_ok|]. split; [apply flock_stat_ok|]. split.
  - destruct herd_session as [p [g [H _]]]. eauto.
  - destruct flock_session as [s [g [H _]]]. eauto.
Qed.

(** ** C55: next_iterations on a fresh optimizer is safe.
    Refuted for StatisticsLogger: it panics, while a logger that does nothing in its
    place lets the same call return. *)
Theorem C55_ga_fresh_refuted :
  nth_error (ga_loggers (herd_stat 3)) 1 = Some (attached lens_snd statistics_logger) /\
  fst (fst (ga_next_iterations (herd_stat 3) 10 (Population [] None None 0) (env0, statistics_new))) = Panic /\
  exists r p' u' t,
    ga_next_iterations (ga_set_loggers (herd_stat 3) (replaced 1 no_logger (ga_loggers (herd_stat 3)))) 10
      (Population [] None None 0) (env0, statistics_new) = (Ret (r, p'), u', t).
Proof. exact (conj eq_refl fresh_herd). Qed.
Print Assumptions C55_ga_fresh_refuted.
Theorem C55_pso_fresh_refuted :
  nth_error (pso_loggers (flock_stat 3)) 1 = Some (attached lens_snd statistics_logger) /\
  fst (fst (pso_next_iterations (flock_stat 3) 10 (Swarm [] None None 0) (env0, statistics_new))) = Panic /\
  exists r s' u' t,
    pso_next_iterations (pso_set_loggers (flock_stat 3) (replaced 1 no_logger (pso_loggers (flock_stat 3)))) 10
      (Swarm [] None None 0) (env0, statistics_new) = (Ret (r, s'), u', t).
Proof. exact (conj eq_refl fresh_flock). Qed.
Print Assumptions C55_pso_fresh_refuted.
(** What holds.  Full statement: the following for all loggers of the library and all
    states of theirs.  Missing: it is false for StatisticsLogger without a row.
    With a row (after any find_min, or on statistics of earlier runs) it is harmless. *)
Theorem C55_ga_statistics_partial :
  forall (U T : Type) (L : lens U (statistics T)) i (cfg : ga_config U T) fuel p u, lens_ok L ->
    nth_error (ga_loggers cfg) i = Some (attached L statistics_logger) -> ga_others_apart i L cfg ->
    convergence (lget L u) <> [] ->
    alike L (ga_next_iterations cfg fuel p u)
            (ga_next_iterations (ga_set_loggers cfg (replaced i no_logger (ga_loggers cfg))) fuel p u).
Proof. exact @ga_statistics_resumed. Qed.
Print Assumptions C55_ga_statistics_partial.
Theorem C55_pso_statistics_partial :
  forall (U T : Type) (FT : FloatTrait T) (L : lens U (statistics (list T))) i (cfg : pso_config U T) fuel s u, lens_ok L ->
    nth_error (pso_loggers cfg) i = Some (attached L statistics_logger) -> pso_others_apart i L cfg ->
    convergence (lget L u) <> [] ->
    alike L (pso_next_iterations cfg fuel s u)
            (pso_next_iterations (pso_set_loggers cfg (replaced i no_logger (pso_loggers cfg))) fuel s u).
Proof. exact @pso_statistics_resumed. Qed.
Print Assumptions C55_pso_statistics_partial.
(** The printing loggers are harmless in any state, if the writer works. *)
Theorem C55_ga_printing_partial :
  forall (U G T : Type) (LU : lens U G) (fmt : formatter T) (out : G -> string) write precision (l : logger G (list T)) i
    (cfg : ga_config U (list T)) fuel p u, lens_ok LU -> prints out write ->
    l = verbose_logger fmt write precision \/ l = result_only_logger fmt write precision ->
    nth_error (ga_loggers cfg) i = Some (attached LU l) -> ga_others_apart i LU cfg ->
    alike LU (ga_find_min cfg fuel p u)
             (ga_find_min (ga_set_loggers cfg (replaced i no_logger (ga_loggers cfg))) fuel p u) /\
    alike LU (ga_next_iterations cfg fuel p u)
             (ga_next_iterations (ga_set_loggers cfg (replaced i no_logger (ga_loggers cfg))) fuel p u).
Proof. exact @ga_printing_undisturbed. Qed.
Print Assumptions C55_ga_printing_partial.
Theorem C55_pso_printing_partial :
  forall (U G T : Type) (FT : FloatTrait T) (LU : lens U G) (fmt : formatter T) (out : G -> string) write precision
    (l : logger G (list T)) i (cfg : pso_config U T) fuel s u, lens_ok LU -> prints out write ->
    l = verbose_logger fmt write precision \/ l = result_only_logger fmt write precision ->
    nth_error (pso_loggers cfg) i = Some (attached LU l) -> pso_others_apart i LU cfg ->
    alike LU (pso_find_min cfg fuel s u)
             (pso_find_min (pso_set_loggers cfg (replaced i no_logger (pso_loggers cfg))) fuel s u) /\
    alike LU (pso_next_iterations cfg fuel s u)
             (pso_next_iterations (pso_set_loggers cfg (replaced i no_logger (pso_loggers cfg))) fuel s u).
Proof. exact @pso_printing_undisturbed. Qed.
Print Assumptions C55_pso_printing_partial.

Example C55_nonvacuous :
  ga_others_apart 1 lens_snd (herd_stat 5) /\
  (exists u : env * statistics (list Z), convergence (lget lens_snd u) <> []) /\
  prints page pen /\
  nth_error (ga_loggers herd_verbose) 1 = Some (attached lens_snd (verbose_logger plain pen 3)) /\
  ga_others_apart 1 lens_snd herd_verbose /\
  nth_error (pso_loggers flock_report) 1 = Some (attached lens_snd (result_only_logger plain pen 3)) /\
  pso_others_apart 1 lens_snd flock_report.
Proof.
  split; [apply herd_watch_apart|]. split; [exists (env0, Statistics [] [[]]); discriminate|].
  split; [apply pen_prints|]. split; [reflexivity|]. split; [apply herd_watch_apart|].
  split; [reflexivity|apply flock_watch_apart].
Qed.

(** ** C64: GoalCalcStatistics counts without disturbing. *)
Theorem C64_ga_undisturbed :
  forall (U T : Type) (L : lens U call_count_data), lens_ok L ->
  forall (cfg : ga_config U T) fuel p u, ga_others_apart (List.length (ga_loggers cfg)) L cfg ->
    alike L (ga_find_min (ga_with_goal cfg (goal_calc_statistics L (ga_goal cfg))) fuel p u) (ga_find_min cfg fuel p u) /\
    alike L (ga_next_iterations (ga_with_goal cfg (goal_calc_statistics L (ga_goal cfg))) fuel p u)
            (ga_next_iterations cfg fuel p u).
Proof. exact @ga_count_undisturbed. Qed.
Print Assumptions C64_ga_undisturbed.
Theorem C64_pso_undisturbed :
  forall (U T : Type) (FT : FloatTrait T) (L : lens U call_count_data), lens_ok L ->
  forall (cfg : pso_config U T) fuel s u, pso_others_apart (List.length (pso_loggers cfg)) L cfg ->
    alike L (pso_find_min (pso_with_goal cfg (goal_calc_statistics L (pso_goal cfg))) fuel s u) (pso_find_min cfg fuel s u) /\
    alike L (pso_next_iterations (pso_with_goal cfg (goal_calc_statistics L (pso_goal cfg))) fuel s u)
            (pso_next_iterations cfg fuel s u).
Proof. exact @pso_count_undisturbed. Qed.
Print Assumptions C64_pso_undisturbed.
(** [counted n c]: n more calls in the last run of [c]; [births [] t]: the
    chromosomes of the individuals born in the run. *)
Theorem C64_ga_calls :
  forall (U T : Type) (L : lens U call_count_data), lens_ok L ->
  forall (cfg : ga_config U T) fuel p u r p' u' t, ga_others_apart (List.length (ga_loggers cfg)) L cfg ->
    ga_find_min (ga_with_goal cfg (goal_calc_statistics L (ga_goal cfg))) fuel p u = (Ret (r, p'), u', t) \/
    ga_next_iterations (ga_with_goal cfg (goal_calc_statistics L (ga_goal cfg))) fuel p u = (Ret (r, p'), u', t) ->
    lget L u' = counted (List.length (births [] t)) (lget L u) /\ List.length (births [] t) = List.length (evals t).
Proof. exact @ga_count_calls. Qed.
Print Assumptions C64_ga_calls.
Theorem C64_pso_calls :
  forall (U T : Type) (FT : FloatTrait T) (L : lens U call_count_data), lens_ok L ->
  forall (cfg : pso_config U T) fuel s u r s' u' t, pso_others_apart (List.length (pso_loggers cfg)) L cfg ->
    pso_find_min (pso_with_goal cfg (goal_calc_statistics L (pso_goal cfg))) fuel s u = (Ret (r, s'), u', t) ->
    lget L u' = counted (List.length (particles s') * (sw_iteration s' + 1)) (lget L u).
Proof. exact @pso_counted_find. Qed.
Print Assumptions C64_pso_calls.
Theorem C64_pso_next_calls :
  forall (U T : Type) (FT : FloatTrait T) (L : lens U call_count_data), lens_ok L ->
  forall (cfg : pso_config U T) fuel s u r s' u' t, pso_others_apart (List.length (pso_loggers cfg)) L cfg ->
    pso_next_iterations (pso_with_goal cfg (goal_calc_statistics L (pso_goal cfg))) fuel s u = (Ret (r, s'), u', t) ->
    lget L u' = counted (List.length (particles s) * (sw_iteration s' - sw_iteration s)) (lget L u).
Proof. exact @pso_counted_next. Qed.
Print Assumptions C64_pso_next_calls.

Example C64_nonvacuous :
  lens_ok (@lens_snd env call_count_data) /\
  ga_others_apart (List.length (ga_loggers (@herd_plain call_count_data 3))) lens_snd (@herd_plain call_count_data 3) /\
  pso_others_apart (List.length (pso_loggers (@flock_plain call_count_data 3))) lens_snd (@flock_plain call_count_data 3) /\
  (exists r p' u' t,
     ga_find_min (ga_with_goal (herd_plain 3) (goal_calc_statistics lens_snd (ga_goal (herd_plain 3)))) 10 herd_start
       (env0, [5; 9]) = (Ret (r, p'), u', t) /\ snd u' = [5; 17]) /\
  (exists r s' u' t,
     pso_find_min (pso_with_goal (flock_plain 3) (goal_calc_statistics lens_snd (pso_goal (flock_plain 3)))) 10 flock_start
       (env0, []) = (Ret (r, s'), u', t) /\ snd u' = [8]).
Proof.
  split; [apply lens_snd_ok|]. split; [apply herd_plain_apart|]. split; [apply flock_plain_apart|].
  split; [exact herd_counts|exact flock_counts].
Qed.

(** ** C65: TimeLogger never unwraps a missing start time.
    Whatever its state, it does not disturb find_min or next_iterations. *)
Theorem C65_ga_undisturbed :
  forall (U G T : Type) (LU : lens U G) (fmt : formatter T) (out : G -> string) write (L : lens G (option Z)) now i
    (cfg : ga_config U (list T)) fuel p u, lens_ok LU -> prints out write ->
    lens_ok L -> ticks now -> (forall s, keeps (lget L) (write s)) -> keeps (lget L) now -> keeps out now ->
    (forall o g, out (lput L o g) = out g) ->
    nth_error (ga_loggers cfg) i = Some (attached LU (time_logger fmt write L now)) -> ga_others_apart i LU cfg ->
    alike LU (ga_find_min cfg fuel p u)
             (ga_find_min (ga_set_loggers cfg (replaced i no_logger (ga_loggers cfg))) fuel p u) /\
    alike LU (ga_next_iterations cfg fuel p u)
             (ga_next_iterations (ga_set_loggers cfg (replaced i no_logger (ga_loggers cfg))) fuel p u).
Proof. exact @ga_time_undisturbed. Qed.
Print Assumptions C65_ga_undisturbed.
Theorem C65_pso_undisturbed :
  forall (U G T : Type) (FT : FloatTrait T) (LU : lens U G) (fmt : formatter T) (out : G -> string) write
    (L : lens G (option Z)) now i (cfg : pso_config U T) fuel s u, lens_ok LU -> prints out write ->
    lens_ok L -> ticks now -> (forall s, keeps (lget L) (write s)) -> keeps (lget L) now -> keeps out now ->
    (forall o g, out (lput L o g) = out g) ->
    nth_error (pso_loggers cfg) i = Some (attached LU (time_logger fmt write L now)) -> pso_others_apart i LU cfg ->
    alike LU (pso_find_min cfg fuel s u)
             (pso_find_min (pso_set_loggers cfg (replaced i no_logger (pso_loggers cfg))) fuel s u) /\
    alike LU (pso_next_iterations cfg fuel s u)
             (pso_next_iterations (pso_set_loggers cfg (replaced i no_logger (pso_loggers cfg))) fuel s u).
Proof. exact @pso_time_undisturbed. Qed.
Print Assumptions C65_pso_undisturbed.
(** One line per call, about the time between the two times the clock is read. *)
Theorem C65_ga_line :
  forall (U G T : Type) (LU : lens U G) (fmt : formatter T) write (out : G -> string), lens_ok LU -> prints out write ->
  forall (L : lens G (option Z)) now i (cfg : ga_config U (list T)) fuel p u r p' u' t,
    lens_ok L -> ticks now -> (forall s, keeps (lget L) (write s)) -> keeps (lget L) now -> keeps out now ->
    (forall o g, out (lput L o g) = out g) ->
    nth_error (ga_loggers cfg) i = Some (attached LU (time_logger fmt write L now)) -> ga_others_keep i (lget LU) cfg ->
    ga_find_min cfg fuel p u = (Ret (r, p'), u', t) \/ ga_next_iterations cfg fuel p u = (Ret (r, p'), u', t) ->
    exists t0 t1 g1 g2, now (lget LU u) = (Ret t0, g1) /\ now (lput L (Some t0) g1) = (Ret t1, g2) /\
      out (lget LU u') = (out (lget LU u) ++ time_text fmt t0 t1)%string.
Proof. exact @ga_time_run. Qed.
Print Assumptions C65_ga_line.
Theorem C65_pso_line :
  forall (U G T : Type) (FT : FloatTrait T) (LU : lens U G) (fmt : formatter T) write (out : G -> string),
    lens_ok LU -> prints out write ->
  forall (L : lens G (option Z)) now i (cfg : pso_config U T) fuel s u r s' u' t,
    lens_ok L -> ticks now -> (forall a, keeps (lget L) (write a)) -> keeps (lget L) now -> keeps out now ->
    (forall o g, out (lput L o g) = out g) ->
    nth_error (pso_loggers cfg) i = Some (attached LU (time_logger fmt write L now)) -> pso_others_keep i (lget LU) cfg ->
    pso_find_min cfg fuel s u = (Ret (r, s'), u', t) \/ pso_next_iterations cfg fuel s u = (Ret (r, s'), u', t) ->
    exists t0 t1 g1 g2, now (lget LU u) = (Ret t0, g1) /\ now (lput L (Some t0) g1) = (Ret t1, g2) /\
      out (lget LU u') = (out (lget LU u) ++ time_text fmt t0 t1)%string.
Proof. exact @pso_time_run. Qed.
Print Assumptions C65_pso_line.

Example C65_nonvacuous :
  prints page pen /\ lens_ok (@lens_snd (string * Z) (option Z)) /\ ticks clock /\
  (forall s, keeps (lget lens_snd) (pen s)) /\ keeps (lget lens_snd) clock /\ keeps page clock /\
  (forall o g, page (lput lens_snd o g) = page g) /\
  nth_error (ga_loggers herd_time) 1 = Some (attached lens_snd (time_logger plain pen lens_snd clock)) /\
  ga_others_apart 1 lens_snd herd_time /\ pso_others_apart 1 lens_snd flock_time /\
  (exists r p' u' t, ga_find_min herd_time 10 herd_start (env0, desk0) = (Ret (r, p'), u', t) /\
     page (snd u') = ("Time elapsed: || ms" ++ newline)%string) /\
  (exists r s' u' t, pso_find_min flock_time 10 flock_start (env0, desk0) = (Ret (r, s'), u', t) /\
     page (snd u') = ("Time elapsed: || ms" ++ newline)%string).
Proof.
  split; [apply pen_prints|]. split; [apply lens_snd_ok|]. split; [apply clock_ticks|].
  split; [intros s g; reflexivity|]. split; [intros g; reflexivity|]. split; [intros g; reflexivity|].
  split; [intros o g; reflexivity|]. split; [reflexivity|]. split; [apply herd_watch_apart|].
  split; [apply flock_watch_apart|].
  split; [apply herd_prints; vm_compute; reflexivity|apply flock_prints; vm_compute; reflexivity].
Qed.

(** ** C66: VerboseLogger and ResultOnlyLogger write what happened.
    [verbose_text] and [report_text] (SpecLog) are the texts about one state; the
    states after the iterations are [tl (consulted t)], numbered as in C53. *)
Theorem C66_ga_verbose :
  forall (U G T : Type) (LU : lens U G) (fmt : formatter T) write (out : G -> string), lens_ok LU -> prints out write ->
  forall precision i (cfg : ga_config U (list T)) fuel p u r p' u' t,
    nth_error (ga_loggers cfg) i = Some (attached LU (verbose_logger fmt write precision)) -> ga_others_keep i (lget LU) cfg ->
    ga_find_min cfg fuel p u = (Ret (r, p'), u', t) \/ ga_next_iterations cfg fuel p u = (Ret (r, p'), u', t) ->
    out (lget LU u') = (out (lget LU u) ++
      String.concat "" (map (fun q => verbose_text fmt precision (ga_view q)) (tl (consulted t))))%string.
Proof. exact @ga_verbose_run. Qed.
Print Assumptions C66_ga_verbose.
Theorem C66_pso_verbose :
  forall (U G T : Type) (FT : FloatTrait T) (LU : lens U G) (fmt : formatter T) write (out : G -> string),
    lens_ok LU -> prints out write ->
  forall precision i (cfg : pso_config U T) fuel s u r s' u' t,
    nth_error (pso_loggers cfg) i = Some (attached LU (verbose_logger fmt write precision)) -> pso_others_keep i (lget LU) cfg ->
    pso_find_min cfg fuel s u = (Ret (r, s'), u', t) \/ pso_next_iterations cfg fuel s u = (Ret (r, s'), u', t) ->
    out (lget LU u') = (out (lget LU u) ++
      String.concat "" (map (fun q => verbose_text fmt precision (pso_view q)) (tl (consulted t))))%string.
Proof. exact @pso_verbose_run. Qed.
Print Assumptions C66_pso_verbose.
Theorem C66_ga_report :
  forall (U G T : Type) (LU : lens U G) (fmt : formatter T) write (out : G -> string), lens_ok LU -> prints out write ->
  forall precision i (cfg : ga_config U (list T)) fuel p u r p' u' t,
    nth_error (ga_loggers cfg) i = Some (attached LU (result_only_logger fmt write precision)) -> ga_others_keep i (lget LU) cfg ->
    ga_find_min cfg fuel p u = (Ret (r, p'), u', t) \/ ga_next_iterations cfg fuel p u = (Ret (r, p'), u', t) ->
    out (lget LU u') = (out (lget LU u) ++ report_text fmt precision (ga_view p'))%string.
Proof. exact @ga_report_run. Qed.
Print Assumptions C66_ga_report.
Theorem C66_pso_report :
  forall (U G T : Type) (FT : FloatTrait T) (LU : lens U G) (fmt : formatter T) write (out : G -> string),
    lens_ok LU -> prints out write ->
  forall precision i (cfg : pso_config U T) fuel s u r s' u' t,
    nth_error (pso_loggers cfg) i = Some (attached LU (result_only_logger fmt write precision)) -> pso_others_keep i (lget LU) cfg ->
    pso_find_min cfg fuel s u = (Ret (r, s'), u', t) \/ pso_next_iterations cfg fuel s u = (Ret (r, s'), u', t) ->
    out (lget LU u') = (out (lget LU u) ++ report_text fmt precision (pso_view s'))%string.
Proof. exact @pso_report_run. Qed.
Print Assumptions C66_pso_report.

(** Two iterations: two lines; coordinates are printed as x, goals as v. *)
Example C66_nonvacuous :
  prints page pen /\
  nth_error (pso_loggers flock_verbose) 1 = Some (attached lens_snd (verbose_logger plain pen 3)) /\
  pso_others_keep 1 (lget lens_snd) flock_verbose /\ ga_others_keep 1 (lget lens_snd) herd_verbose /\
  pso_others_keep 1 (lget lens_snd) flock_report /\ ga_others_keep 1 (lget lens_snd) herd_report /\
  (exists r s' u' t, pso_find_min flock_verbose 10 flock_start (env0, desk0) = (Ret (r, s'), u', t) /\
     page (snd u') = ("|  x  x  v" ++ newline ++ "||  x  x  v" ++ newline)%string) /\
  (exists r p' u' t, ga_find_min herd_verbose 10 herd_start (env0, desk0) = (Ret (r, p'), u', t) /\
     page (snd u') = ("|  x  v" ++ newline ++ "||  x  v" ++ newline)%string) /\
  (exists r s' u' t, pso_find_min flock_report 10 flock_start (env0, desk0) = (Ret (r, s'), u', t) /\
     page (snd u') = ("Solution:" ++ newline ++ "  x" ++ newline ++ "  x" ++ newline ++ newline ++ newline ++ "Goal: v" ++ newline ++
                      "Iterations count: ||" ++ newline)%string) /\
  (exists r p' u' t, ga_find_min herd_report 10 herd_start (env0, desk0) = (Ret (r, p'), u', t) /\
     page (snd u') = ("Solution:" ++ newline ++ "  x" ++ newline ++ newline ++ newline ++ "Goal: v" ++ newline ++
                      "Iterations count: ||" ++ newline)%string).
Proof.
  split; [apply pen_prints|]. split; [reflexivity|]. split; [apply pso_apart_keep, flock_watch_apart|].
  split; [apply ga_apart_keep, herd_watch_apart|]. split; [apply pso_apart_keep, flock_watch_apart|].
  split; [apply ga_apart_keep, herd_watch_apart|].
  split; [apply flock_prints; vm_compute; reflexivity|]. split; [apply herd_prints; vm_compute; reflexivity|].
  split; [apply flock_prints; vm_compute; reflexivity|apply herd_prints; vm_compute; reflexivity].
Qed.

(** ** C81: any logger object goes through exactly the calls of the protocol.
    [fed l calls g g']: the calls take the logger from state [g] to [g'], all
    returning; [resumed q ms]: resume with [q], next_iteration with each of [ms],
    finish with the last. *)
Theorem C81_ga_logger_find :
  forall (U T G : Type) i (L : lens U G) (l : logger G T) (cfg : ga_config U T) fuel p u r p' u' t, lens_ok L ->
    nth_error (ga_loggers cfg) i = Some (attached L l) -> ga_others_keep i (lget L) cfg ->
    ga_find_min cfg fuel p u = (Ret (r, p'), u', t) ->
    exists q ms, consulted t = q :: ms /\ p' = last ms q /\
      fed l (map (fun ks => (fst ks, ga_view (snd ks))) ((LStart, q) :: resumed q ms)) (lget L u) (lget L u').
Proof. exact @ga_logger_find. Qed.
Print Assumptions C81_ga_logger_find.
Theorem C81_ga_logger_next :
  forall (U T G : Type) i (L : lens U G) (l : logger G T) (cfg : ga_config U T) fuel p u r p' u' t, lens_ok L ->
    nth_error (ga_loggers cfg) i = Some (attached L l) -> ga_others_keep i (lget L) cfg ->
    ga_next_iterations cfg fuel p u = (Ret (r, p'), u', t) ->
    exists ms, consulted t = p :: ms /\ p' = last ms p /\
      fed l (map (fun ks => (fst ks, ga_view (snd ks))) (resumed p ms)) (lget L u) (lget L u').
Proof. exact @ga_logger_next. Qed.
Print Assumptions C81_ga_logger_next.
Theorem C81_pso_logger_find :
  forall (U T G : Type) (FT : FloatTrait T) i (L : lens U G) (l : logger G (list T)) (cfg : pso_config U T)
    fuel s u r s' u' t, lens_ok L ->
    nth_error (pso_loggers cfg) i = Some (attached L l) -> pso_others_keep i (lget L) cfg ->
    pso_find_min cfg fuel s u = (Ret (r, s'), u', t) ->
    exists q ms, consulted t = q :: ms /\ s' = last ms q /\
      fed l (map (fun ks => (fst ks, pso_view (snd ks))) ((LStart, q) :: resumed q ms)) (lget L u) (lget L u').
Proof. exact @pso_logger_find. Qed.
Print Assumptions C81_pso_logger_find.
Theorem C81_pso_logger_next :
  forall (U T G : Type) (FT : FloatTrait T) i (L : lens U G) (l : logger G (list T)) (cfg : pso_config U T)
    fuel s u r s' u' t, lens_ok L ->
    nth_error (pso_loggers cfg) i = Some (attached L l) -> pso_others_keep i (lget L) cfg ->
    pso_next_iterations cfg fuel s u = (Ret (r, s'), u', t) ->
    exists ms, consulted t = s :: ms /\ s' = last ms s /\
      fed l (map (fun ks => (fst ks, pso_view (snd ks))) (resumed s ms)) (lget L u) (lget L u').
Proof. exact @pso_logger_next. Qed.
Print Assumptions C81_pso_logger_next.

(** The hypotheses are those of C53: a herd and a swarm of three iterations. *)
Example C81_nonvacuous :
  lens_ok (@lens_snd env (statistics (list f64))) /\
  nth_error (ga_loggers (herd_stat 3)) 1 = Some (attached lens_snd statistics_logger) /\
  ga_others_keep 1 (lget lens_snd) (herd_stat 3) /\
  (exists r p' u' t, ga_find_min (herd_stat 3) 10 herd_start (env0, statistics_new) = (Ret (r, p'), u', t) /\
     iteration p' = 3) /\
  nth_error (pso_loggers (flock_stat 3)) 1 = Some (attached lens_snd statistics_logger) /\
  pso_others_keep 1 (lget lens_snd) (flock_stat 3) /\
  (exists r s' u' t, pso_find_min (flock_stat 3) 10 flock_start (env0, statistics_new) = (Ret (r, s'), u', t) /\
     sw_iteration s' = 3).
Proof.
  split; [apply lens_snd_ok|]. split; [reflexivity|].
  split; [apply ga_apart_keep, herd_watch_apart|]. split; [exact herd_stat_three|]. split; [reflexivity|].
  split; [apply pso_apart_keep, flock_watch_apart|]. exact flock_stat_three.
Qed.
