(** * C88: writers that fail *)

From Coq Require Import List Arith ZArith Bool String.
From Verif Require Import Base FloatModel GaModel PsoModel LogModel SpecGa SpecPso SpecRun SpecLog LogFacts PrintFacts DemoGa DemoPso DemoLog.
Import ListNotations.
Local Open Scope nat_scope.

(** Each call of a printing logger goes on only as long as the writer takes the text. *)
Theorem C88_failures_noticed :
  forall (T G : Type) (fmt : formatter T) (write : string -> comp G bool), answers write ->
  forall precision (l : logger (G * list bool) (list T)) k q,
    l = verbose_logger fmt (answering write) precision \/ l = result_only_logger fmt (answering write) precision ->
    notices (told_by k l q).
Proof. exact @printing_notices. Qed.
Print Assumptions C88_failures_noticed.

(** With a writer that takes nothing, no run with a ResultOnlyLogger or a TimeLogger
    returns ... *)
Theorem C88_ga_report :
  forall (T G : Type) (fmt : formatter T) (write : string -> comp G bool), refuses write ->
  forall (U : Type) (LU : lens U G), lens_ok LU ->
  forall i l (cfg : ga_config U (list T)) fuel p u r p' u' t,
    nth_error (ga_loggers cfg) i = Some (attached LU l) -> ga_others_keep i (lget LU) cfg ->
    (exists precision, l = result_only_logger fmt write precision) \/ (exists L now, l = time_logger fmt write L now) ->
    ga_find_min cfg fuel p u <> (Ret (r, p'), u', t) /\ ga_next_iterations cfg fuel p u <> (Ret (r, p'), u', t).
Proof. exact @ga_refused_end. Qed.
Print Assumptions C88_ga_report.
Theorem C88_pso_report :
  forall (T G : Type) (fmt : formatter T) (write : string -> comp G bool), refuses write ->
  forall (U : Type) (LU : lens U G), lens_ok LU ->
  forall (FT : FloatTrait T) i l (cfg : pso_config U T) fuel s u r s' u' t,
    nth_error (pso_loggers cfg) i = Some (attached LU l) -> pso_others_keep i (lget LU) cfg ->
    (exists precision, l = result_only_logger fmt write precision) \/ (exists L now, l = time_logger fmt write L now) ->
    pso_find_min cfg fuel s u <> (Ret (r, s'), u', t) /\ pso_next_iterations cfg fuel s u <> (Ret (r, s'), u', t).
Proof. exact @pso_refused_end. Qed.
Print Assumptions C88_pso_report.
(** ... and one with a VerboseLogger only if no iteration had a solution to print. *)
Theorem C88_ga_verbose :
  forall (T G : Type) (fmt : formatter T) (write : string -> comp G bool), refuses write ->
  forall (U : Type) (LU : lens U G), lens_ok LU ->
  forall i precision (cfg : ga_config U (list T)) fuel p u r p' u' t,
    nth_error (ga_loggers cfg) i = Some (attached LU (verbose_logger fmt write precision)) -> ga_others_keep i (lget LU) cfg ->
    ga_find_min cfg fuel p u = (Ret (r, p'), u', t) \/ ga_next_iterations cfg fuel p u = (Ret (r, p'), u', t) ->
    forall q, In q (tl (consulted t)) -> best_individual q = None.
Proof. exact @ga_refused_verbose. Qed.
Print Assumptions C88_ga_verbose.
Theorem C88_pso_verbose :
  forall (T G : Type) (fmt : formatter T) (write : string -> comp G bool), refuses write ->
  forall (U : Type) (LU : lens U G), lens_ok LU ->
  forall (FT : FloatTrait T) i precision (cfg : pso_config U T) fuel s u r s' u' t,
    nth_error (pso_loggers cfg) i = Some (attached LU (verbose_logger fmt write precision)) -> pso_others_keep i (lget LU) cfg ->
    pso_find_min cfg fuel s u = (Ret (r, s'), u', t) \/ pso_next_iterations cfg fuel s u = (Ret (r, s'), u', t) ->
    forall q, In q (tl (consulted t)) -> best_particle q = None.
Proof. exact @pso_refused_verbose. Qed.
Print Assumptions C88_pso_verbose.

(** A writer that takes two texts and refuses the third: the report is cut short. *)
Definition short_pen (s : string) : comp nat bool := fun n => (Ret (n <? 2), n + 1).
Definition dry_pen (s : string) : comp desk bool := fun d => (Ret false, d).
Definition bool_of_panic {A} (o : outcome A) : bool := match o with Panic => true | _ => false end.
Example C88_nonvacuous :
  answers short_pen /\ refuses dry_pen /\
  (let q := AlgState (Some ([7%Z], @Binary.B754_zero 53 1024 false)) 3 in
   let '(o, (_, bs)) := told_by LFinish (result_only_logger plain (answering short_pen) 3) q (0, []) in
   o = Panic /\ bs = [true; true; false]) /\
  nth_error (ga_loggers (herd_watch 2 (result_only_logger plain dry_pen 3))) 1
    = Some (attached lens_snd (result_only_logger plain dry_pen 3)) /\
  ga_others_keep 1 (lget lens_snd) (herd_watch 2 (result_only_logger plain dry_pen 3)) /\
  nth_error (pso_loggers (flock_watch 2 (verbose_logger plain dry_pen 3))) 1
    = Some (attached lens_snd (verbose_logger plain dry_pen 3)) /\
  pso_others_keep 1 (lget lens_snd) (flock_watch 2 (verbose_logger plain dry_pen 3)) /\
  bool_of_panic (fst (fst (ga_find_min (herd_watch 2 (result_only_logger plain dry_pen 3)) 10 herd_start (env0, desk0)))) = true /\
  bool_of_panic (fst (fst (pso_find_min (flock_watch 2 (verbose_logger plain dry_pen 3)) 10 flock_start (env0, desk0)))) = true.
Proof.
  split; [intros s g; eexists _, _; reflexivity|]. split; [intros s g; eexists; reflexivity|].
  split; [split; reflexivity|]. split; [reflexivity|]. split; [apply ga_apart_keep, herd_watch_apart|].
  split; [reflexivity|]. split; [apply pso_apart_keep, flock_watch_apart|]. split; vm_compute; reflexivity.
Qed.
