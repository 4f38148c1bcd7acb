(** * Writers that fail *)

From Coq Require Import List Arith ZArith Bool String Lia.
From Verif Require Import Base Logic FloatModel GaModel PsoModel LogModel SpecGa SpecPso SpecRun SpecLog LogRuns LogFacts.
Import ListNotations.
Local Open Scope nat_scope.

Section Writers.
  Context {T G : Type}.
  Variable fmt : formatter T.
  Variable write : string -> comp G bool.

  (** *** One call *)
  Notation W := (G * list bool)%type.
  Hypothesis Hans : answers write.

  Lemma notices_ret : notices (cret tt : comp W unit).
  Proof. intros g bs. exists (Ret tt), g, []. rewrite app_nil_r. split; [reflexivity|]. left. auto. Qed.
  Lemma notices_writeln s : notices (writeln (answering write) s).
  Proof.
    intros g bs. unfold writeln, cbind, answering. simpl. destruct (Hans (s ++ nl)%string g) as [b [g' E]]. rewrite E.
    destruct b; simpl; unfold cpure.
    - exists (Ret tt), g', [true]. split; [reflexivity|]. left. auto.
    - exists Panic, g', [false]. split; [reflexivity|]. right. split; [reflexivity|]. exists []. auto.
  Qed.
  Lemma notices_bind (c d : comp W unit) : notices c -> notices d -> notices (do _ <- c ;; d).
  Proof.
    intros Hc Hd g bs. destruct (Hc g bs) as [o [g1 [m1 [E [[-> F]|[-> F]]]]]]; unfold cbind; rewrite E.
    - destruct (Hd g1 (bs ++ m1)) as [o2 [g2 [m2 [E2 K]]]]. rewrite E2. exists o2, g2, (m1 ++ m2). rewrite app_assoc.
      split; [reflexivity|]. destruct K as [[-> F2]|[-> [tk [-> F2]]]].
      + left. split; [reflexivity|]. now apply Forall_app.
      + right. split; [reflexivity|]. exists (m1 ++ tk). rewrite app_assoc. split; [reflexivity|]. now apply Forall_app.
    - exists Panic, g1, m1. split; [reflexivity|]. now right.
  Qed.
  Theorem printing_notices precision (l : logger W (list T)) k q :
    l = verbose_logger fmt (answering write) precision \/ l = result_only_logger fmt (answering write) precision ->
    notices (told_by k l q).
  Proof.
    intros [->| ->]; destruct k; simpl; try apply notices_ret.
    - destruct (as_best q) as [[x v]|]; [apply notices_writeln|apply notices_ret].
    - unfold result_only_finish. apply notices_bind; [|apply notices_writeln].
      destruct (as_best q) as [[x v]|]; [apply notices_bind|]; apply notices_writeln.
  Qed.
End Writers.

Section Refusal.
  Context {T G : Type}.
  Variable fmt : formatter T.
  Variable write : string -> comp G bool.
  Hypothesis Href : refuses write.

  Lemma writeln_refused s g g' : writeln write s g <> (Ret tt, g').
  Proof. unfold writeln, cbind. destruct (Href (s ++ nl)%string g) as [g1 E]. rewrite E. discriminate. Qed.
  Lemma verbose_refused precision q g g' : lg_next (verbose_logger fmt write precision) q g = (Ret tt, g') -> as_best q = None.
  Proof.
    simpl. destruct (as_best q) as [[x v]|]; [|reflexivity]. intros H. now apply writeln_refused in H.
  Qed.
  Lemma report_refused precision q g g' : lg_finish (result_only_logger fmt write precision) q g <> (Ret tt, g').
  Proof.
    simpl. unfold result_only_finish, cbind. intros H.
    match type of H with (let (_, _) := ?c in _) = _ => destruct c as [[[]| |] g1] eqn:E end;
      try discriminate. now apply writeln_refused in H.
  Qed.
  Lemma time_refused L now q g g' : lg_finish (time_logger fmt write L now) q g <> (Ret tt, g').
  Proof.
    simpl. unfold cbind. intros H.
    destruct (zoom L _ g) as [[s| |] g1]; try discriminate. destruct (now g1) as [[t| |] g2]; try discriminate.
    now apply writeln_refused in H.
  Qed.

  Lemma fed_told {S} (l : logger G S) cs g g' k q : fed l cs g g' -> In (k, q) cs ->
    exists g1 g2, told_by k l q g1 = (Ret tt, g2).
  Proof.
    induction 1 as [|k' s cs g g1 g2 E F IH]; [intros []|]. intros [H|H]; [injection H as -> ->; eauto|auto].
  Qed.
  Lemma resumed_finish {S} (q : S) ms : In (LFinish, last ms q) (resumed q ms).
  Proof. unfold resumed. right. apply in_or_app. right. simpl. auto. Qed.
  Lemma resumed_next {S} (q : S) ms m : In m ms -> In (LNext, m) (resumed q ms).
  Proof. intros H. unfold resumed. right. apply in_or_app. left. now apply in_map. Qed.

  Context {U : Type}.
  Variable LU : lens U G.
  Hypothesis HLU : lens_ok LU.
  Definition at_end (l : logger G (list T)) : Prop :=
    (exists precision, l = result_only_logger fmt write precision) \/ (exists L now, l = time_logger fmt write L now).
  Lemma at_end_refused l q g g' : at_end l -> lg_finish l q g <> (Ret tt, g').
  Proof. intros [[pr ->]|[L [now ->]]]; [apply report_refused|apply time_refused]. Qed.

  Theorem ga_refused_end i l (cfg : ga_config U (list T)) fuel p u r p' u' t :
    nth_error (ga_loggers cfg) i = Some (attached LU l) -> ga_others_keep i (lget LU) cfg -> at_end l ->
    ga_find_min cfg fuel p u <> (Ret (r, p'), u', t) /\ ga_next_iterations cfg fuel p u <> (Ret (r, p'), u', t).
  Proof.
    intros Hi Ho Hl. split; intros E.
    - destruct (ga_logger_find _ _ _ _ _ _ _ _ _ _ _ HLU Hi Ho E) as [q [ms [_ [_ F]]]].
      destruct (fed_told _ _ _ _ LFinish (ga_view (last ms q)) F) as [g1 [g2 K]].
      { apply (in_map (fun ks => (fst ks, ga_view (snd ks))) _ (LFinish, last ms q)). simpl. right. apply resumed_finish. }
      now apply at_end_refused in K.
    - destruct (ga_logger_next _ _ _ _ _ _ _ _ _ _ _ HLU Hi Ho E) as [ms [_ [_ F]]].
      destruct (fed_told _ _ _ _ LFinish (ga_view (last ms p)) F) as [g1 [g2 K]].
      { apply (in_map (fun ks => (fst ks, ga_view (snd ks))) _ (LFinish, last ms p)). apply resumed_finish. }
      now apply at_end_refused in K.
  Qed.
  Theorem ga_refused_verbose i precision (cfg : ga_config U (list T)) fuel p u r p' u' t :
    nth_error (ga_loggers cfg) i = Some (attached LU (verbose_logger fmt write precision)) -> ga_others_keep i (lget LU) cfg ->
    ga_find_min cfg fuel p u = (Ret (r, p'), u', t) \/ ga_next_iterations cfg fuel p u = (Ret (r, p'), u', t) ->
    forall q, In q (tl (consulted t)) -> best_individual q = None.
  Proof.
    intros Hi Ho E q Hq.
    assert (Hn : exists g1 g2, lg_next (verbose_logger fmt write precision) (ga_view q) g1 = (Ret tt, g2)).
    { destruct E as [E|E].
      - destruct (ga_logger_find _ _ _ _ _ _ _ _ _ _ _ HLU Hi Ho E) as [q0 [ms [Ec [_ F]]]]. rewrite Ec in Hq.
        apply (fed_told _ _ _ _ LNext (ga_view q) F).
        apply (in_map (fun ks => (fst ks, ga_view (snd ks))) _ (LNext, q)). simpl. right. now apply resumed_next.
      - destruct (ga_logger_next _ _ _ _ _ _ _ _ _ _ _ HLU Hi Ho E) as [ms [Ec [_ F]]]. rewrite Ec in Hq.
        apply (fed_told _ _ _ _ LNext (ga_view q) F).
        apply (in_map (fun ks => (fst ks, ga_view (snd ks))) _ (LNext, q)). now apply resumed_next. }
    destruct Hn as [g1 [g2 K]]. apply verbose_refused in K. unfold ga_view in K. simpl in K.
    now destruct (best_individual q).
  Qed.

  Context {FT : FloatTrait T}.
  Theorem pso_refused_end i l (cfg : pso_config U T) fuel s u r s' u' t :
    nth_error (pso_loggers cfg) i = Some (attached LU l) -> pso_others_keep i (lget LU) cfg -> at_end l ->
    pso_find_min cfg fuel s u <> (Ret (r, s'), u', t) /\ pso_next_iterations cfg fuel s u <> (Ret (r, s'), u', t).
  Proof.
    intros Hi Ho Hl. split; intros E.
    - destruct (pso_logger_find _ _ _ _ _ _ _ _ _ _ _ HLU Hi Ho E) as [q [ms [_ [_ F]]]].
      destruct (fed_told _ _ _ _ LFinish (pso_view (last ms q)) F) as [g1 [g2 K]].
      { apply (in_map (fun ks => (fst ks, pso_view (snd ks))) _ (LFinish, last ms q)). simpl. right. apply resumed_finish. }
      now apply at_end_refused in K.
    - destruct (pso_logger_next _ _ _ _ _ _ _ _ _ _ _ HLU Hi Ho E) as [ms [_ [_ F]]].
      destruct (fed_told _ _ _ _ LFinish (pso_view (last ms s)) F) as [g1 [g2 K]].
      { apply (in_map (fun ks => (fst ks, pso_view (snd ks))) _ (LFinish, last ms s)). apply resumed_finish. }
      now apply at_end_refused in K.
  Qed.
  Theorem pso_refused_verbose i precision (cfg : pso_config U T) fuel s u r s' u' t :
    nth_error (pso_loggers cfg) i = Some (attached LU (verbose_logger fmt write precision)) -> pso_others_keep i (lget LU) cfg ->
    pso_find_min cfg fuel s u = (Ret (r, s'), u', t) \/ pso_next_iterations cfg fuel s u = (Ret (r, s'), u', t) ->
    forall q, In q (tl (consulted t)) -> best_particle q = None.
  Proof.
    intros Hi Ho E q Hq.
    assert (Hn : exists g1 g2, lg_next (verbose_logger fmt write precision) (pso_view q) g1 = (Ret tt, g2)).
    { destruct E as [E|E].
      - destruct (pso_logger_find _ _ _ _ _ _ _ _ _ _ _ HLU Hi Ho E) as [q0 [ms [Ec [_ F]]]]. rewrite Ec in Hq.
        apply (fed_told _ _ _ _ LNext (pso_view q) F).
        apply (in_map (fun ks => (fst ks, pso_view (snd ks))) _ (LNext, q)). simpl. right. now apply resumed_next.
      - destruct (pso_logger_next _ _ _ _ _ _ _ _ _ _ _ HLU Hi Ho E) as [ms [Ec [_ F]]]. rewrite Ec in Hq.
        apply (fed_told _ _ _ _ LNext (pso_view q) F).
        apply (in_map (fun ks => (fst ks, pso_view (snd ks))) _ (LNext, q)). now apply resumed_next. }
    destruct Hn as [g1 [g2 K]]. apply verbose_refused in K. unfold pso_view in K. simpl in K.
    now destruct (best_particle q).
  Qed.
End Refusal.
