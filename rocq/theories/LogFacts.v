(** * The loggers of the library and the counted goal *)

From Coq Require Import List Arith ZArith Bool Lia String.
From Verif Require Import Base Logic FloatModel GaModel PsoModel StatModel LogModel SpecGa SpecPso SpecRun SpecLog
  GaFacts GaProofs PsoFacts PsoRuns PsoProofs GaTheorems LoopFacts RunRel LogRuns TwinFacts.
Import ListNotations.

(** ** Replacing a logger by one that does nothing *)
Section Replace.
  Context {U G T : Type}.
  Variable L : lens U G.
  Hypothesis HL : lens_ok L.

  Definition stage (P : G -> Prop) (u1 u2 : U) : Prop := same_but L u1 u2 /\ P (lget L u1).
  Lemma apart_stage P {A} (c : comp U A) : apart L c -> ctwin (stage P) (stage P) c c.
  Proof.
    intros [Hk Hr] u1 u2 [H1 H2]. destruct (Hr u1 u2 H1) as [A1 A2]. split; auto. intros a Ha.
    split; [eauto|]. now rewrite Hk.
  Qed.
  Lemma same_put g u : same_but L (lput L g u) u.
  Proof. intros g'. apply (lens_put_put L HL). Qed.
  Lemma same_trans u1 u2 u3 : same_but L u1 u2 -> same_but L u2 u3 -> same_but L u1 u3.
  Proof. intros A B g. now rewrite A. Qed.
  Lemma same_refl u : same_but L u u.
  Proof. intros g. reflexivity. Qed.
  Lemma attached_stage (P Q : G -> Prop) (l : logger G T) k s :
    (forall g, P g -> exists g', lg_method k l s g = (Ret tt, g') /\ Q g') ->
    ctwin (stage P) (stage Q) (lg_method k (attached L l) s) (lg_method k no_logger s).
  Proof.
    intros H u1 u2 [H1 H2]. destruct (H _ H2) as [g' [E Hg]].
    assert (E1 : lg_method k (attached L l) s u1 = (Ret tt, lput L g' u1)).
    { destruct k; simpl in *; unfold zoom; now rewrite E. }
    rewrite E1. assert (E2 : lg_method k (@no_logger U T) s u2 = (Ret tt, u2)) by now destruct k.
    rewrite E2. simpl. split; auto. intros _ _. split.
    - eapply same_trans; [apply same_put|exact H1].
    - now rewrite (lens_get_put L HL).
  Qed.

  Lemma split_at {A} (i : nat) (l : list A) (x : A) : nth_error l i = Some x -> l = firstn i l ++ x :: skipn (S i) l.
  Proof.
    revert l. induction i as [|i IH]; intros [|y l] H; simpl in *; try discriminate; [congruence|].
    f_equal. now apply IH.
  Qed.
  Lemma nth_firstn {A} i j (l : list A) x : nth_error (firstn i l) j = Some x -> nth_error l j = Some x /\ j < i.
  Proof.
    revert l j. induction i as [|i IH]; intros [|y l] [|j] H; simpl in *; try discriminate.
    - split; auto. lia.
    - apply IH in H. intuition lia.
  Qed.
  Lemma nth_skipn {A} i j (l : list A) : nth_error (skipn i l) j = nth_error l (i + j).
  Proof. revert l. induction i as [|i IH]; intros [|y l]; simpl; auto. now destruct j. Qed.
  Lemma same_stages {S} (view : S -> alg_state T) (P : G -> Prop) k (ls : list (logger U T)) s :
    (forall l, In l ls -> apart L (lg_method k l (view s))) ->
    Forall2 (fun l1 l2 => ctwin (stage P) (stage P) (lg_method k l1 (view s)) (lg_method k l2 (view s))) ls ls.
  Proof.
    induction ls as [|l ls IH]; intros H; constructor.
    - apply apart_stage, H. now left.
    - apply IH. intros. apply H. now right.
  Qed.
  Lemma loggers_stage {S X} (view : S -> alg_state T) (P Q : G -> Prop) (l : logger G T) i (ls : list (logger U T)) k s :
    nth_error ls i = Some (attached L l) ->
    (forall j l0 k s, nth_error ls j = Some l0 -> j <> i -> apart L (lg_method k l0 s)) ->
    (forall s g, P g -> exists g', lg_method k l s g = (Ret tt, g') /\ Q g') ->
    @mtwin U T S X (stage P) (stage Q) unit (call_loggers view k ls s)
      (call_loggers view k (replaced i no_logger ls) s).
  Proof.
    intros Hi Ho Hl. rewrite (split_at _ _ _ Hi) at 1. unfold replaced. apply twin_loggers_one.
    - apply same_stages. intros l0 Hin. apply In_nth_error in Hin. destruct Hin as [j Hj].
      apply nth_firstn in Hj. destruct Hj as [Hj Hlt]. eapply Ho; eauto. lia.
    - apply attached_stage; auto.
    - apply same_stages. intros l0 Hin. apply In_nth_error in Hin. destruct Hin as [j Hj].
      rewrite nth_skipn in Hj. eapply Ho; eauto. lia.
  Qed.
End Replace.

Section GaReplace.
  Context {U G T : Type}.
  Implicit Types (cfg : ga_config U T) (p : population T).
  Lemma ga_apart_twins (L : lens U G) i cfg ls (P : G -> Prop) : ga_others_apart i L cfg ->
    ga_twins (stage L P) cfg (ga_set_loggers cfg ls).
  Proof.
    intros [Hg [Hst [Hc [Hp [Hx [Hm [Hs [Hb Ho]]]]]]]]. unfold ga_twins. simpl.
    repeat match goal with |- _ /\ _ => split end; intros; auto; apply apart_stage; auto.
  Qed.
  Lemma stage_alike {E A} (L : lens U G) (P Q : G -> Prop) (m1 m2 : U -> outcome A * U * list E) u :
    (forall u1 u2, stage L P u1 u2 ->
      fst (fst (m1 u1)) = fst (fst (m2 u2)) /\ snd (m1 u1) = snd (m2 u2) /\
      (forall a, fst (fst (m1 u1)) = Ret a -> stage L Q (snd (fst (m1 u1))) (snd (fst (m2 u2))))) ->
    P (lget L u) -> alike L (m1 u) (m2 u) /\ (forall a, fst (fst (m1 u)) = Ret a -> Q (lget L (snd (fst (m1 u))))).
  Proof.
    intros H Hu. destruct (H u u) as [A1 [A2 A3]]; [split; [apply same_refl|auto]|].
    split; [split; auto; split; auto|]; intros a Ha; apply (A3 a Ha).
  Qed.
  Theorem ga_find_undisturbed (L : lens U G) (l : logger G T) P1 P2 i cfg fuel p u :
    lens_ok L -> survives P1 P2 l ->
    nth_error (ga_loggers cfg) i = Some (attached L l) -> ga_others_apart i L cfg ->
    alike L (ga_find_min cfg fuel p u)
            (ga_find_min (ga_set_loggers cfg (replaced i no_logger (ga_loggers cfg))) fuel p u) /\
    (forall a, fst (fst (ga_find_min cfg fuel p u)) = Ret a -> P2 (lget L (snd (fst (ga_find_min cfg fuel p u))))).
  Proof.
    intros HL [S1 [S2 [S3 S4]]] Hi Ho. apply (stage_alike L (fun _ => True) P2); auto.
    apply (twin_ga_find (stage L (fun _ => True)) (stage L P1) (stage L P2)).
    - eapply ga_apart_twins; eauto.
    - eapply ga_apart_twins; eauto.
    - intros s. apply apart_stage. apply Ho.
    - intros q. apply (loggers_stage L HL pop_view _ _ l); auto; [apply Ho|]. intros s g _. apply S1.
    - intros q. apply (loggers_stage L HL pop_view _ _ l); auto. apply Ho.
    - intros q. apply (loggers_stage L HL pop_view _ _ l); auto. apply Ho.
    - intros q. apply (loggers_stage L HL pop_view _ _ l); auto. apply Ho.
  Qed.
  Theorem ga_next_undisturbed (L : lens U G) (l : logger G T) P1 P2 i cfg fuel p u :
    lens_ok L -> survives P1 P2 l ->
    nth_error (ga_loggers cfg) i = Some (attached L l) -> ga_others_apart i L cfg -> P1 (lget L u) ->
    alike L (ga_next_iterations cfg fuel p u)
            (ga_next_iterations (ga_set_loggers cfg (replaced i no_logger (ga_loggers cfg))) fuel p u) /\
    (forall a, fst (fst (ga_next_iterations cfg fuel p u)) = Ret a ->
       P2 (lget L (snd (fst (ga_next_iterations cfg fuel p u))))).
  Proof.
    intros HL [S1 [S2 [S3 S4]]] Hi Ho Hu. apply (stage_alike L P1 P2); auto.
    apply (twin_ga_next (stage L P1) (stage L P2)).
    - eapply ga_apart_twins; eauto.
    - intros s. apply apart_stage. apply Ho.
    - intros q. apply (loggers_stage L HL pop_view _ _ l); auto. apply Ho.
    - intros q. apply (loggers_stage L HL pop_view _ _ l); auto. apply Ho.
    - intros q. apply (loggers_stage L HL pop_view _ _ l); auto. apply Ho.
  Qed.
End GaReplace.

Section PsoReplace.
  Context {U G T : Type} {FT : FloatTrait T}.
  Implicit Types (cfg : pso_config U T) (s : swarm T).
  Lemma pso_apart_twins (L : lens U G) i cfg ls (P : G -> Prop) : pso_others_apart i L cfg ->
    pso_twins (stage L P) cfg (pso_set_loggers cfg ls).
  Proof.
    intros [Hg [Hst [Hc [Hv [Hk [Hpv [Hpm Ho]]]]]]]. unfold pso_twins. simpl.
    repeat match goal with |- _ /\ _ => split end; intros; auto; apply apart_stage; auto.
  Qed.
  Theorem pso_find_undisturbed (L : lens U G) (l : logger G (list T)) P1 P2 i cfg fuel s u :
    lens_ok L -> survives P1 P2 l ->
    nth_error (pso_loggers cfg) i = Some (attached L l) -> pso_others_apart i L cfg ->
    alike L (pso_find_min cfg fuel s u)
            (pso_find_min (pso_set_loggers cfg (replaced i no_logger (pso_loggers cfg))) fuel s u) /\
    (forall a, fst (fst (pso_find_min cfg fuel s u)) = Ret a -> P2 (lget L (snd (fst (pso_find_min cfg fuel s u))))).
  Proof.
    intros HL [S1 [S2 [S3 S4]]] Hi Ho. apply (stage_alike L (fun _ => True) P2); auto.
    apply (twin_pso_find (stage L (fun _ => True)) (stage L P1) (stage L P2)).
    - eapply pso_apart_twins; eauto.
    - eapply pso_apart_twins; eauto.
    - intros a. apply apart_stage. apply Ho.
    - intros q. apply (loggers_stage L HL swarm_view _ _ l); auto; [apply Ho|]. intros a g _. apply S1.
    - intros q. apply (loggers_stage L HL swarm_view _ _ l); auto. apply Ho.
    - intros q. apply (loggers_stage L HL swarm_view _ _ l); auto. apply Ho.
    - intros q. apply (loggers_stage L HL swarm_view _ _ l); auto. apply Ho.
  Qed.
  Theorem pso_next_undisturbed (L : lens U G) (l : logger G (list T)) P1 P2 i cfg fuel s u :
    lens_ok L -> survives P1 P2 l ->
    nth_error (pso_loggers cfg) i = Some (attached L l) -> pso_others_apart i L cfg -> P1 (lget L u) ->
    alike L (pso_next_iterations cfg fuel s u)
            (pso_next_iterations (pso_set_loggers cfg (replaced i no_logger (pso_loggers cfg))) fuel s u) /\
    (forall a, fst (fst (pso_next_iterations cfg fuel s u)) = Ret a ->
       P2 (lget L (snd (fst (pso_next_iterations cfg fuel s u))))).
  Proof.
    intros HL [S1 [S2 [S3 S4]]] Hi Ho Hu. apply (stage_alike L P1 P2); auto.
    apply (twin_pso_next (stage L P1) (stage L P2)).
    - eapply pso_apart_twins; eauto.
    - intros a. apply apart_stage. apply Ho.
    - intros q. apply (loggers_stage L HL swarm_view _ _ l); auto. apply Ho.
    - intros q. apply (loggers_stage L HL swarm_view _ _ l); auto. apply Ho.
    - intros q. apply (loggers_stage L HL swarm_view _ _ l); auto. apply Ho.
  Qed.
End PsoReplace.

(** ** StatisticsLogger *)
Section Stat.
  Context {T : Type}.
  Notation st := (statistics T).
  Lemma update_last {A} (l : list A) a b : update (l ++ [a]) (List.length l) b = Ret (l ++ [b]).
  Proof. induction l as [|x l IH]; simpl; auto. now rewrite IH. Qed.
  Lemma add_convergence_last s (r : list (option (T * f64))) c row :
    add_convergence s (Statistics r (c ++ [row])) = Ret (Statistics r (c ++ [row ++ [as_best s]])).
  Proof.
    unfold add_convergence. simpl. rewrite app_length. simpl. rewrite Nat.add_1_r.
    unfold index. rewrite nth_error_app2 by lia. rewrite Nat.sub_diag. simpl. now rewrite update_last.
  Qed.
  Lemma nonempty_last {A} (l : list A) : l <> [] -> exists c row, l = c ++ [row].
  Proof. intros H. destruct (exists_last H) as [c [row E]]. eauto. Qed.
  Lemma statistics_survives : survives (fun g : st => convergence g <> []) (fun g => convergence g <> []) statistics_logger.
  Proof.
    split; [|split; [|split]]; simpl.
    - intros s g. eexists. split; [reflexivity|]. simpl. destruct (convergence g); discriminate.
    - intros s g H. eauto.
    - intros s [r c] H. simpl in H. apply nonempty_last in H. destruct H as [c' [row ->]].
      rewrite add_convergence_last. eexists. split; [reflexivity|]. simpl. destruct c'; discriminate.
    - intros s g H. eexists. split; [reflexivity|]. exact H.
  Qed.

  Lemma fed_nexts {S} (view : S -> alg_state T) ms r c row (g' : st) :
    fed statistics_logger (map (fun ks => (fst ks, view (snd ks))) (map (pair LNext) ms))
        (Statistics r (c ++ [row])) g' ->
    g' = Statistics r (c ++ [row ++ bests view ms]).
  Proof.
    revert row. induction ms as [|m ms IH]; intros row H; simpl in H.
    - inversion H; subst. simpl. now rewrite app_nil_r.
    - inversion H as [|? ? ? ? ? ? E F]; subst. simpl in E. rewrite add_convergence_last in E.
      inversion E; subst. apply IH in F. rewrite F. simpl. now rewrite <- app_assoc.
  Qed.
  Lemma fed_split {G} (l : logger G T) a b g g' : fed l (a ++ b) g g' -> exists g1, fed l a g g1 /\ fed l b g1 g'.
  Proof.
    revert g. induction a as [|[k s] a IH]; intros g H; simpl in H.
    - exists g. split; [constructor|auto].
    - inversion H; subst. apply IH in H6. destruct H6 as [h [A B]]. exists h. split; auto. econstructor; eauto.
  Qed.
  Lemma fed_resumed {S} (view : S -> alg_state T) s ms r c row (g' : st) :
    fed statistics_logger (map (fun ks => (fst ks, view (snd ks))) (resumed s ms)) (Statistics r (c ++ [row])) g' ->
    g' = Statistics (r ++ [as_best (view (last ms s))]) (c ++ [row ++ bests view ms]).
  Proof.
    unfold resumed. simpl. rewrite map_app. intros H.
    inversion H as [|? ? ? ? ? ? E F]; subst. simpl in E. inversion E; subst.
    apply fed_split in F. destruct F as [g1 [F1 F2]]. apply fed_nexts in F1. subst g1.
    simpl in F2. inversion F2 as [|? ? ? ? ? ? E1 F3]; subst. simpl in E1. inversion E1; subst.
    inversion F3; subst. reflexivity.
  Qed.
  (** Without a started run, only a call without iterations returns. *)
  Lemma fed_resumed_empty {S} (view : S -> alg_state T) s ms r (g' : st) :
    fed statistics_logger (map (fun ks => (fst ks, view (snd ks))) (resumed s ms)) (Statistics r []) g' ->
    ms = [] /\ g' = Statistics (r ++ [as_best (view s)]) [].
  Proof.
    unfold resumed. simpl. rewrite map_app. intros H.
    inversion H as [|? ? ? ? ? ? E F]; subst. simpl in E. inversion E; subst.
    destruct ms as [|m ms]; simpl in F.
    - inversion F as [|? ? ? ? ? ? E1 F3]; subst. simpl in E1. inversion E1; subst. inversion F3; subst. auto.
    - inversion F as [|? ? ? ? ? ? E1 F3]; subst. simpl in E1. discriminate.
  Qed.

  Lemma stat_resumed {S} (view : S -> alg_state T) s ms r (g g' : st) :
    fed statistics_logger (map (fun ks => (fst ks, view (snd ks))) (resumed s ms)) g g' ->
    r = as_best (view (last ms s)) ->
    results g' = results g ++ [r] /\
    (forall rows row, convergence g = rows ++ [row] -> convergence g' = rows ++ [row ++ bests view ms]) /\
    (convergence g = [] -> ms = [] /\ convergence g' = []).
  Proof.
    intros F ->. destruct g as [res conv].
    destruct (destruct_list conv) as [[z [zs Ez]]|Ez].
    - destruct (nonempty_last conv) as [c [row Ec]]; [congruence|]. rewrite Ec in F.
      apply fed_resumed in F. rewrite F. split; auto. split.
      + intros rows row0 Hr. simpl in *. rewrite Ec in Hr. apply app_inj_tail in Hr. destruct Hr; subst. auto.
      + intros. simpl in *. subst. destruct c; discriminate.
    - subst conv. apply fed_resumed_empty in F. destruct F as [-> F]. rewrite F.
      split; auto. split; auto. intros rows row Hr. destruct rows; discriminate.
  Qed.
  Lemma stat_started {S} (view : S -> alg_state T) s ms r (g g' : st) :
    fed statistics_logger (map (fun ks => (fst ks, view (snd ks))) ((LStart, s) :: resumed s ms)) g g' ->
    r = as_best (view (last ms s)) ->
    results g' = results g ++ [r] /\ convergence g' = convergence g ++ [bests view ms].
  Proof.
    intros F ->. simpl in F. inversion F as [|? ? ? ? ? ? E1 F1]; subst. simpl in E1. inversion E1; subst.
    apply (fed_resumed view s ms) in F1. rewrite F1. simpl. auto.
  Qed.
End Stat.

Section StatRuns.
  Context {U T : Type}.
  Implicit Types (cfg : ga_config U T) (p : population T).
  Theorem ga_statistics_next (L : lens U (statistics T)) i cfg fuel p u r p' u' t : lens_ok L ->
    nth_error (ga_loggers cfg) i = Some (attached L statistics_logger) -> ga_others_keep i (lget L) cfg ->
    ga_next_iterations cfg fuel p u = (Ret (r, p'), u', t) ->
    results (lget L u') = results (lget L u) ++ [r] /\
    (forall rows row, convergence (lget L u) = rows ++ [row] ->
       convergence (lget L u') = rows ++ [row ++ bests pop_view (tl (consulted t))]) /\
    (convergence (lget L u) = [] -> tl (consulted t) = [] /\ convergence (lget L u') = []) /\
    iteration p <= iteration p' /\
    map (fun q => iteration q) (tl (consulted t)) = seq (iteration p + 1) (iteration p' - iteration p).
  Proof.
    intros HL Hi Ho E. assert (Hlt : i < List.length (ga_loggers cfg)) by (apply nth_error_Some; congruence).
    pose proof (ga_next_fed _ _ _ _ _ _ _ _ _ _ _ HL Hi Ho E) as F.
    destruct (ga_next_told i _ _ _ _ _ _ _ _ Hlt E) as [ms [A1 [A2 [A3 A4]]]].
    apply ga_next_numbered in E. rewrite A2 in F. rewrite A1 in *. rewrite A3 in A4.
    destruct (stat_resumed _ _ _ _ _ _ F A4) as [B1 [B2 B3]].
    split; [exact B1|]. split; [exact B2|]. split; [exact B3|]. split; [apply E|].
    destruct E as [_ E]. simpl in E. injection E as E. rewrite Nat.add_1_r. exact E.
  Qed.
  Theorem ga_statistics_find (L : lens U (statistics T)) i cfg fuel p u r p' u' t : lens_ok L ->
    nth_error (ga_loggers cfg) i = Some (attached L statistics_logger) -> ga_others_keep i (lget L) cfg ->
    ga_find_min cfg fuel p u = (Ret (r, p'), u', t) ->
    results (lget L u') = results (lget L u) ++ [r] /\
    convergence (lget L u') = convergence (lget L u) ++ [bests pop_view (tl (consulted t))] /\
    map (fun q => iteration q) (tl (consulted t)) = seq 1 (iteration p').
  Proof.
    intros HL Hi Ho E. assert (Hlt : i < List.length (ga_loggers cfg)) by (apply nth_error_Some; congruence).
    pose proof (ga_find_fed _ _ _ _ _ _ _ _ _ _ _ HL Hi Ho E) as F.
    destruct (ga_find_told i _ _ _ _ _ _ _ _ Hlt E) as [q [ms [A1 [A2 [A3 A4]]]]].
    apply ga_find_numbered in E. rewrite A2 in F. rewrite A1 in *. rewrite A3 in A4.
    destruct (stat_started _ _ _ _ _ _ F A4) as [B1 B2].
    split; [exact B1|]. split; [exact B2|]. simpl in E. injection E as _ E. exact E.
  Qed.

  (** *** Sessions *)
  Definition ga_stat_ok (L : lens U (statistics T)) cfg : Prop :=
    exists i, nth_error (ga_loggers cfg) i = Some (attached L statistics_logger) /\ ga_others_keep i (lget L) cfg.
  Theorem ga_statistics_session (L : lens U (statistics T)) g0 p g finds nexts : lens_ok L ->
    ga_session (ga_stat_ok L) (lget L) g0 p g finds nexts ->
    get_run_count g = get_run_count g0 + finds + nexts /\
    List.length (convergence g) = List.length (convergence g0) + finds.
  Proof.
    intros HL H. unfold get_run_count. induction H as [|cfg fuel u p f n r p' u' t [i [Hi Ho]] _ IH E|cfg fuel u p f n r p' u' t [i [Hi Ho]] _ IH E].
    - lia.
    - destruct (ga_statistics_find L i _ _ _ _ _ _ _ _ HL Hi Ho E) as [A [B _]]. rewrite A, B, !app_length. simpl. lia.
    - destruct (ga_statistics_next L i _ _ _ _ _ _ _ _ HL Hi Ho E) as [A [B [C _]]]. rewrite A, app_length. simpl.
      destruct (destruct_list (convergence (lget L u))) as [[z [zs Ez]]|Ez].
      + destruct (nonempty_last (convergence (lget L u))) as [c [row Ec]]; [congruence|].
        rewrite (B _ _ Ec). rewrite Ec in IH. rewrite app_length in *. simpl in *. lia.
      + destruct (C Ez) as [_ C']. rewrite C'. rewrite Ez in IH. simpl in *. lia.
  Qed.
End StatRuns.

Section PsoStatRuns.
  Context {U T : Type} {FT : FloatTrait T}.
  Implicit Types (cfg : pso_config U T) (s : swarm T).
  Theorem pso_statistics_next (L : lens U (statistics (list T))) i cfg fuel s u r s' u' t : lens_ok L ->
    nth_error (pso_loggers cfg) i = Some (attached L statistics_logger) -> pso_others_keep i (lget L) cfg ->
    pso_next_iterations cfg fuel s u = (Ret (r, s'), u', t) ->
    results (lget L u') = results (lget L u) ++ [r] /\
    (forall rows row, convergence (lget L u) = rows ++ [row] ->
       convergence (lget L u') = rows ++ [row ++ bests swarm_view (tl (consulted t))]) /\
    (convergence (lget L u) = [] -> tl (consulted t) = [] /\ convergence (lget L u') = []) /\
    sw_iteration s <= sw_iteration s' /\
    map (fun q => sw_iteration q) (tl (consulted t)) = seq (sw_iteration s + 1) (sw_iteration s' - sw_iteration s).
  Proof.
    intros HL Hi Ho E. assert (Hlt : i < List.length (pso_loggers cfg)) by (apply nth_error_Some; congruence).
    pose proof (pso_next_fed _ _ _ _ _ _ _ _ _ _ _ HL Hi Ho E) as F.
    destruct (pso_next_told i _ _ _ _ _ _ _ _ Hlt E) as [ms [A1 [A2 [A3 A4]]]].
    apply pso_next_numbered in E. rewrite A2 in F. rewrite A1 in *. rewrite A3 in A4.
    destruct (stat_resumed _ _ _ _ _ _ F A4) as [B1 [B2 B3]].
    split; [exact B1|]. split; [exact B2|]. split; [exact B3|]. split; [apply E|].
    destruct E as [_ E]. simpl in E. injection E as E. rewrite Nat.add_1_r. exact E.
  Qed.
  Theorem pso_statistics_find (L : lens U (statistics (list T))) i cfg fuel s u r s' u' t : lens_ok L ->
    nth_error (pso_loggers cfg) i = Some (attached L statistics_logger) -> pso_others_keep i (lget L) cfg ->
    pso_find_min cfg fuel s u = (Ret (r, s'), u', t) ->
    results (lget L u') = results (lget L u) ++ [r] /\
    convergence (lget L u') = convergence (lget L u) ++ [bests swarm_view (tl (consulted t))] /\
    map (fun q => sw_iteration q) (tl (consulted t)) = seq 1 (sw_iteration s').
  Proof.
    intros HL Hi Ho E. assert (Hlt : i < List.length (pso_loggers cfg)) by (apply nth_error_Some; congruence).
    pose proof (pso_find_fed _ _ _ _ _ _ _ _ _ _ _ HL Hi Ho E) as F.
    destruct (pso_find_told i _ _ _ _ _ _ _ _ Hlt E) as [q [ms [A1 [A2 [A3 A4]]]]].
    apply pso_find_numbered in E. rewrite A2 in F. rewrite A1 in *. rewrite A3 in A4.
    destruct (stat_started _ _ _ _ _ _ F A4) as [B1 B2].
    split; [exact B1|]. split; [exact B2|]. simpl in E. injection E as _ E. exact E.
  Qed.
  Definition pso_stat_ok (L : lens U (statistics (list T))) cfg : Prop :=
    exists i, nth_error (pso_loggers cfg) i = Some (attached L statistics_logger) /\ pso_others_keep i (lget L) cfg.
  Theorem pso_statistics_session (L : lens U (statistics (list T))) g0 s g finds nexts : lens_ok L ->
    pso_session (pso_stat_ok L) (lget L) g0 s g finds nexts ->
    get_run_count g = get_run_count g0 + finds + nexts /\
    List.length (convergence g) = List.length (convergence g0) + finds.
  Proof.
    intros HL H. unfold get_run_count. induction H as [|cfg fuel u p f n r p' u' t [i [Hi Ho]] _ IH E|cfg fuel u p f n r p' u' t [i [Hi Ho]] _ IH E].
    - lia.
    - destruct (pso_statistics_find L i _ _ _ _ _ _ _ _ HL Hi Ho E) as [A [B _]]. rewrite A, B, !app_length. simpl. lia.
    - destruct (pso_statistics_next L i _ _ _ _ _ _ _ _ HL Hi Ho E) as [A [B [C _]]]. rewrite A, app_length. simpl.
      destruct (destruct_list (convergence (lget L u))) as [[z [zs Ez]]|Ez].
      + destruct (nonempty_last (convergence (lget L u))) as [c [row Ec]]; [congruence|].
        rewrite (B _ _ Ec). rewrite Ec in IH. rewrite app_length in *. simpl in *. lia.
      + destruct (C Ez) as [_ C']. rewrite C'. rewrite Ez in IH. simpl in *. lia.
  Qed.
End PsoStatRuns.

(** ** Printing *)
Section Printing.
  Context {T G : Type} (fmt : formatter T) (write : string -> comp G bool) (out : G -> string).
  Hypothesis Hw : prints out write.
  Lemma writeln_prints s g : exists g', writeln write s g = (Ret tt, g') /\ out g' = (out g ++ (s ++ nl))%string.
  Proof.
    destruct (Hw (s ++ nl)%string g) as [g' [E O]]. exists g'. unfold writeln, cbind. rewrite E. auto.
  Qed.
  Lemma append_assoc (a b c : string) : ((a ++ b) ++ c = a ++ (b ++ c))%string.
  Proof. induction a; simpl; congruence. Qed.
  Lemma append_nil (a : string) : (a ++ "" = a)%string.
  Proof. induction a; simpl; congruence. Qed.
  Lemma concat_cons sep a (l : list string) : l <> [] ->
    String.concat sep (a :: l) = (a ++ sep ++ String.concat sep l)%string.
  Proof. destruct l; [congruence|reflexivity]. Qed.
  Lemma verbose_concat sep (f : T -> string) x a b :
    (fold_left (fun r xi => r ++ sep ++ f xi) x a ++ sep ++ b =
     String.concat sep (a :: map f x ++ [b]))%string.
  Proof.
    revert a. induction x as [|y x IH]; intros a; [reflexivity|].
    simpl fold_left. rewrite IH. simpl map.
    rewrite (concat_cons _ a) by (simpl; discriminate).
    change ((f y :: map f x) ++ [b])%list with (f y :: (map f x ++ [b]))%list.
    rewrite (concat_cons _ (f y)) by (destruct (map f x); discriminate).
    rewrite concat_cons by (destruct (map f x); discriminate). now rewrite !append_assoc.
  Qed.
  Lemma report_concat (f : T -> string) x a :
    (fold_left (fun r xi => r ++ f xi) x a = a ++ String.concat "" (map f x))%string.
  Proof.
    revert a. induction x as [|y x IH]; intros a; simpl; [now rewrite append_nil|].
    rewrite IH. destruct (map f x) as [|z l] eqn:E; simpl; [now rewrite append_nil|].
    now rewrite !append_assoc.
  Qed.

  Lemma verbose_prints precision s g :
    exists g', lg_next (verbose_logger fmt write precision) s g = (Ret tt, g') /\
      out g' = (out g ++ verbose_text fmt precision s)%string.
  Proof.
    simpl. unfold verbose_text. destruct (as_best s) as [[x v]|].
    - destruct (writeln_prints (verbose_line fmt precision (as_iter s) x v) g) as [g' [E O]].
      exists g'. split; auto. rewrite O. unfold verbose_line. now rewrite <- verbose_concat.
    - exists g. split; auto. now rewrite append_nil.
  Qed.
  Lemma verbose_survives precision : survives (fun _ => True) (fun _ => True) (verbose_logger fmt write precision).
  Proof.
    split; [|split; [|split]]; try (intros; eexists; split; [reflexivity|exact I]).
    intros s g _. destruct (verbose_prints precision s g) as [g' [E _]]. eauto.
  Qed.
  Lemma report_prints precision s g :
    exists g', lg_finish (result_only_logger fmt write precision) s g = (Ret tt, g') /\
      out g' = (out g ++ report_text fmt precision s)%string.
  Proof.
    simpl. unfold result_only_finish, report_text. destruct (as_best s) as [[x v]|].
    - unfold cbind at 1 2.
      match goal with |- context [writeln write ?a g] => destruct (writeln_prints a g) as [g1 [E1 O1]]; rewrite E1 end.
      match goal with |- context [writeln write ?a g1] => destruct (writeln_prints a g1) as [g2 [E2 O2]]; rewrite E2 end.
      match goal with |- context [writeln write ?a g2] => destruct (writeln_prints a g2) as [g3 [E3 O3]]; rewrite E3 end.
      exists g3. split; auto. rewrite O3, O2, O1.
      rewrite (report_concat (fun xi => ("  " ++ fmt_item_prec fmt precision xi ++ nl)%string)).
      rewrite !append_assoc. reflexivity.
    - unfold cbind.
      match goal with |- context [writeln write ?a g] => destruct (writeln_prints a g) as [g1 [E1 O1]]; rewrite E1 end.
      match goal with |- context [writeln write ?a g1] => destruct (writeln_prints a g1) as [g2 [E2 O2]]; rewrite E2 end.
      exists g2. split; auto. rewrite O2, O1. rewrite !append_assoc. reflexivity.
  Qed.
  Lemma report_survives precision : survives (fun _ => True) (fun _ => True) (result_only_logger fmt write precision).
  Proof.
    split; [|split; [|split]]; try (intros; eexists; split; [reflexivity|exact I]).
    intros s g _. destruct (report_prints precision s g) as [g' [E _]]. eauto.
  Qed.

  (** *** TimeLogger *)
  Variable L : lens G (option Z).
  Variable now : comp G Z.
  Hypothesis HL : lens_ok L.
  Hypothesis Hnow : ticks now.
  Hypothesis Hwk : forall s, keeps (lget L) (write s).
  Hypothesis Hnk : keeps (lget L) now.
  Hypothesis Hno : keeps out now.
  Hypothesis Hpo : forall o g, out (lput L o g) = out g.

  Lemma time_ms_spec ns : (0 <= ns)%Z -> time_ms ns = (ns / 1000000)%Z.
  Proof.
    intros H. unfold time_ms. change (10 ^ 9)%Z with (1000 * 1000000)%Z. change (10 ^ 6)%Z with 1000000%Z.
    rewrite (Z.div_mod ns (1000 * 1000000)) at 3 by lia.
    replace (1000 * 1000000 * (ns / (1000 * 1000000)) + ns mod (1000 * 1000000))%Z
      with (ns / (1000 * 1000000) * 1000 * 1000000 + ns mod (1000 * 1000000))%Z by lia.
    rewrite Z.div_add_l by lia. reflexivity.
  Qed.
  Lemma time_resume s g : exists z g1, now g = (Ret z, g1) /\
    lg_resume (time_logger fmt write L now) s g = (Ret tt, lput L (Some z) g1) /\
    out (lput L (Some z) g1) = out g /\ lget L (lput L (Some z) g1) = Some z.
  Proof.
    destruct (Hnow g) as [z [g1 E]]. exists z, g1. split; auto. simpl. unfold cbind. rewrite E. unfold zoom.
    split; auto. split; [|apply (lens_get_put L HL)]. rewrite Hpo.
    specialize (Hno g). now rewrite E in Hno.
  Qed.
  Lemma time_finish s g z0 : lget L g = Some z0 -> exists z g1 g', now g = (Ret z, g1) /\
    lg_finish (time_logger fmt write L now) s g = (Ret tt, g') /\
    out g' = (out g ++ time_text fmt z0 z)%string /\ lget L g' = Some z0.
  Proof.
    intros H0. destruct (Hnow g) as [z [g1 E]].
    simpl. unfold cbind at 1. unfold zoom. rewrite H0. simpl.
    replace (lput L (Some z0) g) with g by (rewrite <- H0; symmetry; apply (lens_put_get L HL)).
    unfold cbind. rewrite E.
    match goal with |- context [writeln write ?a g1] => destruct (writeln_prints a g1) as [g2 [E2 O2]];
      pose proof (Hwk (a ++ nl)%string g1) as K end.
    rewrite E2. exists z, g1, g2. split; auto. split; auto. split.
    - rewrite O2. specialize (Hno g). rewrite E in Hno. simpl in Hno. rewrite Hno. unfold time_text.
      rewrite time_ms_spec by lia. simpl. rewrite append_assoc. reflexivity.
    - unfold writeln, cbind in E2. destruct (write _ g1) as [[b| |] g3]; try discriminate. simpl in K.
      unfold cpure in E2. inversion E2; subst. rewrite K. specialize (Hnk g). rewrite E in Hnk. simpl in Hnk. congruence.
  Qed.
  Lemma time_survives : survives (fun _ => True) (fun g => lget L g <> None) (time_logger fmt write L now).
  Proof.
    split; [|split; [|split]].
    - intros; eexists; split; [reflexivity|exact I].
    - intros s g _. destruct (time_resume s g) as [z [g1 [_ [E [_ E']]]]]. eexists. split; [exact E|]. congruence.
    - intros; eexists; split; [reflexivity|assumption].
    - intros s g Hg. destruct (lget L g) as [z0|] eqn:E0; [|congruence].
      destruct (time_finish s g z0 E0) as [z [g1 [g' [_ [E [_ E']]]]]]. exists g'. split; auto. congruence.
  Qed.

  (** *** Whole runs *)
  Lemma fed_nexts_inv {S} (l : logger G (list T)) (view : S -> alg_state (list T)) (text : alg_state (list T) -> string) ms g g' :
    (forall s g g', lg_next l s g = (Ret tt, g') -> out g' = (out g ++ text s)%string) ->
    fed l (map (fun ks => (fst ks, view (snd ks))) (map (pair LNext) ms)) g g' ->
    out g' = (out g ++ String.concat "" (map (fun m => text (view m)) ms))%string.
  Proof.
    intros Ht. revert g. induction ms as [|m ms IH]; intros g H; simpl in H.
    - inversion H; subst. simpl. now rewrite append_nil.
    - inversion H as [|? ? ? ? ? ? E F]; subst. simpl in E. apply Ht in E. apply IH in F. rewrite F, E.
      rewrite append_assoc. f_equal. destruct ms; simpl; auto. now rewrite append_nil.
  Qed.
  Lemma fed_silent_start {S} (l : logger G (list T)) (view : S -> alg_state (list T)) s cs g g' :
    (forall s g, lg_start l s g = (Ret tt, g)) ->
    fed l (map (fun ks => (fst ks, view (snd ks))) ((LStart, s) :: cs)) g g' ->
    fed l (map (fun ks => (fst ks, view (snd ks))) cs) g g'.
  Proof.
    intros Hs H. simpl in H. inversion H as [|? ? ? ? ? ? E F]; subst. simpl in E. rewrite Hs in E. now inversion E; subst.
  Qed.
  Lemma fed_parts {S} (l : logger G (list T)) (view : S -> alg_state (list T)) s ms g g' :
    fed l (map (fun ks => (fst ks, view (snd ks))) (resumed s ms)) g g' ->
    exists g1 g2, lg_resume l (view s) g = (Ret tt, g1) /\
      fed l (map (fun ks => (fst ks, view (snd ks))) (map (pair LNext) ms)) g1 g2 /\
      lg_finish l (view (last ms s)) g2 = (Ret tt, g').
  Proof.
    unfold resumed. simpl. rewrite map_app. intros H.
    inversion H as [|? ? ? ? ? ? E F]; subst. simpl in E. apply fed_split in F. destruct F as [g2 [F1 F2]].
    simpl in F2. inversion F2 as [|? ? ? ? ? ? E1 F3]; subst. simpl in E1. inversion F3; subst. eauto.
  Qed.
  Lemma det {A B : Type} (x : A * B) a b c d : x = (a, b) -> x = (c, d) -> b = d.
  Proof. congruence. Qed.
  Lemma verbose_run {S} (view : S -> alg_state (list T)) precision s ms g g' :
    fed (verbose_logger fmt write precision) (map (fun ks => (fst ks, view (snd ks))) (resumed s ms)) g g' ->
    out g' = (out g ++ String.concat "" (map (fun m => verbose_text fmt precision (view m)) ms))%string.
  Proof.
    intros H. apply fed_parts in H. destruct H as [g1 [g2 [E1 [F E2]]]]. simpl in E1, E2.
    inversion E1; subst. inversion E2; subst.
    apply (fed_nexts_inv _ view (verbose_text fmt precision)) in F; auto.
    intros q h h' Eq. destruct (verbose_prints precision q h) as [h1 [E O]].
    rewrite (det _ _ _ _ _ Eq E). exact O.
  Qed.
  Lemma silent_nexts {S} (l : logger G (list T)) (view : S -> alg_state (list T)) ms g g' :
    (forall s g, lg_next l s g = (Ret tt, g)) ->
    fed l (map (fun ks => (fst ks, view (snd ks))) (map (pair LNext) ms)) g g' -> g' = g.
  Proof.
    intros Hs. revert g. induction ms as [|m ms IH]; intros g H; simpl in H.
    - now inversion H.
    - inversion H as [|? ? ? ? ? ? E F]; subst. simpl in E. rewrite Hs in E. inversion E; subst. now apply IH.
  Qed.
  Lemma report_run {S} (view : S -> alg_state (list T)) precision s ms g g' :
    fed (result_only_logger fmt write precision) (map (fun ks => (fst ks, view (snd ks))) (resumed s ms)) g g' ->
    out g' = (out g ++ report_text fmt precision (view (last ms s)))%string.
  Proof.
    intros H. apply fed_parts in H. destruct H as [g1 [g2 [E1 [F E2]]]]. simpl in E1. inversion E1; subst.
    apply silent_nexts in F; [|reflexivity]. subst.
    destruct (report_prints precision (view (last ms s)) g1) as [h1 [E O]].
    rewrite (det _ _ _ _ _ E2 E). exact O.
  Qed.
  Lemma time_run {S} (view : S -> alg_state (list T)) s ms g g' :
    fed (time_logger fmt write L now) (map (fun ks => (fst ks, view (snd ks))) (resumed s ms)) g g' ->
    exists t0 t1 g1 g2, now g = (Ret t0, g1) /\ now (lput L (Some t0) g1) = (Ret t1, g2) /\
      out g' = (out g ++ time_text fmt t0 t1)%string.
  Proof.
    intros H. apply fed_parts in H. destruct H as [g1 [g2 [E1 [F E2]]]].
    apply silent_nexts in F; [|reflexivity]. subst.
    destruct (time_resume (view s) g) as [z0 [h1 [N1 [E [O1 G1]]]]].
    assert (Eg := det _ _ _ _ _ E1 E). subst g1.
    destruct (time_finish (view (last ms s)) _ _ G1) as [z1 [h2 [h3 [N2 [E3 [O2 G2]]]]]].
    rewrite (det _ _ _ _ _ E2 E3). exists z0, z1, h1, h2. split; auto. split; auto. now rewrite O2, O1.
  Qed.
End Printing.

(** ** GoalCalcStatistics *)
Local Open Scope list_scope.
Section Counting.
  Lemma counted_add m n c : counted n (counted m c) = counted (m + n) c.
  Proof.
    unfold counted. destruct m as [|m]; [reflexivity|]. destruct n as [|n]; [now rewrite Nat.add_0_r|].
    simpl Nat.add. rewrite removelast_last, last_last. f_equal. f_equal. lia.
  Qed.
  Lemma increment_counted c : increment c = Ret (counted 1 c).
  Proof.
    unfold increment. destruct c as [|x c] using rev_ind; [reflexivity|]. clear IHc.
    rewrite app_length. simpl. replace (List.length c + 1 =? 0) with false by (symmetry; apply Nat.eqb_neq; lia).
    replace (List.length (c ++ [x]) - 1) with (List.length c) by (rewrite app_length; simpl; lia).
    unfold index. rewrite nth_error_app2 by lia. rewrite Nat.sub_diag. simpl.
    rewrite update_last, removelast_last, last_last. reflexivity.
  Qed.

  Context {U T : Type} (L : lens U call_count_data).
  Hypothesis HL : lens_ok L.
  Lemma goal_calc_run (goal : T -> comp U f64) x u :
    goal_calc_statistics L goal x u = goal x (lput L (counted 1 (lget L u)) u).
  Proof. unfold goal_calc_statistics, cbind, zoom. rewrite increment_counted. reflexivity. Qed.
  Lemma goal_calc_twin (goal : T -> comp U f64) x : apart L (goal x) ->
    ctwin (same_but L) (same_but L) (goal_calc_statistics L goal x) (goal x).
  Proof.
    intros [_ Hr] u1 u2 H. rewrite goal_calc_run. apply Hr. eapply same_trans; [now apply same_put|exact H].
  Qed.
  Lemma apart_twin {A} (c : comp U A) : apart L c -> ctwin (same_but L) (same_but L) c c.
  Proof. intros [_ H]. exact H. Qed.
  Lemma goal_calc_ret (goal : T -> comp U f64) x u v u' : apart L (goal x) ->
    goal_calc_statistics L goal x u = (Ret v, u') -> lget L u' = counted 1 (lget L u).
  Proof.
    intros [Hk _] E. rewrite goal_calc_run in E. apply (keeps_ret (lget L)) in E; auto.
    now rewrite E, (lens_get_put L HL).
  Qed.
  Lemma all_twin {S} (view : S -> alg_state T) k (ls : list (logger U T)) s :
    (forall l, In l ls -> apart L (lg_method k l (view s))) ->
    Forall2 (fun l1 l2 => ctwin (same_but L) (same_but L) (lg_method k l1 (view s)) (lg_method k l2 (view s))) ls ls.
  Proof.
    induction ls as [|l ls IH]; intros H; constructor.
    - apply apart_twin, H. now left.
    - apply IH. intros. apply H. now right.
  Qed.
  Lemma mtwin_alike {E A} (m1 m2 : U -> outcome A * U * list E) u :
    (forall u1 u2, same_but L u1 u2 ->
      fst (fst (m1 u1)) = fst (fst (m2 u2)) /\ snd (m1 u1) = snd (m2 u2) /\
      (forall a, fst (fst (m1 u1)) = Ret a -> same_but L (snd (fst (m1 u1))) (snd (fst (m2 u2))))) ->
    alike L (m1 u) (m2 u).
  Proof. intros H. apply H. apply same_refl. Qed.
End Counting.

Section GaCounting.
  Context {U T : Type} (L : lens U call_count_data).
  Hypothesis HL : lens_ok L.
  Implicit Types (cfg : ga_config U T) (p : population T).
  Notation whole cfg := (List.length (ga_loggers cfg)).
  Lemma ga_count_twins cfg : ga_others_apart (whole cfg) L cfg ->
    ga_twins (same_but L) (ga_with_goal cfg (goal_calc_statistics L (ga_goal cfg))) cfg.
  Proof.
    intros [Hg [Hst [Hc [Hp [Hx [Hm [Hs [Hb Ho]]]]]]]]. unfold ga_twins. simpl.
    repeat match goal with |- _ /\ _ => split end; intros; auto; try (apply apart_twin; auto).
    apply goal_calc_twin; auto.
  Qed.
  Lemma ga_count_loggers cfg k : ga_others_apart (whole cfg) L cfg ->
    ga_log_twin (same_but L) (same_but L) k (ga_with_goal cfg (goal_calc_statistics L (ga_goal cfg))) cfg.
  Proof.
    intros H p. apply twin_loggers_all. apply all_twin. intros l Hl. apply In_nth_error in Hl. destruct Hl as [j Hj].
    eapply H; eauto. intros ->. assert (Hn : nth_error (ga_loggers cfg) (whole cfg) <> None) by congruence.
    apply nth_error_Some in Hn. lia.
  Qed.
  Theorem ga_count_find cfg fuel p u : ga_others_apart (whole cfg) L cfg ->
    alike L (ga_find_min (ga_with_goal cfg (goal_calc_statistics L (ga_goal cfg))) fuel p u) (ga_find_min cfg fuel p u).
  Proof.
    intros H. apply mtwin_alike. apply (twin_ga_find (same_but L) (same_but L) (same_but L));
      try (now apply ga_count_twins); try (now apply ga_count_loggers).
    intros s. apply apart_twin, H.
  Qed.
  Theorem ga_count_next cfg fuel p u : ga_others_apart (whole cfg) L cfg ->
    alike L (ga_next_iterations (ga_with_goal cfg (goal_calc_statistics L (ga_goal cfg))) fuel p u) (ga_next_iterations cfg fuel p u).
  Proof.
    intros H. apply mtwin_alike. apply (twin_ga_next (same_but L) (same_but L));
      try (now apply ga_count_twins); try (now apply ga_count_loggers).
    intros s. apply apart_twin, H.
  Qed.
  Notation counts := (fun (t : list (ga_event T)) u u' => lget L u' = counted (List.length (evals t)) (lget L u)).
  Lemma ga_count_rel cfg : ga_others_apart (whole cfg) L cfg ->
    ga_rel counts (ga_with_goal cfg (goal_calc_statistics L (ga_goal cfg))) /\
    ga_logs counts (ga_with_goal cfg (goal_calc_statistics L (ga_goal cfg))).
  Proof.
    intros H. pose proof H as [Hg [Hst [Hc [Hp [Hx [Hm [Hs [Hb Ho]]]]]]]]. split.
    - unfold ga_rel. simpl. split; [intros x u v u' E; eapply goal_calc_ret; eauto|].
      repeat match goal with |- _ /\ _ => split end; intros; auto;
        (match goal with h : ?c ?u = (Ret _, ?u') |- _ => eapply (keeps_ret (lget L)); [|exact h] end);
        first [apply Hst|apply Hc|apply Hp|apply Hx|apply Hm|now apply Hs|now apply Hb].
    - intros k j l p u u' Hj E. simpl in *. eapply (keeps_ret (lget L)); [|exact E]. eapply Ho; eauto. intros ->.
      assert (Hn : nth_error (ga_loggers cfg) (whole cfg) <> None) by congruence. apply nth_error_Some in Hn. lia.
  Qed.
  Lemma ga_counts_app t1 t2 u u1 u2 : counts t1 u u1 -> counts t2 u1 u2 -> counts (t1 ++ t2) u u2.
  Proof. cbv beta. intros A B. now rewrite B, A, counted_add, GaSafety.evals_app, app_length. Qed.
  Theorem ga_counted_find cfg fuel p u a u' t : ga_others_apart (whole cfg) L cfg ->
    ga_find_min (ga_with_goal cfg (goal_calc_statistics L (ga_goal cfg))) fuel p u = (Ret a, u', t) ->
    lget L u' = counted (List.length (evals t)) (lget L u).
  Proof.
    intros H E. destruct (ga_count_rel cfg H) as [R1 R2].
    eapply (mrel_ga_find counts); eauto. intros. eapply ga_counts_app; eauto.
  Qed.
  Theorem ga_counted_next cfg fuel p u a u' t : ga_others_apart (whole cfg) L cfg ->
    ga_next_iterations (ga_with_goal cfg (goal_calc_statistics L (ga_goal cfg))) fuel p u = (Ret a, u', t) ->
    lget L u' = counted (List.length (evals t)) (lget L u).
  Proof.
    intros H E. destruct (ga_count_rel cfg H) as [R1 R2].
    eapply (mrel_ga_next counts); eauto. intros. eapply ga_counts_app; eauto.
  Qed.
End GaCounting.

Section PsoCounting.
  Context {U T : Type} {FT : FloatTrait T} (L : lens U call_count_data).
  Hypothesis HL : lens_ok L.
  Implicit Types (cfg : pso_config U T) (s : swarm T).
  Notation whole cfg := (List.length (pso_loggers cfg)).
  Lemma pso_count_twins cfg : pso_others_apart (whole cfg) L cfg ->
    pso_twins (same_but L) (pso_with_goal cfg (goal_calc_statistics L (pso_goal cfg))) cfg.
  Proof.
    intros [Hg [Hst [Hc [Hv [Hk [Hpv [Hpm Ho]]]]]]]. unfold pso_twins. simpl.
    repeat match goal with |- _ /\ _ => split end; intros; auto; try (apply apart_twin; auto).
    apply goal_calc_twin; auto.
  Qed.
  Lemma pso_count_loggers cfg k : pso_others_apart (whole cfg) L cfg ->
    pso_log_twin (same_but L) (same_but L) k (pso_with_goal cfg (goal_calc_statistics L (pso_goal cfg))) cfg.
  Proof.
    intros H p. apply twin_loggers_all. apply all_twin. intros l Hl. apply In_nth_error in Hl. destruct Hl as [j Hj].
    eapply H; eauto. intros ->. assert (Hn : nth_error (pso_loggers cfg) (whole cfg) <> None) by congruence.
    apply nth_error_Some in Hn. lia.
  Qed.
  Theorem pso_count_find cfg fuel s u : pso_others_apart (whole cfg) L cfg ->
    alike L (pso_find_min (pso_with_goal cfg (goal_calc_statistics L (pso_goal cfg))) fuel s u) (pso_find_min cfg fuel s u).
  Proof.
    intros H. apply mtwin_alike. apply (twin_pso_find (same_but L) (same_but L) (same_but L));
      try (now apply pso_count_twins); try (now apply pso_count_loggers).
    intros a. apply apart_twin, H.
  Qed.
  Theorem pso_count_next cfg fuel s u : pso_others_apart (whole cfg) L cfg ->
    alike L (pso_next_iterations (pso_with_goal cfg (goal_calc_statistics L (pso_goal cfg))) fuel s u) (pso_next_iterations cfg fuel s u).
  Proof.
    intros H. apply mtwin_alike. apply (twin_pso_next (same_but L) (same_but L));
      try (now apply pso_count_twins); try (now apply pso_count_loggers).
    intros a. apply apart_twin, H.
  Qed.
  Notation counts := (fun (t : list (pso_event T)) u u' => lget L u' = counted (List.length (evals t)) (lget L u)).
  Lemma pso_count_rel cfg : pso_others_apart (whole cfg) L cfg ->
    pso_rel counts (pso_with_goal cfg (goal_calc_statistics L (pso_goal cfg))) /\
    pso_logs counts (pso_with_goal cfg (goal_calc_statistics L (pso_goal cfg))).
  Proof.
    intros H. pose proof H as [Hg [Hst [Hc [Hv [Hk [Hpv [Hpm Ho]]]]]]]. split.
    - unfold pso_rel. simpl. split; [intros x u v u' E; eapply goal_calc_ret; eauto|].
      repeat match goal with |- _ /\ _ => split end; intros; auto;
        (match goal with h : ?c ?u = (Ret _, ?u') |- _ => eapply (keeps_ret (lget L)); [|exact h] end);
        first [apply Hst|apply Hc|apply Hv|apply Hk|now apply Hpv|now apply Hpm].
    - intros k j l p u u' Hj E. simpl in *. eapply (keeps_ret (lget L)); [|exact E]. eapply Ho; eauto. intros ->.
      assert (Hn : nth_error (pso_loggers cfg) (whole cfg) <> None) by congruence. apply nth_error_Some in Hn. lia.
  Qed.
  Lemma pso_counts_app t1 t2 u u1 u2 : counts t1 u u1 -> counts t2 u1 u2 -> counts (t1 ++ t2) u u2.
  Proof. cbv beta. intros A B. now rewrite B, A, counted_add, GaSafety.evals_app, app_length. Qed.
  Theorem pso_counted_find cfg fuel s u r s' u' t : pso_others_apart (whole cfg) L cfg ->
    pso_find_min (pso_with_goal cfg (goal_calc_statistics L (pso_goal cfg))) fuel s u = (Ret (r, s'), u', t) ->
    lget L u' = counted (List.length (particles s') * (sw_iteration s' + 1)) (lget L u).
  Proof.
    intros H E. destruct (pso_count_rel cfg H) as [R1 R2].
    destruct (pso_evaluations _ _ _ _ _ _ _ _ E) as [_ [_ [_ [A _]]]]. rewrite <- A.
    eapply (mrel_pso_find counts); eauto. intros. eapply pso_counts_app; eauto.
  Qed.
  Theorem pso_counted_next cfg fuel s u r s' u' t : pso_others_apart (whole cfg) L cfg ->
    pso_next_iterations (pso_with_goal cfg (goal_calc_statistics L (pso_goal cfg))) fuel s u = (Ret (r, s'), u', t) ->
    lget L u' = counted (List.length (particles s) * (sw_iteration s' - sw_iteration s)) (lget L u).
  Proof.
    intros H E. destruct (pso_count_rel cfg H) as [R1 R2].
    destruct (pso_next_evaluations _ _ _ _ _ _ _ _ E) as [rest [_ [_ [_ [A [_ B]]]]]].
    replace (sw_iteration s' - sw_iteration s) with (List.length rest) by lia. rewrite <- B.
    eapply (mrel_pso_next counts); eauto. intros. eapply pso_counts_app; eauto.
  Qed.
End PsoCounting.

(** ** Runs with a printing logger *)
Section GaPrinting.
  Context {U G T : Type} (LU : lens U G) (fmt : formatter T) (write : string -> comp G bool) (out : G -> string).
  Hypothesis HLU : lens_ok LU.
  Hypothesis Hw : prints out write.
  Implicit Types (cfg : ga_config U (list T)) (p : population (list T)).
  Lemma ga_watch (l : logger G (list T)) i cfg fuel p u r p' u' t :
    (forall s g, lg_start l s g = (Ret tt, g)) ->
    nth_error (ga_loggers cfg) i = Some (attached LU l) -> ga_others_keep i (lget LU) cfg ->
    ga_find_min cfg fuel p u = (Ret (r, p'), u', t) \/ ga_next_iterations cfg fuel p u = (Ret (r, p'), u', t) ->
    exists c ms, consulted t = c :: ms /\ p' = last ms c /\
      fed l (map (fun ks => (fst ks, pop_view (snd ks))) (resumed c ms)) (lget LU u) (lget LU u').
  Proof.
    intros Hs Hi Ho. assert (Hlt : i < List.length (ga_loggers cfg)) by (apply nth_error_Some; congruence). intros [E|E].
    - pose proof (ga_find_fed _ _ _ _ _ _ _ _ _ _ _ HLU Hi Ho E) as F.
      destruct (ga_find_told i _ _ _ _ _ _ _ _ Hlt E) as [q [ms [A1 [A2 [A3 A4]]]]].
      rewrite A2 in F. apply fed_silent_start in F; eauto.
    - pose proof (ga_next_fed _ _ _ _ _ _ _ _ _ _ _ HLU Hi Ho E) as F.
      destruct (ga_next_told i _ _ _ _ _ _ _ _ Hlt E) as [ms [A1 [A2 [A3 A4]]]].
      rewrite A2 in F. eauto.
  Qed.
  Theorem ga_verbose_run precision i cfg fuel p u r p' u' t :
    nth_error (ga_loggers cfg) i = Some (attached LU (verbose_logger fmt write precision)) -> ga_others_keep i (lget LU) cfg ->
    ga_find_min cfg fuel p u = (Ret (r, p'), u', t) \/ ga_next_iterations cfg fuel p u = (Ret (r, p'), u', t) ->
    out (lget LU u') = (out (lget LU u) ++
      String.concat "" (map (fun q => verbose_text fmt precision (pop_view q)) (tl (consulted t))))%string.
  Proof.
    intros Hi Ho E. apply (ga_watch (verbose_logger fmt write precision) i) in E; auto. destruct E as [c [ms [-> [_ F]]]].
    now apply (verbose_run fmt write out Hw pop_view) in F.
  Qed.
  Theorem ga_report_run precision i cfg fuel p u r p' u' t :
    nth_error (ga_loggers cfg) i = Some (attached LU (result_only_logger fmt write precision)) -> ga_others_keep i (lget LU) cfg ->
    ga_find_min cfg fuel p u = (Ret (r, p'), u', t) \/ ga_next_iterations cfg fuel p u = (Ret (r, p'), u', t) ->
    out (lget LU u') = (out (lget LU u) ++ report_text fmt precision (pop_view p'))%string.
  Proof.
    intros Hi Ho E. apply (ga_watch (result_only_logger fmt write precision) i) in E; auto. destruct E as [c [ms [_ [-> F]]]].
    now apply (report_run fmt write out Hw pop_view) in F.
  Qed.
  Theorem ga_time_run (L : lens G (option Z)) now i cfg fuel p u r p' u' t :
    lens_ok L -> ticks now -> (forall s, keeps (lget L) (write s)) -> keeps (lget L) now -> keeps out now ->
    (forall o g, out (lput L o g) = out g) ->
    nth_error (ga_loggers cfg) i = Some (attached LU (time_logger fmt write L now)) -> ga_others_keep i (lget LU) cfg ->
    ga_find_min cfg fuel p u = (Ret (r, p'), u', t) \/ ga_next_iterations cfg fuel p u = (Ret (r, p'), u', t) ->
    exists t0 t1 g1 g2, now (lget LU u) = (Ret t0, g1) /\ now (lput L (Some t0) g1) = (Ret t1, g2) /\
      out (lget LU u') = (out (lget LU u) ++ time_text fmt t0 t1)%string.
  Proof.
    intros H1 H2 H3 H4 H5 H6 Hi Ho E. apply (ga_watch (time_logger fmt write L now) i) in E; auto. destruct E as [c [ms [_ [_ F]]]].
    eapply time_run in F; eauto.
  Qed.
End GaPrinting.
Section PsoPrinting.
  Context {U G T : Type} {FT : FloatTrait T}.
  Context (LU : lens U G) (fmt : formatter T) (write : string -> comp G bool) (out : G -> string).
  Hypothesis HLU : lens_ok LU.
  Hypothesis Hw : prints out write.
  Implicit Types (cfg : pso_config U T) (s : swarm T).
  Lemma pso_watch (l : logger G (list T)) i cfg fuel s u r s' u' t :
    (forall a g, lg_start l a g = (Ret tt, g)) ->
    nth_error (pso_loggers cfg) i = Some (attached LU l) -> pso_others_keep i (lget LU) cfg ->
    pso_find_min cfg fuel s u = (Ret (r, s'), u', t) \/ pso_next_iterations cfg fuel s u = (Ret (r, s'), u', t) ->
    exists c ms, consulted t = c :: ms /\ s' = last ms c /\
      fed l (map (fun ks => (fst ks, swarm_view (snd ks))) (resumed c ms)) (lget LU u) (lget LU u').
  Proof.
    intros Hs Hi Ho. assert (Hlt : i < List.length (pso_loggers cfg)) by (apply nth_error_Some; congruence). intros [E|E].
    - pose proof (pso_find_fed _ _ _ _ _ _ _ _ _ _ _ HLU Hi Ho E) as F.
      destruct (pso_find_told i _ _ _ _ _ _ _ _ Hlt E) as [q [ms [A1 [A2 [A3 A4]]]]].
      rewrite A2 in F. apply fed_silent_start in F; eauto.
    - pose proof (pso_next_fed _ _ _ _ _ _ _ _ _ _ _ HLU Hi Ho E) as F.
      destruct (pso_next_told i _ _ _ _ _ _ _ _ Hlt E) as [ms [A1 [A2 [A3 A4]]]].
      rewrite A2 in F. eauto.
  Qed.
  Theorem pso_verbose_run precision i cfg fuel s u r s' u' t :
    nth_error (pso_loggers cfg) i = Some (attached LU (verbose_logger fmt write precision)) -> pso_others_keep i (lget LU) cfg ->
    pso_find_min cfg fuel s u = (Ret (r, s'), u', t) \/ pso_next_iterations cfg fuel s u = (Ret (r, s'), u', t) ->
    out (lget LU u') = (out (lget LU u) ++
      String.concat "" (map (fun q => verbose_text fmt precision (swarm_view q)) (tl (consulted t))))%string.
  Proof.
    intros Hi Ho E. apply (pso_watch (verbose_logger fmt write precision) i) in E; auto. destruct E as [c [ms [-> [_ F]]]].
    now apply (verbose_run fmt write out Hw swarm_view) in F.
  Qed.
  Theorem pso_report_run precision i cfg fuel s u r s' u' t :
    nth_error (pso_loggers cfg) i = Some (attached LU (result_only_logger fmt write precision)) -> pso_others_keep i (lget LU) cfg ->
    pso_find_min cfg fuel s u = (Ret (r, s'), u', t) \/ pso_next_iterations cfg fuel s u = (Ret (r, s'), u', t) ->
    out (lget LU u') = (out (lget LU u) ++ report_text fmt precision (swarm_view s'))%string.
  Proof.
    intros Hi Ho E. apply (pso_watch (result_only_logger fmt write precision) i) in E; auto. destruct E as [c [ms [_ [-> F]]]].
    now apply (report_run fmt write out Hw swarm_view) in F.
  Qed.
  Theorem pso_time_run (L : lens G (option Z)) now i cfg fuel s u r s' u' t :
    lens_ok L -> ticks now -> (forall a, keeps (lget L) (write a)) -> keeps (lget L) now -> keeps out now ->
    (forall o g, out (lput L o g) = out g) ->
    nth_error (pso_loggers cfg) i = Some (attached LU (time_logger fmt write L now)) -> pso_others_keep i (lget LU) cfg ->
    pso_find_min cfg fuel s u = (Ret (r, s'), u', t) \/ pso_next_iterations cfg fuel s u = (Ret (r, s'), u', t) ->
    exists t0 t1 g1 g2, now (lget LU u) = (Ret t0, g1) /\ now (lput L (Some t0) g1) = (Ret t1, g2) /\
      out (lget LU u') = (out (lget LU u) ++ time_text fmt t0 t1)%string.
  Proof.
    intros H1 H2 H3 H4 H5 H6 Hi Ho E. apply (pso_watch (time_logger fmt write L now) i) in E; auto. destruct E as [c [ms [_ [_ F]]]].
    eapply time_run in F; eauto.
  Qed.
End PsoPrinting.

(** ** The loggers of the library do not disturb *)
Section GaHarmless.
  Context {U T : Type}.
  Implicit Types (cfg : ga_config U T) (p : population T).
  Theorem ga_statistics_undisturbed (L : lens U (statistics T)) i cfg fuel p u : lens_ok L ->
    nth_error (ga_loggers cfg) i = Some (attached L statistics_logger) -> ga_others_apart i L cfg ->
    alike L (ga_find_min cfg fuel p u)
            (ga_find_min (ga_set_loggers cfg (replaced i no_logger (ga_loggers cfg))) fuel p u).
  Proof. intros HL Hi Ho. eapply ga_find_undisturbed; eauto. apply statistics_survives. Qed.
  Theorem ga_statistics_resumed (L : lens U (statistics T)) i cfg fuel p u : lens_ok L ->
    nth_error (ga_loggers cfg) i = Some (attached L statistics_logger) -> ga_others_apart i L cfg ->
    convergence (lget L u) <> [] ->
    alike L (ga_next_iterations cfg fuel p u)
            (ga_next_iterations (ga_set_loggers cfg (replaced i no_logger (ga_loggers cfg))) fuel p u).
  Proof. intros HL Hi Ho Hu. eapply ga_next_undisturbed; eauto; [apply statistics_survives|exact Hu]. Qed.
  Theorem ga_count_undisturbed (L : lens U call_count_data) : lens_ok L ->
    forall cfg fuel p u, ga_others_apart (List.length (ga_loggers cfg)) L cfg ->
    alike L (ga_find_min (ga_with_goal cfg (goal_calc_statistics L (ga_goal cfg))) fuel p u) (ga_find_min cfg fuel p u) /\
    alike L (ga_next_iterations (ga_with_goal cfg (goal_calc_statistics L (ga_goal cfg))) fuel p u)
            (ga_next_iterations cfg fuel p u).
  Proof. intros HL cfg fuel p u H. split; [now apply ga_count_find|now apply ga_count_next]. Qed.
  Theorem ga_count_calls (L : lens U call_count_data) : lens_ok L ->
    forall cfg fuel p u r p' u' t, ga_others_apart (List.length (ga_loggers cfg)) L cfg ->
    ga_find_min (ga_with_goal cfg (goal_calc_statistics L (ga_goal cfg))) fuel p u = (Ret (r, p'), u', t) \/
    ga_next_iterations (ga_with_goal cfg (goal_calc_statistics L (ga_goal cfg))) fuel p u = (Ret (r, p'), u', t) ->
    lget L u' = counted (List.length (births [] t)) (lget L u) /\ List.length (births [] t) = List.length (evals t).
  Proof.
    intros HL cfg fuel p u r p' u' t H [E|E].
    - rewrite <- (find_min_evals _ _ _ _ _ _ _ _ E). split; auto. eapply ga_counted_find; eauto.
    - rewrite <- (next_evals _ _ _ _ _ _ _ _ E). split; auto. eapply ga_counted_next; eauto.
  Qed.
End GaHarmless.
Section PsoHarmless.
  Context {U T : Type} {FT : FloatTrait T}.
  Implicit Types (cfg : pso_config U T) (s : swarm T).
  Theorem pso_statistics_undisturbed (L : lens U (statistics (list T))) i cfg fuel s u : lens_ok L ->
    nth_error (pso_loggers cfg) i = Some (attached L statistics_logger) -> pso_others_apart i L cfg ->
    alike L (pso_find_min cfg fuel s u)
            (pso_find_min (pso_set_loggers cfg (replaced i no_logger (pso_loggers cfg))) fuel s u).
  Proof. intros HL Hi Ho. eapply pso_find_undisturbed; eauto. apply statistics_survives. Qed.
  Theorem pso_statistics_resumed (L : lens U (statistics (list T))) i cfg fuel s u : lens_ok L ->
    nth_error (pso_loggers cfg) i = Some (attached L statistics_logger) -> pso_others_apart i L cfg ->
    convergence (lget L u) <> [] ->
    alike L (pso_next_iterations cfg fuel s u)
            (pso_next_iterations (pso_set_loggers cfg (replaced i no_logger (pso_loggers cfg))) fuel s u).
  Proof. intros HL Hi Ho Hu. eapply pso_next_undisturbed; eauto; [apply statistics_survives|exact Hu]. Qed.
  Theorem pso_count_undisturbed (L : lens U call_count_data) : lens_ok L ->
    forall cfg fuel s u, pso_others_apart (List.length (pso_loggers cfg)) L cfg ->
    alike L (pso_find_min (pso_with_goal cfg (goal_calc_statistics L (pso_goal cfg))) fuel s u) (pso_find_min cfg fuel s u) /\
    alike L (pso_next_iterations (pso_with_goal cfg (goal_calc_statistics L (pso_goal cfg))) fuel s u)
            (pso_next_iterations cfg fuel s u).
  Proof. intros HL cfg fuel s u H. split; [now apply pso_count_find|now apply pso_count_next]. Qed.
End PsoHarmless.
Section PrintingHarmless.
  Context {U G T : Type}.
  Lemma printing_survives (fmt : formatter T) (out : G -> string) write precision (l : logger G (list T)) : prints out write ->
    l = verbose_logger fmt write precision \/ l = result_only_logger fmt write precision ->
    survives (fun _ => True) (fun _ => True) l.
  Proof. intros Hw [->| ->]; [eapply verbose_survives|eapply report_survives]; eauto. Qed.
  Theorem ga_printing_undisturbed (LU : lens U G) (fmt : formatter T) (out : G -> string) write precision (l : logger G (list T)) i
    (cfg : ga_config U (list T)) fuel p u : lens_ok LU -> prints out write ->
    l = verbose_logger fmt write precision \/ l = result_only_logger fmt write precision ->
    nth_error (ga_loggers cfg) i = Some (attached LU l) -> ga_others_apart i LU cfg ->
    alike LU (ga_find_min cfg fuel p u)
             (ga_find_min (ga_set_loggers cfg (replaced i no_logger (ga_loggers cfg))) fuel p u) /\
    alike LU (ga_next_iterations cfg fuel p u)
             (ga_next_iterations (ga_set_loggers cfg (replaced i no_logger (ga_loggers cfg))) fuel p u).
  Proof.
    intros HL Hw Hl Hi Ho. pose proof (printing_survives fmt out write precision l Hw Hl) as S.
    split; [eapply ga_find_undisturbed|eapply ga_next_undisturbed]; eauto. exact I.
  Qed.
  Theorem ga_time_undisturbed (LU : lens U G) (fmt : formatter T) (out : G -> string) write (L : lens G (option Z)) now i
    (cfg : ga_config U (list T)) fuel p u : lens_ok LU -> prints out write ->
    lens_ok L -> ticks now -> (forall s, keeps (lget L) (write s)) -> keeps (lget L) now -> keeps out now ->
    (forall o g, out (lput L o g) = out g) ->
    nth_error (ga_loggers cfg) i = Some (attached LU (time_logger fmt write L now)) -> ga_others_apart i LU cfg ->
    alike LU (ga_find_min cfg fuel p u)
             (ga_find_min (ga_set_loggers cfg (replaced i no_logger (ga_loggers cfg))) fuel p u) /\
    alike LU (ga_next_iterations cfg fuel p u)
             (ga_next_iterations (ga_set_loggers cfg (replaced i no_logger (ga_loggers cfg))) fuel p u).
  Proof.
    intros HL Hw H1 H2 H3 H4 H5 H6 Hi Ho.
    pose proof (time_survives fmt write out Hw L now H1 H2 H3 H4 H5 H6) as S.
    split; [eapply ga_find_undisturbed|eapply ga_next_undisturbed]; eauto. exact I.
  Qed.
  Context {FT : FloatTrait T}.
  Theorem pso_printing_undisturbed (LU : lens U G) (fmt : formatter T) (out : G -> string) write precision (l : logger G (list T)) i
    (cfg : pso_config U T) fuel s u : lens_ok LU -> prints out write ->
    l = verbose_logger fmt write precision \/ l = result_only_logger fmt write precision ->
    nth_error (pso_loggers cfg) i = Some (attached LU l) -> pso_others_apart i LU cfg ->
    alike LU (pso_find_min cfg fuel s u)
             (pso_find_min (pso_set_loggers cfg (replaced i no_logger (pso_loggers cfg))) fuel s u) /\
    alike LU (pso_next_iterations cfg fuel s u)
             (pso_next_iterations (pso_set_loggers cfg (replaced i no_logger (pso_loggers cfg))) fuel s u).
  Proof.
    intros HL Hw Hl Hi Ho. pose proof (printing_survives fmt out write precision l Hw Hl) as S.
    split; [eapply pso_find_undisturbed|eapply pso_next_undisturbed]; eauto. exact I.
  Qed.
  Theorem pso_time_undisturbed (LU : lens U G) (fmt : formatter T) (out : G -> string) write (L : lens G (option Z)) now i
    (cfg : pso_config U T) fuel s u : lens_ok LU -> prints out write ->
    lens_ok L -> ticks now -> (forall s, keeps (lget L) (write s)) -> keeps (lget L) now -> keeps out now ->
    (forall o g, out (lput L o g) = out g) ->
    nth_error (pso_loggers cfg) i = Some (attached LU (time_logger fmt write L now)) -> pso_others_apart i LU cfg ->
    alike LU (pso_find_min cfg fuel s u)
             (pso_find_min (pso_set_loggers cfg (replaced i no_logger (pso_loggers cfg))) fuel s u) /\
    alike LU (pso_next_iterations cfg fuel s u)
             (pso_next_iterations (pso_set_loggers cfg (replaced i no_logger (pso_loggers cfg))) fuel s u).
  Proof.
    intros HL Hw H1 H2 H3 H4 H5 H6 Hi Ho.
    pose proof (time_survives fmt write out Hw L now H1 H2 H3 H4 H5 H6) as S.
    split; [eapply pso_find_undisturbed|eapply pso_next_undisturbed]; eauto. exact I.
  Qed.
End PrintingHarmless.

(** Any logger object goes through exactly the calls of the protocol. *)
Section Fed.
  Lemma ga_logger_find {U T G} i (L : lens U G) (l : logger G T) (cfg : ga_config U T) fuel p u r p' u' t : lens_ok L ->
    nth_error (ga_loggers cfg) i = Some (attached L l) -> ga_others_keep i (lget L) cfg ->
    ga_find_min cfg fuel p u = (Ret (r, p'), u', t) ->
    exists q ms, consulted t = q :: ms /\ p' = last ms q /\
      fed l (map (fun ks => (fst ks, ga_view (snd ks))) ((LStart, q) :: resumed q ms)) (lget L u) (lget L u').
  Proof.
    intros HL Hl Hk H. assert (Hi : i < List.length (ga_loggers cfg)) by (apply nth_error_Some; congruence).
    destruct (ga_find_told _ _ _ _ _ _ _ _ _ Hi H) as (q & ms & E1 & E2 & E3 & _).
    exists q, ms. split; [exact E1|]. split; [exact E3|]. rewrite <- E2. eapply ga_find_fed; eauto.
  Qed.
  Lemma ga_logger_next {U T G} i (L : lens U G) (l : logger G T) (cfg : ga_config U T) fuel p u r p' u' t : lens_ok L ->
    nth_error (ga_loggers cfg) i = Some (attached L l) -> ga_others_keep i (lget L) cfg ->
    ga_next_iterations cfg fuel p u = (Ret (r, p'), u', t) ->
    exists ms, consulted t = p :: ms /\ p' = last ms p /\
      fed l (map (fun ks => (fst ks, ga_view (snd ks))) (resumed p ms)) (lget L u) (lget L u').
  Proof.
    intros HL Hl Hk H. assert (Hi : i < List.length (ga_loggers cfg)) by (apply nth_error_Some; congruence).
    destruct (ga_next_told _ _ _ _ _ _ _ _ _ Hi H) as (ms & E1 & E2 & E3 & _).
    exists ms. split; [exact E1|]. split; [exact E3|]. rewrite <- E2. eapply ga_next_fed; eauto.
  Qed.
  Lemma pso_logger_find {U T G} {FT : FloatTrait T} i (L : lens U G) (l : logger G (list T)) (cfg : pso_config U T) fuel s u r s' u' t : lens_ok L ->
    nth_error (pso_loggers cfg) i = Some (attached L l) -> pso_others_keep i (lget L) cfg ->
    pso_find_min cfg fuel s u = (Ret (r, s'), u', t) ->
    exists q ms, consulted t = q :: ms /\ s' = last ms q /\
      fed l (map (fun ks => (fst ks, pso_view (snd ks))) ((LStart, q) :: resumed q ms)) (lget L u) (lget L u').
  Proof.
    intros HL Hl Hk H. assert (Hi : i < List.length (pso_loggers cfg)) by (apply nth_error_Some; congruence).
    destruct (pso_find_told _ _ _ _ _ _ _ _ _ Hi H) as (q & ms & E1 & E2 & E3 & _).
    exists q, ms. split; [exact E1|]. split; [exact E3|]. rewrite <- E2. eapply pso_find_fed; eauto.
  Qed.
  Lemma pso_logger_next {U T G} {FT : FloatTrait T} i (L : lens U G) (l : logger G (list T)) (cfg : pso_config U T) fuel s u r s' u' t : lens_ok L ->
    nth_error (pso_loggers cfg) i = Some (attached L l) -> pso_others_keep i (lget L) cfg ->
    pso_next_iterations cfg fuel s u = (Ret (r, s'), u', t) ->
    exists ms, consulted t = s :: ms /\ s' = last ms s /\
      fed l (map (fun ks => (fst ks, pso_view (snd ks))) (resumed s ms)) (lget L u) (lget L u').
  Proof.
    intros HL Hl Hk H. assert (Hi : i < List.length (pso_loggers cfg)) by (apply nth_error_Some; congruence).
    destruct (pso_next_told _ _ _ _ _ _ _ _ _ Hi H) as (ms & E1 & E2 & E3 & _).
    exists ms. split; [exact E1|]. split; [exact E3|]. rewrite <- E2. eapply pso_next_fed; eauto.
  Qed.
End Fed.
