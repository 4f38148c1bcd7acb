(** * The genetic optimizer: lemmas behind the property theorems *)

From Coq Require Import List Arith ZArith Bool Lia Reals Lra.
From Verif Require Import Base Logic FloatModel GaModel SpecGa FloatFacts GaBest GaFacts GaSafety.
Import ListNotations.

(** ** Reading the trace of a generation *)
Section Reading.
  Context {T : Type}.
  Notation ev := (ga_event T).
  Implicit Types (t g : list ev) (p : population T).

  Lemma iterations_app {S X} (a b : list (event T S X)) :
    iterations_of (a ++ b) = iterations_of a + iterations_of b.
  Proof. induction a as [|[] a IH]; simpl; auto. destruct b0; rewrite IH; lia. Qed.

  Lemma protocol_app {S X} (f : S -> nat) i (a b : list (event T S X)) :
    protocol f i (a ++ b) = protocol f i a ++ protocol f i b.
  Proof.
    induction a as [|[] a IH]; simpl; auto; rewrite IH; auto.
    destruct (_ =? _); auto.
  Qed.

  (** Events that are neither evaluations nor seen by loggers or stop checkers. *)
  Definition quiet {S X} (e : event T S X) : Prop :=
    match e with ECall _ | ESee _ => True | _ => False end.

  Lemma quiet_protocol {S X} (f : S -> nat) i (t : list (event T S X)) :
    Forall quiet t -> protocol f i t = [] /\ iterations_of t = 0 /\ evals t = [].
  Proof. induction 1 as [|[] t H _ IH]; simpl in *; auto; contradiction. Qed.

  Lemma eval_events_reading {S X} (f : S -> nat) i xs vs : length vs = length xs ->
    let t := @eval_events T S X xs vs in
    protocol f i t = [] /\ iterations_of t = 0 /\ evals t = xs.
  Proof.
    unfold eval_events. revert vs.
    induction xs as [|x xs IH]; intros [|v vs] H; simpl in *; auto; try discriminate.
    destruct (IH vs) as [H1 [H2 H3]]; auto. rewrite H3. auto.
  Qed.

  Lemma log_events_reading {S X} (f : S -> nat) i k n (s : S) :
    let t := @log_events T S X k n s in
    protocol f i t = (if i <? n then [PLog k (f s)] else []) /\
    iterations_of t = 0 /\ evals t = [].
  Proof.
    unfold log_events. cbn zeta.
    assert (G : forall m a,
      protocol f i (map (fun j => @ELog T S X k j s) (seq a m)) =
        (if (a <=? i) && (i <? a + m) then [PLog k (f s)] else []) /\
      iterations_of (map (fun j => @ELog T S X k j s) (seq a m)) = 0 /\
      evals (map (fun j => @ELog T S X k j s) (seq a m)) = []).
    { induction m as [|m IH]; intros a; simpl.
      - repeat split; auto. destruct (Nat.leb_spec a i), (Nat.ltb_spec i (a + 0)); auto; lia.
      - destruct (IH (Datatypes.S a)) as [H1 [H2 H3]]. rewrite H1. repeat split; auto.
        destruct (Nat.eqb_spec a i), (Nat.leb_spec (Datatypes.S a) i), (Nat.leb_spec a i),
          (Nat.ltb_spec i (Datatypes.S a + m)), (Nat.ltb_spec i (a + Datatypes.S m)); simpl; auto; lia. }
    destruct (G n 0) as [H1 H2]. simpl in H1. auto.
  Qed.

  Lemma prebirths_quiet p n xs t ys : prebirths p n xs t ys -> Forall quiet t.
  Proof. induction 1; repeat constructor; auto. Qed.

  Lemma selections_quiet p n l t l' : selections p n l t l' -> Forall quiet t.
  Proof. induction 1; repeat constructor; auto. Qed.

  Lemma map_quiet {A} (f : A -> ev) l : (forall a, quiet (f a)) -> Forall quiet (map f l).
  Proof. intros H. induction l; simpl; constructor; auto. Qed.

  Lemma generation_reading npre nsel nlog p g p' born vals after i :
    generation npre nsel nlog p g p' born vals after ->
    protocol (fun p : population T => iteration p) i g =
      (if i <? nlog then [PLog LNext (iteration p + 1)] else []) /\
    iterations_of g = 0 /\ evals g = born.
  Proof.
    intros []. subst g.
    assert (Q : forall a : list ev, Forall quiet a -> protocol (fun p : population T => iteration p) i a = [] /\
                     iterations_of a = 0 /\ evals a = []) by (intros; apply quiet_protocol; auto).
    set (a1 := [ESee p; ECall (CPairs p pairs)] : list ev).
    set (a2 := map (fun fc => ECall (CCross (fst fc) (snd fc))) (combine families children) : list ev).
    set (a3 := map (fun cm => ECall (CMutate (fst cm) (snd cm))) (combine (concat children) mutants) : list ev).
    destruct (Q a1) as [P1 [I1 V1]]; [repeat constructor|].
    destruct (Q a2) as [P2 [I2 V2]]; [apply map_quiet; simpl; auto|].
    destruct (Q a3) as [P3 [I3 V3]]; [apply map_quiet; simpl; auto|].
    destruct (Q pre_events) as [P4 [I4 V4]]; [eapply prebirths_quiet; eauto|].
    destruct (Q sel_events) as [P5 [I5 V5]]; [eapply selections_quiet; eauto|].
    destruct (@eval_events_reading (population T) (ga_call T) (fun p => iteration p) i born vals gen_values)
      as [P6 [I6 V6]].
    destruct (@log_events_reading (population T) (ga_call T) (fun p => iteration p) i LNext nlog p')
      as [P7 [I7 V7]].
    rewrite !protocol_app, !iterations_app, !evals_app.
    rewrite P1, P2, P3, P4, P5, P6, P7, I1, I2, I3, I4, I5, I6, I7, V1, V2, V3, V4, V5, V6, V7.
    rewrite gen_iteration. simpl. rewrite app_nil_r. auto.
  Qed.

  (** ** Births *)
  Lemma births_app_log pend k n p rest :
    @births T pend (@log_events T _ (ga_call T) k n p ++ rest) = @births T pend rest.
  Proof.
    unfold log_events. generalize 0. induction n as [|n IH]; intros a; simpl; auto.
  Qed.
  Lemma births_app_eval pend xs vs rest :
    @births T pend (@eval_events T _ (ga_call T) xs vs ++ rest) = @births T pend rest.
  Proof.
    unfold eval_events. revert vs. induction xs as [|x xs IH]; intros [|v vs]; simpl; auto.
  Qed.
  Lemma births_app_sel p n l t l' pend rest :
    selections p n l t l' -> @births T pend (t ++ rest) = @births T pend rest.
  Proof. induction 1; simpl; auto. Qed.
  Lemma births_app_pre p n xs t ys rest :
    prebirths p n xs t ys -> births xs (t ++ rest) = births ys rest.
  Proof. induction 1; simpl; auto. Qed.
  Lemma births_app_mut cs ms pend rest : length ms = length cs ->
    @births T pend (map (fun cm => ECall (CMutate (fst cm) (snd cm))) (combine cs ms) ++ rest)
    = @births T (pend ++ ms) rest.
  Proof.
    revert ms pend. induction cs as [|c cs IH]; intros [|m ms] pend H; simpl in *; try discriminate.
    - now rewrite app_nil_r.
    - rewrite IH by lia. rewrite <- app_assoc. reflexivity.
  Qed.
  Lemma births_app_cross fams chs pend rest :
    @births T pend (map (fun fc => ECall (CCross (fst fc) (snd fc))) (combine fams chs) ++ rest)
    = @births T pend rest.
  Proof.
    generalize (combine fams chs). intros l. induction l; simpl; auto.
  Qed.

  Lemma generation_births npre nsel nlog p g p' born vals after rest :
    generation npre nsel nlog p g p' born vals after ->
    births [] (g ++ rest) = births born rest.
  Proof.
    intros []. subst g. rewrite <- !app_assoc. simpl.
    rewrite births_app_cross, births_app_mut by auto. simpl.
    rewrite (births_app_pre _ _ _ _ _ _ gen_pre), births_app_eval,
      (births_app_sel _ _ _ _ _ _ _ gen_sel), births_app_log. reflexivity.
  Qed.

  Lemma generations_births npre nsel nlog p t p' gens rest pend :
    generations npre nsel nlog p t p' gens ->
    births pend (t ++ rest) = pend ++ evals t ++ births [] rest.
  Proof.
    intros H. revert pend. induction H; intros pend; simpl; auto.
    rewrite <- app_assoc, evals_app.
    rewrite (generation_births _ _ _ _ _ _ _ _ _ _ H).
    rewrite IHgenerations.
    destruct (generation_reading _ _ _ _ _ _ _ _ _ 0 H) as [_ [_ ->]].
    now rewrite <- app_assoc.
  Qed.

  (** ** Protocol *)
  Lemma generations_protocol npre nsel nlog p t p' gens i : i < nlog ->
    generations npre nsel nlog p t p' gens ->
    protocol (fun p : population T => iteration p) i t = rounds (iteration p) (length gens) /\
    iteration p' = iteration p + length gens /\
    iterations_of t = length gens.
  Proof.
    intros Hi. induction 1 as [p|p g p1 t p2 born vals after gens Hg H IH]; simpl.
    - auto.
    - destruct (generation_reading _ _ _ _ _ _ _ _ _ i Hg) as [P1 [I1 _]].
      rewrite protocol_app, iterations_app, P1, I1.
      destruct (Nat.ltb_spec i nlog); [|lia].
      destruct IH as [IH1 [IH2 IH3]].
      assert (E : iteration p1 = iteration p + 1) by (destruct Hg; auto).
      rewrite E in *. rewrite IH1, IH3. simpl. repeat split; auto; lia.
  Qed.

  Lemma generations_iterations npre nsel nlog p t p' gens :
    generations npre nsel nlog p t p' gens ->
    iteration p' = iteration p + length gens /\ iterations_of t = length gens.
  Proof.
    induction 1 as [p|p g p1 t p2 born vals after gens Hg H IH]; simpl.
    - auto.
    - destruct (generation_reading _ _ _ _ _ _ _ _ _ 0 Hg) as [_ [I1 _]].
      rewrite iterations_app, I1. destruct IH as [IH2 IH3].
      assert (E : iteration p1 = iteration p + 1) by (destruct Hg; auto). lia.
  Qed.

  (** ** Stop checker observations *)
  Lemma eval_events_no_stop {S X} xs vs q b : ~ In (@EStop T S X q b) (eval_events xs vs).
  Proof.
    unfold eval_events. intros H. apply in_flat_map in H. destruct H as [x [_ [H|[H|[]]]]]; discriminate.
  Qed.
  Lemma log_events_no_stop {S X} k n s q b : ~ In (@EStop T S X q b) (log_events k n s).
  Proof. unfold log_events. intros H. apply in_map_iff in H. destruct H as [? [H _]]. discriminate. Qed.
  Lemma quiet_no_stop {S X} (t : list (event T S X)) q b : Forall quiet t -> ~ In (EStop q b) t.
  Proof. intros H Hi. rewrite Forall_forall in H. apply (H _ Hi). Qed.

  Lemma generation_no_stop npre nsel nlog p g p' born vals after q b :
    generation npre nsel nlog p g p' born vals after -> ~ In (EStop q b) g.
  Proof.
    intros [] H. subst g.
    repeat (apply in_app_or in H; destruct H as [H|H]).
    - destruct H as [H|[H|[]]]; discriminate.
    - apply in_map_iff in H. destruct H as [? [H _]]. discriminate.
    - apply in_map_iff in H. destruct H as [? [H _]]. discriminate.
    - eapply quiet_no_stop; [|eauto]. eapply prebirths_quiet; eauto.
    - eapply eval_events_no_stop; eauto.
    - eapply quiet_no_stop; [|eauto]. eapply selections_quiet; eauto.
    - eapply log_events_no_stop; eauto.
  Qed.

  Lemma generations_first npre nsel nlog p t p' gens :
    generations npre nsel nlog p t p' gens -> exists b t', t = EStop p b :: t'.
  Proof. destruct 1; eauto. Qed.

  Lemma generations_none npre nsel nlog p t p' gens :
    generations npre nsel nlog p t p' gens ->
    (best_individual p' = None <->
     best_individual p = None /\
     forall q b, In (EStop q b) t -> iteration q > iteration p -> individuals q = []).
  Proof.
    induction 1 as [p|p g p1 t p2 born vals after gens Hg H IH].
    - split; [|intuition]. intros E. split; auto. intros q b [Eq|[]] Hq. inversion Eq; subst. lia.
    - assert (Hit : iteration p1 = iteration p + 1) by (destruct Hg; auto).
      assert (He : extremes p p1) by (destruct Hg; auto).
      rewrite IH. clear IH. split.
      + intros [E1 E2].
        assert (Hp : individuals p1 = [] /\ best_individual p = None).
        { unfold extremes in He. destruct (individuals p1) eqn:El.
          - split; auto. destruct He. congruence.
          - destruct He as [[b [Eb _]] _]. congruence. }
        destruct Hp as [Hp1 Hp]. split; auto.
        intros q b [Eq|Hin] Hq.
        * inversion Eq; subst. lia.
        * apply in_app_or in Hin. destruct Hin as [Hin|Hin].
          -- exfalso. eapply generation_no_stop; eauto.
          -- destruct (lt_dec (iteration p1) (iteration q)) as [Hlt|Hge]; [eapply E2; eauto|].
             assert (Hq' : q = p1 \/ iteration q > iteration p1).
             { revert Hin. clear - H. intros Hin.
               assert (G : forall p t p' gens, generations npre nsel nlog p t p' gens ->
                  forall q b, In (EStop q b) t -> q = p \/ iteration q > iteration p).
               { clear. induction 1 as [p|p g p1 t p2 born vals after gens Hg H IH]; intros q b Hin.
                 - destruct Hin as [E|[]]. inversion E; auto.
                 - destruct Hin as [E|Hin]; [inversion E; auto|]. right.
                   apply in_app_or in Hin. destruct Hin as [Hin|Hin].
                   + exfalso. eapply generation_no_stop; eauto.
                   + assert (iteration p1 = iteration p + 1) by (destruct Hg; auto).
                     destruct (IH _ _ Hin); [subst|]; lia. }
               eapply G; eauto. }
             destruct Hq' as [->|]; [auto|lia].
      + intros [E1 E2].
        assert (Hnil : individuals p1 = []).
        { destruct (generations_first _ _ _ _ _ _ _ H) as [b [t' ->]].
          apply (E2 p1 b); [|lia]. right. apply in_or_app. right. now left. }
        split.
        * unfold extremes in He. rewrite Hnil in He. destruct He. congruence.
        * intros q b Hin Hq. apply (E2 q b); [|lia]. right. apply in_or_app. auto.
  Qed.
End Reading.

(** ** Theorems about calls *)
Section Theorems.
  Context {U T : Type}.
  Notation ev := (ga_event T).
  Implicit Types (cfg : ga_config U T).

  Definition legal cfg : Prop := Forall selection_copies (ga_selections cfg).

  Lemma find_min_rest cfg fuel p u r p' u' t : legal cfg ->
    ga_find_min cfg fuel p u = (Ret (r, p'), u', t) ->
    seen_ok t /\ population_valued t p' /\ (iteration p' > 0 -> settled p') /\ r = solution p'.
  Proof.
    intros Hl H. pose proof (ok_find cfg Hl fuel p [] u eq_refl) as G. rewrite H in G.
    destruct G as [[G1 [G2 G3]] G4]. simpl in *. auto.
  Qed.

  Lemma next_rest cfg fuel p h u r p' u' t : legal cfg ->
    seen_ok h -> population_valued h p -> (iteration p > 0 -> settled p) ->
    ga_next_iterations cfg fuel p u = (Ret (r, p'), u', t) ->
    seen_ok (h ++ t) /\ population_valued (h ++ t) p' /\ (iteration p' > 0 -> settled p') /\
    r = solution p'.
  Proof.
    intros Hl H1 H2 H3 H. pose proof (ok_next cfg Hl fuel p h u) as G. rewrite H in G.
    destruct G as [[G1 [G2 G3]] G4]; [split; [exact H1|split; [exact H2|exact H3]]|]. simpl in *. auto.
  Qed.

  (** C71: invariants of every reachable optimizer. *)
  Lemma reach_ok (ok : ga_config U T -> Prop) p h : (forall cfg, ok cfg -> legal cfg) ->
    ga_reach ok p h ->
    seen_ok h /\ population_valued h p /\ (iteration p > 0 -> settled p) /\
    iteration p = iterations_of h.
  Proof.
    intros Hok. induction 1 as [|cfg fuel u p h r p' u' t Hc Hr IH H|cfg fuel u p h r p' u' t Hc Hr IH H].
    - split; [apply seen_ok_nil|]. split; [|split]; simpl; auto; [|lia].
      repeat split; simpl; intros; try contradiction; discriminate.
    - destruct (find_min_rest _ _ _ _ _ _ _ _ (Hok _ Hc) H) as [H1 [H2 [H3 _]]].
      split; [exact H1|split; [exact H2|split; [exact H3|]]].
      apply ga_find_min_ret in H. destruct H as [_ [xs [vs [gens [t1 [Hl [Hg ->]]]]]]].
      destruct (generations_iterations _ _ _ _ _ _ _ Hg) as [E1 E2].
      simpl. rewrite !iterations_app, E2, E1.
      destruct (@eval_events_reading T _ (ga_call T) (fun p : population T => iteration p) 0 xs vs Hl) as [_ [-> _]].
      repeat match goal with |- context [iterations_of (log_events ?k ?n ?s)] =>
        rewrite (proj1 (proj2 (@log_events_reading T _ (ga_call T) (fun p : population T => iteration p) 0 k n s))) end.
      simpl. lia.
    - destruct IH as [I1 [I2 [I3 I4]]].
      destruct (next_rest _ _ _ _ _ _ _ _ _ (Hok _ Hc) I1 I2 I3 H) as [H1 [H2 [H3 _]]].
      split; [exact H1|split; [exact H2|split; [exact H3|]]].
      apply ga_next_ret in H. destruct H as [_ [gens [t1 [Hg ->]]]].
      destruct (generations_iterations _ _ _ _ _ _ _ Hg) as [E1 E2].
      rewrite !iterations_app, E2, E1.
      repeat match goal with |- context [iterations_of (log_events ?k ?n ?s)] =>
        rewrite (proj1 (proj2 (@log_events_reading T _ (ga_call T) (fun p : population T => iteration p) 0 k n s))) end.
      simpl. lia.
  Qed.

  Lemma reach_zero (ok : ga_config U T -> Prop) p h :
    ga_reach ok p h -> iteration p = 0 -> best_individual p = None /\ worst_individual p = None.
  Proof.
    assert (G : forall npre nsel nlog (p : population T) t p' gens,
      generations npre nsel nlog p t p' gens ->
      iteration p' = 0 -> p' = p).
    { clear. induction 1 as [p|p g p1 t p2 born vals after gens Hg H IH]; auto. intros E.
      destruct (generations_iterations _ _ _ _ _ _ _ H) as [E1 _].
      assert (iteration p1 = iteration p + 1) by (destruct Hg; auto). lia. }
    induction 1 as [|cfg fuel u p h r p' u' t Hc Hr IH H|cfg fuel u p h r p' u' t Hc Hr IH H]; intros E.
    - auto.
    - apply ga_find_min_ret in H. destruct H as [_ [xs [vs [gens [t1 [Hl [Hg _]]]]]]].
      rewrite (G _ _ _ _ _ _ _ Hg E). auto.
    - apply ga_next_ret in H. destruct H as [_ [gens [t1 [Hg _]]]].
      assert (p' = p) by (eapply G; eauto). subst. auto.
  Qed.

  Lemma solution_valued h (p : population T) x v : population_valued h p ->
    solution p = Some (x, v) -> evaluated h x v.
  Proof.
    intros [_ [H _]]. unfold solution. destruct (best_individual p) as [b|] eqn:Eb; [|discriminate].
    intros E. inversion E; subst. apply (H b eq_refl).
  Qed.

  (** ** Recorded events are genuine *)
  Definition all_genuine cfg (h : list ev) (u : U) : Prop := Forall (genuine cfg) h.

  Lemma genuine_snoc cfg h e : Forall (genuine cfg) h -> genuine cfg e -> Forall (genuine cfg) (h ++ [e]).
  Proof. intros. apply Forall_app. auto. Qed.

  Lemma genuine_emit cfg e : genuine cfg e ->
    hoare (all_genuine cfg) (emit e) (fun _ => all_genuine cfg) (all_genuine cfg).
  Proof.
    intros He. eapply hoare_pre; [apply (hoare_emit e (fun _ => all_genuine cfg))|].
    intros h u H. now apply genuine_snoc.
  Qed.

  Lemma genuine_call cfg {A} (rec : A -> ga_call T) (c : comp U A) :
    (forall a u u', c u = (Ret a, u') -> genuine cfg (ECall (rec a))) ->
    hoare (all_genuine cfg) (call_comp rec c) (fun _ => all_genuine cfg) (all_genuine cfg).
  Proof.
    intros Hc. unfold call_comp.
    eapply hoare_mbind with (R := fun a h u => all_genuine cfg h u /\ genuine cfg (ECall (rec a))).
    - apply hoare_call; eauto.
    - intros a. eapply hoare_mbind with (R := fun _ => all_genuine cfg).
      + eapply hoare_pre; [apply (hoare_emit _ (fun _ => all_genuine cfg))|].
        intros h u [H1 H2]. now apply genuine_snoc.
      + intros ?x. apply (hoare_mret a (fun _ => all_genuine cfg)).
  Qed.

  Lemma genuine_loggers cfg k p :
    hoare (all_genuine cfg) (call_loggers pop_view k (ga_loggers cfg) p) (fun _ => all_genuine cfg)
      (all_genuine cfg).
  Proof.
    unfold call_loggers. apply hoare_mfor. intros [i l] _. eapply hoare_mbind.
    - apply genuine_emit. exact I.
    - intros ?x. apply hoare_call; auto.
  Qed.

  Lemma genuine_append cfg p xs :
    hoare (all_genuine cfg) (pop_append cfg p xs) (fun _ => all_genuine cfg) (all_genuine cfg).
  Proof.
    unfold pop_append. apply (hoare_mfold _ _ (fun _ => all_genuine cfg)). intros q x _.
    unfold pop_push, call_goal. eapply hoare_mbind with (R := fun _ => all_genuine cfg).
    - eapply hoare_mbind; [apply genuine_emit; exact I|]. intros ?x.
      eapply hoare_mbind with (R := fun v h u => all_genuine cfg h u /\
                                 exists u u', ga_goal cfg x u = (Ret v, u')).
      + apply hoare_call; eauto.
      + intros v. eapply hoare_mbind with (R := fun _ => all_genuine cfg).
        * eapply hoare_pre; [apply (hoare_emit _ (fun _ => all_genuine cfg))|].
          intros h u [H1 H2]. now apply genuine_snoc.
        * intros ?x. apply (hoare_mret _ (fun _ => all_genuine cfg)).
    - intros v. apply (hoare_mret _ (fun _ => all_genuine cfg)).
  Qed.

  Lemma genuine_iteration cfg p :
    hoare (all_genuine cfg) (ga_iteration cfg p) (fun _ => all_genuine cfg) (all_genuine cfg).
  Proof.
    unfold ga_iteration.
    eapply hoare_mbind with (R := fun _ => all_genuine cfg).
    { unfold run_pairing. eapply hoare_mbind; [apply genuine_emit; exact I|]. intros ?x.
      eapply hoare_mbind; [apply genuine_call; simpl; eauto|]. intros pairs. simpl.
      apply (hoare_mfold _ _ (fun _ => all_genuine cfg)). intros acc pair _.
      eapply hoare_mbind with (R := fun _ => all_genuine cfg); [apply hoare_pure; auto|].
      intros fam. eapply hoare_mbind; [apply genuine_call; simpl; eauto|]. intros cs.
      apply (hoare_mret _ (fun _ => all_genuine cfg)). }
    intros cs. eapply hoare_mbind with (R := fun _ => all_genuine cfg).
    { eapply hoare_conseq; [apply (hoare_mmapM _ cs (all_genuine cfg) (fun _ _ => True) (all_genuine cfg))|..]; auto.
      - intros c _. eapply hoare_conseq; [apply genuine_call; simpl; eauto|..]; auto.
      - intros a h u [H _]. exact H. }
    intros ms. eapply hoare_mbind with (R := fun _ => all_genuine cfg).
    { apply (hoare_mfold _ _ (fun _ => all_genuine cfg)). intros s pb Hpb.
      eapply hoare_mbind; [apply genuine_emit; exact I|]. intros ?x. apply genuine_call. simpl. eauto. }
    intros born. eapply hoare_mbind; [apply genuine_append|]. intros p1. simpl.
    eapply hoare_mbind with (R := fun _ => all_genuine cfg).
    { apply (hoare_mfold _ _ (fun _ => all_genuine cfg)). intros q s Hs.
      eapply hoare_mbind; [apply genuine_emit; exact I|]. intros ?x.
      eapply hoare_mbind; [apply genuine_call; simpl; eauto|]. intros l.
      apply (hoare_mret _ (fun _ => all_genuine cfg)). }
    intros p2. eapply hoare_mbind with (R := fun _ => all_genuine cfg); [apply hoare_pure; auto|].
    intros p3. cbn zeta. eapply hoare_mbind; [apply genuine_loggers|]. intros ?x.
    apply (hoare_mret _ (fun _ => all_genuine cfg)).
  Qed.

  Lemma genuine_loop cfg fuel p :
    hoare (all_genuine cfg) (ga_loop cfg fuel p) (fun _ => all_genuine cfg) (all_genuine cfg).
  Proof.
    revert p. induction fuel as [|fuel IH]; intros p; simpl; [apply hoare_nofuel|].
    eapply hoare_mbind with (R := fun _ => all_genuine cfg).
    - unfold call_stop.
      eapply hoare_mbind with (R := fun b h u => all_genuine cfg h u /\
         exists u u', ga_stop cfg (pop_view p) u = (Ret b, u')).
      + apply hoare_call; eauto.
      + intros b. eapply hoare_mbind with (R := fun _ => all_genuine cfg).
        * eapply hoare_pre; [apply (hoare_emit _ (fun _ => all_genuine cfg))|].
          intros h u [H1 [u1 [u2 H2]]]. apply genuine_snoc; auto. simpl. exists u1, u2. exact H2.
        * intros ?x. apply (hoare_mret _ (fun _ => all_genuine cfg)).
    - intros [|]; [apply (hoare_mret _ (fun _ => all_genuine cfg))|].
      eapply hoare_mbind; [apply genuine_iteration|]. intros p'. apply IH.
  Qed.

  Lemma genuine_next cfg fuel p :
    hoare (all_genuine cfg) (ga_next_iterations cfg fuel p) (fun _ => all_genuine cfg) (all_genuine cfg).
  Proof.
    unfold ga_next_iterations. eapply hoare_mbind; [apply genuine_loggers|]. intros ?x.
    eapply hoare_mbind; [apply genuine_loop|]. intros p'.
    eapply hoare_mbind; [apply genuine_loggers|]. intros ?x.
    apply (hoare_mret _ (fun _ => all_genuine cfg)).
  Qed.

  Lemma genuine_find cfg fuel p :
    hoare (all_genuine cfg) (ga_find_min cfg fuel p) (fun _ => all_genuine cfg) (all_genuine cfg).
  Proof.
    unfold ga_find_min. eapply hoare_mbind; [apply genuine_call; simpl; eauto|]. intros xs. simpl.
    eapply hoare_mbind; [apply genuine_append|]. intros p1.
    eapply hoare_mbind; [apply genuine_loggers|]. intros ?x. apply genuine_next.
  Qed.

  Lemma find_min_genuine cfg fuel p u o u' t :
    ga_find_min cfg fuel p u = (o, u', t) -> Forall (genuine cfg) t.
  Proof.
    intros H. apply (hoare_any _ _ (all_genuine cfg) [] u o u' t (genuine_find cfg fuel p)); auto.
    constructor.
  Qed.

  Lemma next_genuine cfg fuel p u o u' t :
    ga_next_iterations cfg fuel p u = (o, u', t) -> Forall (genuine cfg) t.
  Proof.
    intros H. apply (hoare_any _ _ (all_genuine cfg) [] u o u' t (genuine_next cfg fuel p)); auto.
    constructor.
  Qed.
End Theorems.
