(** * The worst of a full population never gets worse: proofs *)

From Coq Require Import List Arith ZArith Bool Lia Reals Lra.
From Flocq Require Import Core IEEE754.BinarySingleNaN IEEE754.Binary.
From Verif Require Import Base Logic FloatModel Rng FloatFacts GaModel GaComponents SpecGa SpecSel SpecWorst
  GaBest GaFacts GaMore CalcFacts SelFacts SelProofs KillFacts.
Import ListNotations.

Lemma leb_trans {prec emax} {Hp : Prec_gt_0 prec} {He : Prec_lt_emax prec emax} (a b c : bfloat prec emax) :
  leb a b = true -> leb b c = true -> leb a c = true.
Proof.
  intros A B. apply leb_key in A, B. destruct A as (A1 & A2 & A), B as (_ & B2 & B). apply leb_key.
  split; [exact A1|]. split; [exact B2|]. lra.
Qed.

Section Limit.
  Context {T : Type}.
  Implicit Types (l : list (individual T)).
  Lemma live_filter l : live l = length (filter alive l).
  Proof.
    unfold live. induction l as [|i l IH]; [reflexivity|]. cbn [map count_occ filter].
    destruct (alive i); cbn [length]; destruct (bool_dec _ _); try discriminate; try congruence; rewrite IH; reflexivity.
  Qed.
  Lemma same_individual (i j : individual T) : killed_from i j -> alive j = true -> j = i.
  Proof. destruct i as [x v a], j as [y w b]. unfold killed_from. cbn [chromosomes fitness alive]. intros (-> & -> & A) ->. now rewrite (A eq_refl). Qed.
  Lemma survivor l l' n j : Forall2 killed_from l l' -> nth_error l' n = Some j -> alive j = true -> survives_at l l' n j.
  Proof.
    intros F. revert n. induction F as [|a b l l' Hab F IH]; intros [|n] H A; try discriminate H.
    - cbn in H. injection H as ->. pose proof (same_individual a j Hab A) as <-. repeat split; assumption.
    - exact (IH n H A).
  Qed.
  Lemma all_alive_filter l : Forall (fun i => alive i = true) l -> filter alive l = l.
  Proof. induction 1 as [|i l A _ IH]; [reflexivity|]. cbn [filter]. now rewrite A, IH. Qed.

  Lemma limit_keeps (n : nat) (c : f64) (old kids : list (individual T)) b w it :
    0 < n -> length old = n -> Forall (fun i => alive i = true /\ up_to c i) old ->
    Forall (fun i => alive i = true -> is_finite (fitness i) = true) kids ->
    exists l', limit_population n (Population (old ++ kids) b w it) = Ret l' /\
      length (filter alive l') = n /\ Forall (up_to c) (filter alive l').
  Proof.
    intros Hn Lo Ho Hk. unfold limit_population. cbn [individuals].
    assert (Ao : filter alive old = old) by (apply all_alive_filter; eapply Forall_impl; [|exact Ho]; cbn; tauto).
    assert (Lv : len_alive (old ++ kids) = n + length (filter alive kids)).
    { unfold len_alive. rewrite filter_app, app_length, Ao, Lo. reflexivity. }
    rewrite Lv. destruct (n <? n + length (filter alive kids)) eqn:C.
    2: { apply Nat.ltb_ge in C. exists (old ++ kids). split; [reflexivity|].
      destruct (filter alive kids) as [|k ks] eqn:E; [|cbn in C; lia]. rewrite filter_app, Ao, E, app_nil_r.
      split; [exact Lo|]. eapply Forall_impl; [|exact Ho]. cbn. tauto. }
    apply Nat.ltb_lt in C. replace (n + length (filter alive kids) - n) with (length (filter alive kids)) by lia.
    destruct old as [|f old']; [cbn in Lo; lia|].
    assert (Hf : alive f = true /\ up_to c f) by (inversion Ho; assumption).
    assert (FA : first_alive ((f :: old') ++ kids)) by (exists f, (old' ++ kids); split; [reflexivity|tauto]).
    assert (LL : live ((f :: old') ++ kids) = n + length (filter alive kids)) by (rewrite live_filter; exact Lv).
    destruct (kill_worst_count ((f :: old') ++ kids) (length (filter alive kids)) FA) as [l' [E EL]]; [lia|].
    exists l'. split; [exact E|].
    assert (Ln : length (filter alive l') = n) by (rewrite <- live_filter; lia).
    split; [exact Ln|].
    assert (Fin : forall i, In i ((f :: old') ++ kids) -> alive i = true -> is_finite (fitness i) = true).
    { intros i Hi A. apply in_app_or in Hi. rewrite Forall_forall in Ho, Hk. destruct Hi as [Hi|Hi]; [apply (Ho i Hi)|now apply Hk]. }
    assert (NN : no_nan ((f :: old') ++ kids)).
    { intros m i Hi [A|A]; apply finite_not_nan.
      - apply Fin; [|exact A]. eapply nth_error_In; exact Hi.
      - subst m. cbn in Hi. injection Hi as <-. apply Hf. }
    pose proof (kill_worst_only_kills ((f :: old') ++ kids) (length (filter alive kids)) l' E) as KF.
    destruct (Forall2_app_inv_l _ _ KF) as (o' & k' & Fo & Fk & El').
    destruct (Forall_Exists_dec (fun i : individual T => alive i = true) (fun i => bool_dec (alive i) true) o') as [AO|DO].
    - (* nobody of the old ones was killed *)
      rewrite El', filter_app, (all_alive_filter o' AO) in Ln |- *. rewrite app_length, <- (Forall2_length _ _ _ Fo), Lo in Ln.
      destruct (filter alive k') as [|? ?]; [|cbn in Ln; lia]. rewrite app_nil_r.
      clear - Fo Ho. induction Fo as [|a b l l' (A1 & A2 & _) _ IH]; [constructor|]. inversion Ho as [|? ? [_ Ha] Ho']; subst.
      constructor; [|now apply IH]. unfold up_to. rewrite A2. exact Ha.
    - (* a killed one has a value of at most c *)
      assert (K : exists m k, killed_at ((f :: old') ++ kids) l' m k /\ leb (fitness k) c = true).
      { apply Exists_exists in DO. destruct DO as (j & Hj & Dj). apply In_nth_error in Hj. destruct Hj as [m Hm].
        assert (Lm : m < length o') by (apply nth_error_Some; congruence).
        destruct (nth_error (f :: old') m) as [k|] eqn:Ek.
        2: { apply nth_error_None in Ek. rewrite (Forall2_length _ _ _ Fo) in Ek. lia. }
        rewrite Forall_forall in Ho. destruct (Ho k (nth_error_In _ _ Ek)) as [Ak [_ Lk]].
        exists m, k. split; [|exact Lk]. split; [rewrite nth_error_app1; [exact Ek|apply nth_error_Some; congruence]|].
        split; [exact Ak|]. exists j. split; [rewrite El', nth_error_app1; [exact Hm|exact Lm]|]. now destruct (alive j). }
      destruct K as (m & k & Kk & Lk). apply Forall_forall. intros j Hj. apply filter_In in Hj. destruct Hj as [Hj Aj].
      apply In_nth_error in Hj. destruct Hj as [mj Hmj]. pose proof (survivor _ _ mj j KF Hmj Aj) as Sj.
      split; [apply Fin; [|exact Aj]; eapply nth_error_In; exact (proj1 Sj)|].
      destruct (kill_worst_order _ _ l' NN E mj j m k Sj Kk) as [G|[f' [Hf' G]]].
      + exact (leb_trans _ _ _ G Lk).
      + cbn in Hf'. injection Hf' as <-. exact (leb_trans _ _ _ G (proj2 (proj2 Hf))).
  Qed.
End Limit.

Section Worst.
  Context {U T : Type}.
  Variable cfg : ga_config U T.
  Variable n : nat.
  Variable c : f64.
  Hypothesis Hn : 0 < n.
  Hypothesis Hsel : ga_selections cfg = [fun p => cret (kill_fitness_nan p); fun p => cpure (limit_population n p)].
  Notation ev := (ga_event T).
  Implicit Types (h t : list ev) (p : population T) (u : U).

  Definition wfine (e : ev) : Prop := match e with EStop p _ => full n c p | ELog _ _ p => full n c p | _ => True end.
  Definition wall h (u : U) : Prop := Forall wfine h.
  Definition wall_at p h (u : U) : Prop := wall h u /\ full n c p.
  (** Old individuals and newborns. *)
  Definition grown p : Prop :=
    (exists kids, exists old, individuals p = old ++ kids /\ length old = n /\ Forall (fun i => alive i = true /\ up_to c i) old) /\
    (forall i, best_individual p = Some i \/ worst_individual p = Some i -> up_to c i).
  (** After KillFitnessNaN. *)
  Definition clean p : Prop :=
    (exists kids, exists old, individuals p = old ++ kids /\ length old = n /\ Forall (fun i => alive i = true /\ up_to c i) old /\
       Forall (fun i => alive i = true -> is_finite (fitness i) = true) kids) /\
    (forall i, best_individual p = Some i \/ worst_individual p = Some i -> up_to c i).
  (** After LimitPopulation. *)
  Definition cut p : Prop :=
    length (filter alive (individuals p)) = n /\ Forall (up_to c) (filter alive (individuals p)) /\
    (forall i, best_individual p = Some i \/ worst_individual p = Some i -> up_to c i).

  Lemma w_emit e : wfine e -> hoare wall (emit e) (fun _ => wall) wall.
  Proof. intros He h u H. simpl. apply Forall_app. auto. Qed.

  Lemma w_call {A} (rec : A -> ga_call T) (m : comp U A) (R : A -> Prop) :
    (forall a u u', m u = (Ret a, u') -> R a) ->
    hoare wall (call_comp rec m) (fun a h u => wall h u /\ R a) wall.
  Proof.
    intros HR. unfold call_comp.
    eapply hoare_mbind with (R := fun a h u => wall h u /\ R a).
    - apply hoare_call; auto. intros h u a u' H Hc. split; eauto.
    - intros a. eapply hoare_mbind with (R := fun _ h u => wall h u /\ R a).
      + intros h u [H1 H2]. simpl. split; auto. apply Forall_app. split; [exact H1|]. constructor; [exact I|constructor].
      + intros ?x. apply (hoare_mret a (fun a h u => wall h u /\ R a)).
  Qed.

  Lemma w_goal x (R : f64 -> Prop) : (forall u v u', ga_goal cfg x u = (Ret v, u') -> R v) ->
    hoare wall (call_goal (ga_goal cfg) x) (fun v h u => wall h u /\ R v) wall.
  Proof.
    intros HR. unfold call_goal. eapply hoare_mbind; [apply w_emit; exact I|].
    intros ?x. eapply hoare_mbind with (R := fun v h u => wall h u /\ R v).
    - apply hoare_call; auto. intros h u a u' H Hc. split; eauto.
    - intros v. eapply hoare_mbind with (R := fun _ h u => wall h u /\ R v).
      + intros h u [H1 H2]. simpl. split; auto. apply Forall_app. split; [exact H1|]. constructor; [exact I|constructor].
      + intros ?x. apply (hoare_mret v (fun v h u => wall h u /\ R v)).
  Qed.

  Lemma w_append p xs : hoare (fun h u => wall h u /\ grown p) (pop_append cfg p xs) (fun p' h u => wall h u /\ grown p') wall.
  Proof.
    unfold pop_append. apply (hoare_mfold _ _ (fun p' h u => wall h u /\ grown p')). intros q x _ h u [H Wq].
    unfold pop_push.
    assert (G : hoare wall (v <- call_goal (ga_goal cfg) x ;; mret (set_individuals q (individuals q ++ [Individual x v true])))
      (fun p' h u => wall h u /\ grown p') wall).
    { eapply hoare_mbind; [apply (w_goal x (fun _ => True)); auto|]. intros v.
      eapply hoare_pre; [apply (hoare_mret _ (fun p' h u => wall h u /\ grown p'))|]. intros h' u' [H' _]. split; [exact H'|].
      destruct Wq as [(kids & old & E & L & F) B]. split; [|exact B].
      exists (kids ++ [Individual x v true]), old. cbn [set_individuals individuals]. rewrite E, app_assoc. auto. }
    exact (G h u H).
  Qed.

  (** The first population. *)
  Definition growing (k : nat) p : Prop :=
    length (individuals p) = k /\ Forall (fun i => alive i = true /\ up_to c i) (individuals p) /\
    (forall i, best_individual p = Some i \/ worst_individual p = Some i -> up_to c i).
  Lemma w_first p xs : Forall (fun x => forall u v u', ga_goal cfg x u = (Ret v, u') -> is_finite v = true /\ leb v c = true) xs ->
    forall k, growing k p -> hoare wall (pop_append cfg p xs) (fun p' h u => wall h u /\ growing (k + length xs) p') wall.
  Proof.
    unfold pop_append. intros HX. revert p. induction HX as [|x xs Hx _ IH]; intros p k G; cbn [mfold length].
    - rewrite Nat.add_0_r. eapply hoare_pre; [apply (hoare_mret _ (fun p' h u => wall h u /\ growing k p'))|]. intros h u H. exact (conj H G).
    - eapply hoare_mbind with (R := fun p' h u => wall h u /\ growing (S k) p').
      + unfold pop_push. eapply hoare_mbind; [apply (w_goal x _ Hx)|]. intros v.
        eapply hoare_pre; [apply (hoare_mret _ (fun p' h u => wall h u /\ growing (S k) p'))|]. intros h u [H Hv]. split; [exact H|].
        destruct G as (L & F & B). split; [cbn [set_individuals individuals]; rewrite app_length, L; cbn; lia|].
        split; [|exact B]. cbn [set_individuals individuals]. apply Forall_app. split; [exact F|]. constructor; [|constructor]. split; [reflexivity|exact Hv].
      + intros p'. replace (k + S (length xs)) with (S k + length xs) by lia. intros h u [H G']. exact (IH p' (S k) G' h u H).
  Qed.

  Lemma w_loggers k p : hoare (wall_at p) (call_loggers pop_view k (ga_loggers cfg) p) (fun _ => wall_at p) wall.
  Proof.
    intros h0 u0 [H0 W].
    assert (G : hoare wall (call_loggers pop_view k (ga_loggers cfg) p) (fun _ => wall) wall).
    { unfold call_loggers. apply hoare_mfor. intros [i l] _. eapply hoare_mbind.
      - apply w_emit. exact W.
      - intros ?x. apply hoare_call; auto. }
    specialize (G h0 u0 H0). destruct (call_loggers _ _ _ _ u0) as [[[z| |] u'] t]; auto. split; auto.
  Qed.

  Lemma grown_clean p : grown p -> clean (set_individuals p (kill_fitness_nan p)).
  Proof.
    intros [(kids & old & E & L & F) B]. split; [|exact B]. unfold kill_fitness_nan. cbn [set_individuals individuals]. rewrite E, map_app.
    exists (map (fun i => if is_finite (fitness i) then i else kill i) kids), old.
    split; [f_equal; clear - F; induction F as [|i l [A [Fi _]] _ IH]; [reflexivity|]; cbn [map]; now rewrite Fi, IH|].
    split; [exact L|]. split; [exact F|]. clear. induction kids as [|i l IH]; [constructor|]. cbn [map].
    constructor; [|exact IH]. destruct (is_finite (fitness i)) eqn:Fi; [intros _; exact Fi|]. cbn. discriminate.
  Qed.
  Lemma clean_cut p l : clean p -> limit_population n p = Ret l -> cut (set_individuals p l).
  Proof.
    intros [(kids & old & E & L & F & K) B] H. destruct p as [is b w it]. cbn [individuals] in E. subst is.
    destruct (limit_keeps n c old kids b w it Hn L F K) as (l' & E' & C1 & C2). rewrite H in E'. injection E' as <-.
    split; [exact C1|]. split; [exact C2|exact B].
  Qed.
  Lemma cut_full p q : cut p -> update_best_worst (remove_dead p) = Ret q -> full n c (pop_next_iteration q).
  Proof.
    intros (C1 & C2 & B) E. destruct (update_best_worst_spec (remove_dead p)) as [q' [Eq [Ei [_ Ex]]]]. rewrite E in Eq. injection Eq as <-.
    change (individuals (remove_dead p)) with (filter alive (individuals p)) in Ei. rewrite Forall_forall in C2.
    split; [cbn [pop_next_iteration individuals]; now rewrite Ei|].
    split; [cbn [pop_next_iteration individuals]; rewrite Ei; intros i Hi; split; [apply filter_In in Hi; apply Hi|now apply C2]|].
    intros i Hi. unfold extremes in Ex. rewrite Ei in Ex.
    destruct (filter alive (individuals p)) as [|i0 l0] eqn:El; [cbn in C1; lia|].
    destruct Ex as [[b [Eb [kb [Kb _]]]] [w [Ew [kw [Kw _]]]]]. apply nth_error_In in Kb, Kw.
    destruct Hi as [Hi|Hi]; cbn [pop_next_iteration best_individual worst_individual] in Hi; [rewrite Eb in Hi|rewrite Ew in Hi];
      injection Hi as <-; now apply C2.
  Qed.

  Lemma w_iteration p : hoare (wall_at p) (ga_iteration cfg p) (fun p' => wall_at p') wall.
  Proof.
    intros h0 u0 [H0 W]. revert h0 u0 H0.
    match goal with |- forall h u, wall h u -> match ?m u with _ => _ end =>
      change (hoare wall m (fun p' => wall_at p') wall) end.
    unfold ga_iteration.
    eapply hoare_mbind with (R := fun _ => wall).
    { unfold run_pairing. eapply hoare_mbind; [apply w_emit; exact I|]. intros ?x.
      eapply hoare_mbind; [apply (w_call _ _ (fun _ => True)); auto|]. intros pairs.
      eapply hoare_pre.
      - apply (hoare_mfold _ _ (fun _ => wall)). intros acc pair _.
        eapply hoare_mbind with (R := fun _ => wall).
        { apply hoare_pure; auto. }
        intros fam. eapply hoare_mbind with (R := fun _ => wall).
        { intros h u H. pose proof (w_call (CCross fam) (ga_cross cfg fam) (fun _ => True) (fun _ _ _ _ => I) h u H) as G.
          destruct (call_comp _ _ u) as [[[z| |] u'] t]; tauto. }
        intros kids. apply (hoare_mret _ (fun _ => wall)).
      - intros h u [H _]. exact H. }
    intros cs. eapply hoare_mbind with (R := fun _ => wall).
    { intros h u H.
      pose proof (hoare_mmapM (fun c => call_comp (CMutate c) (ga_mutation cfg c)) cs wall (fun _ y => True) wall
        (fun x _ => w_call (CMutate x) (ga_mutation cfg x) (fun _ => True) (fun _ _ _ _ => I)) h u H) as G.
      destruct (mmapM _ _ u) as [[[z| |] u'] t]; tauto. }
    intros ms. eapply hoare_mbind with (R := fun _ => wall).
    { apply (hoare_mfold _ _ (fun _ => wall)). intros xs pb _ h u H.
      assert (G : hoare wall (emit (ESee p) ;;; call_comp (CPreBirth p xs) (pb p xs)) (fun ys h u => wall h u /\ True) wall).
      { eapply hoare_mbind; [apply w_emit; exact I|]. intros ?x. apply w_call. auto. }
      specialize (G h u H). destruct ((emit (ESee p) ;;; call_comp (CPreBirth p xs) (pb p xs)) u) as [[[z| |] u'] t]; tauto. }
    intros born. eapply hoare_mbind with (R := fun p1 h u => wall h u /\ grown p1).
    { intros h u H. apply w_append. split; [exact H|]. destruct W as (W1 & W2 & W3). split; [|exact W3].
      exists [], (individuals p). rewrite app_nil_r. split; [reflexivity|]. split; [exact W1|]. now apply Forall_forall. }
    intros p1. eapply hoare_mbind with (R := fun p2 h u => wall h u /\ cut p2).
    { rewrite Hsel. cbn [mfold]. intros h0 u0 [H0 G1]. revert h0 u0 H0.
      match goal with |- forall h u, wall h u -> match ?m u with _ => _ end => change (hoare wall m (fun p' h u => wall h u /\ cut p') wall) end.
      eapply hoare_mbind with (R := fun q h u => wall h u /\ clean q).
      { eapply hoare_mbind; [apply w_emit; exact I|]. intros ?x.
        eapply hoare_mbind; [apply (w_call _ _ (fun l => l = kill_fitness_nan p1)); intros l u1 u' E; unfold cret in E; injection E; auto|].
        intros l. eapply hoare_pre; [apply (hoare_mret _ (fun q h u => wall h u /\ clean q))|]. intros h u [H ->]. split; [exact H|].
        now apply grown_clean. }
      intros q. intros h0 u0 [H0 Cq]. revert h0 u0 H0.
      match goal with |- forall h u, wall h u -> match ?m u with _ => _ end => change (hoare wall m (fun p' h u => wall h u /\ cut p') wall) end.
      eapply hoare_mbind with (R := fun q h u => wall h u /\ cut q).
      { eapply hoare_mbind; [apply w_emit; exact I|]. intros ?x.
        eapply hoare_mbind; [apply (w_call _ _ (fun l => limit_population n q = Ret l)); intros l u1 u' E; unfold cpure in E; injection E; auto|].
        intros l. eapply hoare_pre; [apply (hoare_mret _ (fun q h u => wall h u /\ cut q))|]. intros h u [H E]. split; [exact H|].
        exact (clean_cut q l Cq E). }
      intros q'. apply (hoare_mret _ (fun q h u => wall h u /\ cut q)). }
    intros p2. eapply hoare_mbind with (R := fun p3 h u => wall h u /\ full n c (pop_next_iteration p3)).
    { apply hoare_pure; [|intros h u [H _]; auto]. intros h u p3 [H C2] E. split; [exact H|]. exact (cut_full p2 p3 C2 E). }
    intros p3. cbn zeta. eapply hoare_mbind with (R := fun _ => wall_at (pop_next_iteration p3)).
    { apply w_loggers. }
    intros ?x. apply (hoare_mret _ (fun p' => wall_at p')).
  Qed.

  Lemma w_next fuel p : hoare (wall_at p) (ga_next_iterations cfg fuel p)
    (fun r h u => wall_at (snd r) h u /\ forall x v, fst r = Some (x, v) -> is_finite v = true /\ leb v c = true) wall.
  Proof.
    unfold ga_next_iterations. eapply hoare_mbind; [apply w_loggers|]. intros ?x.
    eapply hoare_mbind with (R := fun p' => wall_at p').
    - revert p. induction fuel as [|fuel IH]; intros p; simpl.
      + eapply hoare_pre; [apply hoare_nofuel|]. intros h u [H _]. exact H.
      + eapply hoare_mbind with (R := fun _ => wall_at p).
        * unfold call_stop. eapply hoare_mbind with (R := fun b => wall_at p).
          -- apply hoare_call; [|intros h u u' [H _]; auto]. auto.
          -- intros b. eapply hoare_mbind with (R := fun _ => wall_at p).
             ++ intros h u [H1 H2]. simpl. split; auto. apply Forall_app. split; [exact H1|].
                constructor; [exact H2|constructor].
             ++ intros ?x. apply (hoare_mret _ (fun _ => wall_at p)).
        * intros [|]; [apply (hoare_mret _ (fun p' => wall_at p'))|].
          eapply hoare_mbind; [apply w_iteration|]. intros p'. apply IH.
    - intros p'. eapply hoare_mbind; [apply w_loggers|]. intros ?x.
      eapply hoare_pre; [apply (hoare_mret (_, p') (fun r h u => wall_at (snd r) h u /\ forall x v, fst r = Some (x, v) -> is_finite v = true /\ leb v c = true))|].
      intros h u H. split; [exact H|]. cbn [fst]. intros y v E. destruct (best_individual p') as [b|] eqn:Eb; [|discriminate E].
      injection E as _ <-. apply (proj2 (proj2 (proj2 H))). left. exact Eb.
  Qed.

  Lemma wall_reported t : Forall wfine t -> forall p, reported t p -> full n c p.
  Proof.
    intros H p [[b Hb]|[k [i Hk]]]; rewrite Forall_forall in H; [exact (H _ Hb)|exact (H _ Hk)].
  Qed.

  Lemma worst_next fuel p u o u' t : full n c p -> ga_next_iterations cfg fuel p u = (o, u', t) ->
    (forall q, reported t q -> full n c q) /\
    forall r p', o = Ret (r, p') -> full n c p' /\ forall x v, r = Some (x, v) -> is_finite v = true /\ leb v c = true.
  Proof.
    intros W H. pose proof (w_next fuel p [] u (conj (Forall_nil _) W)) as G. rewrite H in G. cbn [app] in G.
    destruct o as [[r p']| |].
    - destruct G as [[G1 G2] G3]. split; [now apply wall_reported|]. intros r' p'' E. injection E as <- <-. auto.
    - split; [now apply wall_reported|]. intros r p' E. discriminate E.
    - split; [now apply wall_reported|]. intros r p' E. discriminate E.
  Qed.

  Lemma worst_find fuel p u o u' t :
    (forall xs u1, ga_creator cfg u = (Ret xs, u1) -> length xs = n /\
       Forall (fun x => forall u v u', ga_goal cfg x u = (Ret v, u') -> is_finite v = true /\ leb v c = true) xs) ->
    ga_find_min cfg fuel p u = (o, u', t) ->
    (forall q, reported t q -> full n c q) /\
    forall r p', o = Ret (r, p') -> full n c p' /\ forall x v, r = Some (x, v) -> is_finite v = true /\ leb v c = true.
  Proof.
    intros Hc H.
    assert (G : hoare (fun h v => wall h v /\ v = u) (ga_find_min cfg fuel p)
      (fun r h u => wall_at (snd r) h u /\ forall x v, fst r = Some (x, v) -> is_finite v = true /\ leb v c = true) wall).
    { unfold ga_find_min. cbv zeta.
      eapply hoare_mbind with (R := fun xs h u => wall h u /\ length xs = n /\
         Forall (fun x => forall u v u', ga_goal cfg x u = (Ret v, u') -> is_finite v = true /\ leb v c = true) xs).
      { intros h v [H0 ->]. unfold call_comp, mbind, call, emit, mret.
        destruct (ga_creator cfg u) as [[xs| |] u1] eqn:E; cbn; try (now rewrite app_nil_r).
        split; [|eapply Hc; reflexivity]. apply Forall_app. split; [exact H0|]. constructor; [exact I|constructor]. }
      intros xs. eapply hoare_mbind with (R := fun p1 => wall_at p1).
      { intros h v (H1 & L & F).
        assert (G0 : growing 0 (pop_reset p)).
        { split; [reflexivity|]. split; [constructor|]. intros i [Hi|Hi]; discriminate Hi. }
        pose proof (w_first (pop_reset p) xs F 0 G0 h v H1) as G. cbn [Nat.add] in G. rewrite L in G.
        destruct (pop_append cfg (pop_reset p) xs v) as [[[q| |] u1] t1]; auto. destruct G as [G1 (G2 & G3 & G4)].
        split; [exact G1|]. split; [exact G2|]. split; [now apply Forall_forall|exact G4]. }
      intros p1. eapply hoare_mbind; [apply w_loggers|]. intros ?x. apply w_next. }
    specialize (G [] u (conj (Forall_nil _) eq_refl)). rewrite H in G. cbn [app] in G.
    destruct o as [[r p']| |].
    - destruct G as [[G1 G2] G3]. split; [now apply wall_reported|]. intros r' p'' E. injection E as <- <-. auto.
    - split; [now apply wall_reported|]. intros r p' E. discriminate E.
    - split; [now apply wall_reported|]. intros r p' E. discriminate E.
  Qed.
End Worst.
