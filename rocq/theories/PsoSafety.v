(** * Invariants of the particle swarm optimizer that hold whatever the outcome *)

From Coq Require Import List Arith ZArith Bool Lia.
From Verif Require Import Base Logic FloatModel GaModel PsoModel SpecGa SpecPso FloatFacts GaBest
  GaFacts GaSafety GaTheorems PsoFacts PsoRuns.
Import ListNotations.

(** A loop invariant that knows what has been done. *)
Lemma hoare_mfold_ix {U E A S} (f : S -> A -> M U E S) l
  (I : list A -> S -> list E -> U -> Prop) X s :
  (forall done x rest s, l = done ++ x :: rest ->
     hoare (I done s) (f s x) (I (done ++ [x])) X) ->
  hoare (I [] s) (mfold f l s) (I l) X.
Proof.
  intros H.
  assert (G : forall todo done s, l = done ++ todo ->
    hoare (I done s) (mfold f todo s) (I (done ++ todo)) X).
  { induction todo as [|x todo IH]; intros done s0 El; simpl.
    - rewrite app_nil_r. apply hoare_mret.
    - eapply hoare_mbind; [eapply H; exact El|]. intros s1.
      replace (done ++ x :: todo) with ((done ++ [x]) ++ todo) by (rewrite <- app_assoc; reflexivity).
      apply IH. rewrite <- app_assoc. exact El. }
  apply (G l [] s eq_refl).
Qed.

Section Trace.
  Context {T : Type}.
  Notation ev := (pso_event T).
  Implicit Types (h t : list ev) (s : swarm T) (e : ev).

  Definition trace_ok h : Prop := swarms_valued h /\ reports_extremes h /\ never_worse h.
  Definition outdoes h s : Prop := forall e q, In e h -> shows e = Some q -> no_worse q s.

  Lemma no_worse_refl s : no_worse s s.
  Proof. split; intros b ->; eexists; split; eauto; apply le_fin_refl. Qed.
  Lemma no_worse_trans s1 s2 s3 : no_worse s1 s2 -> no_worse s2 s3 -> no_worse s1 s3.
  Proof.
    intros [A1 A2] [B1 B2]. split.
    - intros b1 E1. destruct (A1 b1 E1) as [b2 [E2 L2]]. destruct (B1 b2 E2) as [b3 [E3 L3]].
      exists b3. split; auto. eapply le_fin_trans; eauto.
    - intros b1 E1. destruct (A2 b1 E1) as [b2 [E2 L2]]. destruct (B2 b2 E2) as [b3 [E3 L3]].
      exists b3. split; auto. eapply le_fin_trans; eauto.
  Qed.

  Lemma particle_valued_app h t p : particle_valued h p -> particle_valued (h ++ t) p.
  Proof.
    unfold particle_valued, evaluated. intros [A [B C]]. repeat split; apply in_or_app; auto.
  Qed.
  Lemma swarm_valued_app h t s : swarm_valued h s -> swarm_valued (h ++ t) s.
  Proof. intros H p Hp. apply particle_valued_app. auto. Qed.

  Lemma trace_ok_nil : trace_ok [].
  Proof.
    split; [|split].
    - intros [|] ? ? ? E; discriminate.
    - intros [|] ? ? ? E; discriminate.
    - intros [|] ? ? ? ? ? ? E; discriminate.
  Qed.

  Lemma reported_shows e s : reported [e] s -> shows e = Some s.
  Proof. intros [[b [E|[]]]|[k [i [E|[]]]]]; subst; reflexivity. Qed.

  (** Appending an event. *)
  Lemma trace_ok_snoc h e : trace_ok h ->
    (forall s, shows e = Some s -> swarm_valued h s /\ outdoes h s) ->
    (forall s, reported [e] s -> extremes_of h s) ->
    trace_ok (h ++ [e]).
  Proof.
    intros [H1 [H2 H3]] Hs Hr. split; [|split].
    - intros t1 e' t2 s E He. apply snoc_split in E.
      destruct E as [[-> [-> ->]]|[t2' [-> ->]]]; [apply Hs; auto|]. eapply H1; eauto.
    - intros t1 e' t2 s E He. apply snoc_split in E.
      destruct E as [[-> [-> ->]]|[t2' [-> ->]]]; [auto|]. eapply H2; eauto.
    - intros t1 e1 t2 e2 t3 s1 s2 E He1 He2.
      assert (E' : h ++ [e] = (t1 ++ e1 :: t2) ++ e2 :: t3) by (rewrite E, <- app_assoc; reflexivity).
      apply snoc_split in E'. destruct E' as [[-> [<- ->]]|[t3' [-> ->]]].
      + destruct (Hs _ He2) as [_ Ho]. eapply Ho; [|exact He1]. apply in_or_app. right. now left.
      + eapply H3; [|exact He1|exact He2]. rewrite <- app_assoc. simpl. reflexivity.
  Qed.

  Definition hidden e : Prop := shows e = None.
  Lemma trace_ok_hidden h e : trace_ok h -> hidden e -> trace_ok (h ++ [e]).
  Proof.
    intros H He. apply trace_ok_snoc; auto.
    - intros s E. unfold hidden in He. congruence.
    - intros s E. apply reported_shows in E. unfold hidden in He. congruence.
  Qed.
  Lemma outdoes_hidden h e s : outdoes h s -> hidden e -> outdoes (h ++ [e]) s.
  Proof.
    intros H He e' q Hin Hq. apply in_app_or in Hin. destruct Hin as [Hin|[<-|[]]]; [eauto|].
    unfold hidden in He. congruence.
  Qed.
  Lemma outdoes_self h e s : outdoes h s -> shows e = Some s -> outdoes (h ++ [e]) s.
  Proof.
    intros H He e' q Hin Hq. apply in_app_or in Hin. destruct Hin as [Hin|[<-|[]]]; [eauto|].
    replace q with s by congruence. apply no_worse_refl.
  Qed.

  Lemma extremes_of_answers h h' s : answers h' = answers h -> extremes_of h s -> extremes_of h' s.
  Proof. unfold extremes_of. now intros ->. Qed.
End Trace.

Section Safety.
  Context {U T : Type} {FT : FloatTrait T}.
  Variable cfg : pso_config U T.
  Notation ev := (pso_event T).
  Implicit Types (h t : list ev) (s : swarm T) (u : U).

  Definition okt h (u : U) : Prop := trace_ok h.
  Definition mid s h (u : U) : Prop := trace_ok h /\ swarm_valued h s /\ outdoes h s.
  Definition rest s h (u : U) : Prop := mid s h u /\ extremes_of h s.

  (** [as0]: the answers so far. *)
  Definition mida (as0 : list (list T * f64)) s h (u : U) : Prop := mid s h u /\ answers h = as0.

  Lemma mid_hidden as0 s e h u : mida as0 s h u -> hidden e -> (forall x v, e <> EValue x v) ->
    mida as0 s (h ++ [e]) u.
  Proof.
    intros [[H1 [H2 H3]] H4] He Hv. split; [split; [|split]|].
    - now apply trace_ok_hidden.
    - now apply swarm_valued_app.
    - now apply outdoes_hidden.
    - rewrite answers_app, H4. destruct e; simpl; try apply app_nil_r. exfalso. eapply Hv; eauto.
  Qed.

  Lemma mid_call {A} as0 s (rec : A -> pso_call T) (c : comp U A) :
    hoare (mida as0 s) (call_comp rec c) (fun _ => mida as0 s) okt.
  Proof.
    unfold call_comp. eapply hoare_mbind with (R := fun _ => mida as0 s).
    - apply hoare_call; auto. intros ? ? ? [[H _] _] _. exact H.
    - intros a. eapply hoare_mbind with (R := fun _ => mida as0 s).
      + eapply hoare_pre; [apply (hoare_emit _ (fun _ => mida as0 s))|].
        intros h u H. apply mid_hidden; auto; [reflexivity|discriminate].
      + intros ?x. apply (hoare_mret a (fun _ => mida as0 s)).
  Qed.

  Lemma mid_chain as0 s mk (fs : list (list T -> comp U (list T))) x :
    hoare (mida as0 s) (mfold (fun v f => call_comp (mk v) (f v)) fs x) (fun _ => mida as0 s) okt.
  Proof. apply hoare_mfold with (I := fun _ => mida as0 s). intros. apply mid_call. Qed.

  Lemma mid_see as0 s : hoare (mida as0 s) (emit (ESee s)) (fun _ => mida as0 s) okt.
  Proof.
    eapply hoare_pre; [apply (hoare_emit _ (fun _ => mida as0 s))|].
    intros h u [[H1 [H2 H3]] H4]. split; [split; [|split]|].
    - apply trace_ok_snoc; auto.
      + intros q E. inversion E; subst. auto.
      + intros q [[b [E|[]]]|[k [i [E|[]]]]]; discriminate.
    - now apply swarm_valued_app.
    - now apply outdoes_self.
    - rewrite answers_app, H4. apply app_nil_r.
  Qed.

  Lemma mid_goal as0 s x :
    hoare (mida as0 s) (call_goal (pso_goal cfg) x)
      (fun v h u => mida (as0 ++ [(x, v)]) s h u /\ evaluated h x v) okt.
  Proof.
    unfold call_goal. eapply hoare_mbind with (R := fun _ => mida as0 s).
    - eapply hoare_pre; [apply (hoare_emit _ (fun _ => mida as0 s))|].
      intros h u H. apply mid_hidden; auto; [reflexivity|discriminate].
    - intros ?x. eapply hoare_mbind with (R := fun _ => mida as0 s).
      + apply hoare_call; auto. intros ? ? ? [[H _] _] _. exact H.
      + intros v. eapply hoare_mbind with
          (R := fun _ h u => mida (as0 ++ [(x, v)]) s h u /\ evaluated h x v).
        * eapply hoare_pre; [apply (hoare_emit _
            (fun _ h u => mida (as0 ++ [(x, v)]) s h u /\ evaluated h x v))|].
          intros h u [[H1 [H2 H3]] H4]. split; [split; [split; [|split]|]|].
          -- now apply trace_ok_hidden.
          -- now apply swarm_valued_app.
          -- now apply outdoes_hidden.
          -- now rewrite answers_app, H4.
          -- apply in_or_app. right. now left.
        * intros ?x. apply (hoare_mret v (fun v h u => mida (as0 ++ [(x, v)]) s h u /\ evaluated h x v)).
  Qed.

  Lemma rest_loggers k s :
    hoare (rest s) (call_loggers swarm_view k (pso_loggers cfg) s) (fun _ => rest s) okt.
  Proof.
    unfold call_loggers. apply hoare_mfor. intros [i l] _.
    eapply hoare_mbind with (R := fun _ => rest s).
    - eapply hoare_pre; [apply (hoare_emit _ (fun _ => rest s))|].
      intros h u [[H1 [H2 H3]] H4]. split; [split; [|split]|].
      + apply trace_ok_snoc; auto.
        * intros q E. inversion E; subst. auto.
        * intros q Hq. apply reported_shows in Hq. inversion Hq; subst. auto.
      + now apply swarm_valued_app.
      + now apply outdoes_self.
      + eapply extremes_of_answers; [|exact H4]. rewrite answers_app. apply app_nil_r.
    - intros ?x. apply hoare_call; auto. intros ? ? ? [[H _] _] _. exact H.
  Qed.

  Lemma moved_valued h p p' v x y : moved p p' v x y -> particle_valued h p -> evaluated h x y ->
    particle_valued h p'.
  Proof.
    intros [_ [E1 [E2 [M1 M2]]]] [A [B C]] Hx. unfold particle_valued. rewrite E1, E2.
    split; auto. split.
    - apply first_least_in in M1. destruct M1 as [M|[M|[]]]; unfold best_memory in M;
        injection M as K1 K2; rewrite <- K1, <- K2; auto.
    - destruct M2 as [k [M2 _]]. apply nth_error_In in M2.
      destruct M2 as [M|[M|[]]]; unfold worst_memory in M;
        injection M as K1 K2; rewrite <- K1, <- K2; auto.
  Qed.

  (** One particle: nothing but it changes, one answer is added. *)
  Definition turn as0 (s0 : swarm T) (n : nat) s h u : Prop :=
    mida (as0 ++ map place (firstn n (particles s))) s h u /\
    best_particle s = best_particle s0 /\ worst_particle s = worst_particle s0 /\
    sw_iteration s = sw_iteration s0 /\ length (particles s) = length (particles s0).

  Lemma ok_particle as0 s0 n s :
    hoare (turn as0 s0 n s) (pso_particle cfg s n) (turn as0 s0 (n + 1)) okt.
  Proof.
    intros h0 u0 [Hm [Hb [Hw [Hi Hl]]]].
    assert (G : hoare (mida (as0 ++ map place (firstn n (particles s))) s) (pso_particle cfg s n)
      (fun s' h u => turn as0 s0 (n + 1) s' h u) okt).
    2:{ exact (G h0 u0 Hm). }
    set (as1 := as0 ++ map place (firstn n (particles s))) in *. clear Hm h0 u0.
    unfold pso_particle.
    eapply hoare_mbind with (R := fun p h u => mida as1 s h u /\ nth_error (particles s) n = Some p).
    { apply hoare_pure.
      - intros h u p H E. split; auto. now apply index_ret in E.
      - intros h u [[H _] _]. exact H. }
    intros p. 
    assert (G : nth_error (particles s) n = Some p -> hoare (mida as1 s)
       (emit (ESee s) ;;;
        v0 <- call_comp (PCalc s p) (pso_calc cfg s p) ;;
        new_velocity <- mfold (fun v post_velocity => call_comp (PPostVelocity v) (post_velocity v))
                          (pso_post_velocity cfg) v0 ;;
        let p1 := set_velocity p new_velocity in
        let x0 := map (fun cv => fadd (fst cv) (snd cv)) (combine (coordinates p1) (velocity p1)) in
        new_coordinates <- run_post_move cfg x0 ;;
        new_value <- call_goal (pso_goal cfg) new_coordinates ;;
        ps <- pure (update (particles s) n (move_to p1 new_coordinates new_value)) ;;
        mret (set_particles s ps)) (turn as0 s0 (n + 1)) okt).
    2:{ intros h u [H E]. exact (G E h u H). }
    intros Ep. eapply hoare_mbind; [apply mid_see|]. intros ?x.
    eapply hoare_mbind; [apply mid_call|]. intros v0. cbn beta.
    eapply hoare_mbind; [apply mid_chain|]. intros v. cbn beta zeta.
    eapply hoare_mbind; [apply (mid_chain as1 s PPostMove)|]. intros x1. cbn beta.
    eapply hoare_mbind; [apply mid_goal|]. intros y. cbn beta.
    set (p' := move_to (set_velocity p v) x1 y).
    eapply hoare_mbind with (R := fun ps h u =>
      mida (as1 ++ [(x1, y)]) s h u /\ evaluated h x1 y /\ update (particles s) n p' = Ret ps).
    { apply hoare_pure.
      - intros h u ps [H E1] E2. auto.
      - intros h u [[[H _] _] _]. exact H. }
    intros ps. eapply hoare_pre; [apply (hoare_mret _ (turn as0 s0 (n + 1)))|].
    intros h u [[[H1 [H2 H3]] H4] [H5 H6]].
    pose proof (moved_spec p v x1 y) as Hmv. fold p' in Hmv.
    pose proof H6 as Hup. apply update_ret in Hup. destruct Hup as [Hn [Hlen [Hn' _]]].
    pose proof (update_firstn_skipn _ _ _ _ H6) as Hps.
    split; [|simpl; repeat split; congruence].
    assert (Hp' : place p' = (x1, y)) by reflexivity.
    split; [split; [exact H1|split]|].
    - intros q Hq. destruct Hq as [Hq|Hq].
      + simpl in Hq. rewrite Hps in Hq. apply in_app_or in Hq. destruct Hq as [Hq|[<-|Hq]].
        * apply H2. left. rewrite <- (firstn_skipn n). apply in_or_app; auto.
        * eapply moved_valued; eauto. apply H2. left. eapply nth_error_In; eauto.
        * apply H2. left. rewrite <- (firstn_skipn (S n)). apply in_or_app; auto.
      + apply H2. now right.
    - intros e q He Hq. destruct (H3 e q He Hq) as [N1 N2]. split; auto.
    - rewrite H4. simpl. rewrite (Nat.add_comm n 1). cbn [Nat.add].
      rewrite (firstn_snoc _ _ _ Hn'), map_app. unfold as1. rewrite <- app_assoc. simpl.
      rewrite Hp'. f_equal. f_equal. f_equal. rewrite Hps.
      rewrite firstn_app, firstn_firstn, Nat.min_id.
      replace (n - length (firstn n (particles s))) with 0 by (rewrite firstn_length; lia).
      simpl. now rewrite app_nil_r.
  Qed.

  (** Extremes after an iteration. *)
  Lemma extremes_step h0 h s0 s1 s2 s3 :
    extremes_of h0 s0 -> answers h = answers h0 ++ map place (particles s1) ->
    best_particle s1 = best_particle s0 -> worst_particle s1 = worst_particle s0 ->
    update_best_particle s1 = Ret s2 -> update_worst_particle s2 = Ret s3 ->
    extremes_of h s3 /\ no_worse s1 s3.
  Proof.
    intros He Ha Eb Ew U1 U2.
    destruct (update_best_spec s1) as [x [X1 [P1 [W1 [I1 B1]]]]]. rewrite U1 in X1. inversion X1; subst x.
    destruct (update_worst_spec s2) as [x [X2 [P2 [B2 [I2 W2]]]]]. rewrite U2 in X2. inversion X2; subst x.
    clear X1 X2.
    (* the best *)
    assert (HB : match answers h with
                 | [] => best_particle s3 = None
                 | l => exists b, best_particle s3 = Some b /\ first_least snd l (place b) end /\
                 forall b1, best_particle s1 = Some b1 ->
                   exists b2, best_particle s3 = Some b2 /\ le_fin (value b2) (value b1)).
    { assert (Hex : forall b, best_particle s1 = Some b -> exists b2, best_particle s3 = Some b2).
      { intros b Hbb. pose proof (find_best_spec (particles s1)) as Hf.
        destruct (particles s1) as [|p l] eqn:Ep.
        - exists b. rewrite B2. apply B1. rewrite Hbb. apply first_least_one.
        - destruct Hf as [nb [_ Hnb]].
          destruct (first_least_app value [b] (p :: l) b nb (first_least_one value b) Hnb) as [A B].
          destruct (compare_floats (value nb) (value b)) eqn:Ec.
          + exists b. rewrite B2. apply B1. rewrite Hbb. apply B. intros L. apply compare_lt in L. congruence.
          + exists nb. rewrite B2. apply B1. rewrite Hbb. apply A. now apply compare_lt.
          + exists b. rewrite B2. apply B1. rewrite Hbb. apply B. intros L. apply compare_lt in L. congruence. }
      split.
      - rewrite Ha. unfold extremes_of in He.
        destruct (answers h0) as [|a l] eqn:E0.
        + destruct He as [He _]. rewrite He in Eb.
          pose proof (find_best_spec (particles s1)) as Hf.
          destruct (particles s1) as [|p ps] eqn:Ep; simpl.
          * rewrite B2. destruct (best_particle s2) as [b|] eqn:E2; auto. exfalso.
            destruct (B1 b) as [B1' _]. specialize (B1' eq_refl). rewrite Eb in B1'.
            now apply first_least_nil in B1'.
          * destruct Hf as [nb [_ Hnb]]. exists nb. split.
            -- rewrite B2. apply B1. rewrite Eb. exact Hnb.
            -- exact (first_least_map place snd (p :: ps) nb Hnb).
        + destruct He as [[b [Hb Hl]] _]. rewrite Hb in Eb.
          destruct (Hex b Eb) as [b2 Hb2]. simpl. exists b2. split; auto.
          rewrite B2 in Hb2. apply B1 in Hb2. rewrite Eb in Hb2. simpl in Hb2.
          change (a :: l ++ map place (particles s1)) with ((a :: l) ++ map place (particles s1)).
          pose proof (find_best_spec (particles s1)) as Hf.
          destruct (particles s1) as [|p ps] eqn:Ep.
          * simpl in *. rewrite app_nil_r. apply first_least_single in Hb2. now subst.
          * destruct Hf as [nb [_ Hnb]].
            destruct (first_least_app value [b] (p :: ps) b nb (first_least_one value b) Hnb) as [A B].
            pose proof (first_least_map place snd (p :: ps) nb Hnb) as Hnb'.
            destruct (first_least_app snd (a :: l) (map place (p :: ps)) _ _ Hl Hnb') as [A' B'].
            simpl in A, B. change (snd (place nb)) with (value nb) in *. change (snd (place b)) with (value b) in *.
            destruct (compare_floats (value nb) (value b)) eqn:Ec.
            -- assert (L : ~ lt_fin (value nb) (value b)) by (intros L; apply compare_lt in L; congruence).
               rewrite (first_least_unique _ _ _ _ Hb2 (B L)). auto.
            -- assert (L : lt_fin (value nb) (value b)) by now apply compare_lt.
               rewrite (first_least_unique _ _ _ _ Hb2 (A L)). auto.
            -- assert (L : ~ lt_fin (value nb) (value b)) by (intros L; apply compare_lt in L; congruence).
               rewrite (first_least_unique _ _ _ _ Hb2 (B L)). auto.
      - intros b1 Hb1. destruct (Hex b1 Hb1) as [b2 Hb2]. exists b2. split; auto.
        rewrite B2 in Hb2. apply B1 in Hb2. destruct Hb2 as [k [_ [L _]]]. apply L.
        rewrite Hb1. now left. }
    (* the worst *)
    assert (HW : match answers h with
                 | [] => worst_particle s3 = None
                 | l => exists w, worst_particle s3 = Some w /\ greatest snd l (place w) end /\
                 forall w1, worst_particle s1 = Some w1 ->
                   exists w2, worst_particle s3 = Some w2 /\ le_fin (value w1) (value w2)).
    { rewrite W1, P1 in W2 || idtac. unfold renewed_worst in W2. rewrite W1, P1 in W2.
      assert (Hex : forall w, worst_particle s1 = Some w -> exists w2, worst_particle s3 = Some w2 /\
        ((w2 = w /\ forall p, In p (particles s1) -> le_fin (value p) (value w)) \/
         (last_greatest value (particles s1) w2 /\ lt_fin (value w) (value w2)))).
      { intros w Hww. pose proof (find_worst_spec (particles s1)) as Hf.
        destruct (particles s1) as [|p l] eqn:Ep.
        - exists w. split; [apply W2; left; split; auto; intros ? []|]. left. split; auto. intros ? [].
        - destruct Hf as [nw [_ Hnw]].
          assert (Hg := last_greatest_greatest _ _ _ Hnw). destruct Hg as [_ Hg].
          destruct (compare_floats (value nw) (value w)) eqn:Ec.
          + assert (L : ~ lt_fin (value w) (value nw)) by (intros L; apply compare_gt in L; congruence).
            assert (Hall : forall q, In q (p :: l) -> le_fin (value q) (value w)).
            { intros q Hq. eapply le_fin_trans; [apply Hg; auto|]. now apply not_lt_fin. }
            exists w. split; [apply W2; left; auto|left; auto].
          + assert (L : ~ lt_fin (value w) (value nw)) by (intros L; apply compare_gt in L; congruence).
            assert (Hall : forall q, In q (p :: l) -> le_fin (value q) (value w)).
            { intros q Hq. eapply le_fin_trans; [apply Hg; auto|]. now apply not_lt_fin. }
            exists w. split; [apply W2; left; auto|left; auto].
          + assert (L : lt_fin (value w) (value nw)) by now apply compare_gt.
            exists nw. split; [|right; auto]. apply W2. right. split; auto. intros w0 H0. congruence. }
      split.
      - rewrite Ha. unfold extremes_of in He.
        destruct (answers h0) as [|a l] eqn:E0.
        + destruct He as [_ He]. rewrite He in Ew.
          pose proof (find_worst_spec (particles s1)) as Hf.
          destruct (particles s1) as [|p ps] eqn:Ep; simpl.
          * destruct (worst_particle s3) as [w|] eqn:E2; auto. exfalso.
            destruct (W2 w) as [W2' _]. destruct (W2' eq_refl) as [[K _]|[K _]]; [congruence|].
            now apply last_greatest_nil in K.
          * destruct Hf as [nw [_ Hnw]]. exists nw. split.
            -- apply W2. right. split; auto. intros w0 H0. congruence.
            -- apply (greatest_map place snd (p :: ps) nw). now apply last_greatest_greatest.
        + destruct He as [_ [w [Hw Hl]]]. rewrite Hw in Ew.
          destruct (Hex w Ew) as [w2 [Hw2 Hc]]. simpl. exists w2. split; auto.
          change (a :: l ++ map place (particles s1)) with ((a :: l) ++ map place (particles s1)).
          destruct Hc as [[-> Hall]|[Hg L]].
          * destruct Hl as [Hin Hle]. split; [apply in_or_app; auto|].
            intros c Hc. apply in_app_or in Hc. destruct Hc as [Hc|Hc]; auto.
            apply in_map_iff in Hc. destruct Hc as [q [<- Hq]]. apply Hall; auto.
          * apply last_greatest_greatest in Hg. apply (greatest_map place snd) in Hg.
            destruct (greatest_app snd (a :: l) _ _ _ Hl Hg) as [A _]. apply A. exact L.
      - intros w1 Hw1. destruct (Hex w1 Hw1) as [w2 [Hw2 Hc]]. exists w2. split; auto.
        destruct Hc as [[-> _]|[_ L]]; [apply le_fin_refl|now apply lt_le_fin]. }
    destruct HB as [HB1 HB2], HW as [HW1 HW2]. split.
    - unfold extremes_of. destruct (answers h); auto.
    - split; auto.
  Qed.

  Lemma holds_update h s1 s2 s3 :
    update_best_particle s1 = Ret s2 -> update_worst_particle s2 = Ret s3 ->
    swarm_valued h s1 -> swarm_valued h s3.
  Proof.
    intros U1 U2 H.
    destruct (update_best_spec s1) as [x [X1 [P1 [W1 [I1 B1]]]]]. rewrite U1 in X1. inversion X1; subst x.
    destruct (update_worst_spec s2) as [x [X2 [P2 [B2 [I2 W2]]]]]. rewrite U2 in X2. inversion X2; subst x.
    intros p [Hp|[Hp|Hp]].
    - apply H. left. congruence.
    - apply H. rewrite B2 in Hp. apply B1 in Hp. apply first_least_in in Hp. apply in_app_or in Hp.
      destruct Hp as [Hp|Hp]; [|now left]. right. left.
      destruct (best_particle s1); [|destruct Hp]. destruct Hp as [->|[]]. reflexivity.
    - apply H. apply W2 in Hp. destruct Hp as [[Hp _]|[Hp _]].
      + right. right. congruence.
      + left. apply last_greatest_greatest in Hp. destruct Hp as [Hp _]. congruence.
  Qed.

  Lemma ok_iteration s : hoare (rest s) (pso_iteration cfg s) (fun s' => rest s') okt.
  Proof.
    intros h0 u0 [Hm He].
    assert (G : hoare (fun h u => mida (answers h0) s h u) (pso_iteration cfg s) (fun s' => rest s') okt).
    2:{ apply (G h0 u0). split; auto. }
    unfold pso_iteration.
    eapply hoare_mbind with (R := fun s1 => turn (answers h0) s (length (particles s)) s1).
    { intros h u H.
      pose proof (hoare_mfold_ix (pso_particle cfg) (seq 0 (length (particles s)))
        (fun done s1 => turn (answers h0) s (length done) s1) okt s) as F.
      assert (F' : hoare (turn (answers h0) s 0 s)
        (mfold (pso_particle cfg) (seq 0 (length (particles s))) s)
        (turn (answers h0) s (length (particles s))) okt).
      { eapply hoare_conseq; [apply F|..]; auto.
        - intros done n rest0 s1 El.
          assert (n = length done) as ->.
          { assert (K : nth_error (seq 0 (length (particles s))) (length done) = Some n)
              by (rewrite El, nth_error_app2, Nat.sub_diag by lia; reflexivity).
            assert (length done < length (seq 0 (length (particles s)))) by (apply nth_error_Some; congruence).
            rewrite seq_length in *.
            apply (nth_error_nth _ _ 0) in K. rewrite seq_nth in K by auto. lia. }
          rewrite app_length. apply ok_particle.
        - intros s1 h1 u1. now rewrite seq_length. }
      apply (F' h u). split; [|auto]. simpl. now rewrite app_nil_r. }
    intros s1. cbn beta.
    eapply hoare_mbind with (R := fun s2 h u => turn (answers h0) s (length (particles s)) s1 h u /\
                                       update_best_particle s1 = Ret s2).
    { apply hoare_pure; [auto|]. intros h u [[[H _] _] _]. exact H. }
    intros s2. cbn beta.
    eapply hoare_mbind with (R := fun s3 h u => mid s3 h u /\ extremes_of h s3).
    { apply hoare_pure.
      - intros h u s3 [[[[H1 [H2 H3]] H4] [Hb [Hw [_ Hl]]]] U1] U2.
        rewrite firstn_all2 in H4 by lia.
        destruct (extremes_step h0 h s s1 s2 s3 He H4 Hb Hw U1 U2) as [E1 E2].
        split; [split; [auto|split]|auto].
        + eapply holds_update; eauto.
        + intros e q Hin Hq. eapply no_worse_trans; eauto.
      - intros h u [[[[H _] _] _] _]. exact H. }
    intros s3. cbn zeta.
    eapply hoare_mbind with (R := fun _ => rest (swarm_next_iteration s3)).
    { eapply hoare_pre; [apply rest_loggers|]. intros h u [[H1 [H2 H3]] H4]. split; [split; [|split]|]; auto. }
    intros ?x. apply (hoare_mret _ (fun s' => rest s')).
  Qed.

  Lemma ok_loop fuel s : hoare (rest s) (pso_loop cfg fuel s) (fun s' => rest s') okt.
  Proof.
    revert s. induction fuel as [|fuel IH]; intros s; simpl.
    - eapply hoare_pre; [apply hoare_nofuel|]. intros h u [[H _] _]. exact H.
    - eapply hoare_mbind with (R := fun _ => rest s).
      + unfold call_stop. eapply hoare_mbind with (R := fun _ => rest s).
        * apply hoare_call; [auto|]. intros ? ? ? [[H _] _] _; exact H.
        * intros b. eapply hoare_mbind with (R := fun _ => rest s).
          -- eapply hoare_pre; [apply (hoare_emit _ (fun _ => rest s))|].
             intros h u [[H1 [H2 H3]] H4]. split; [split; [|split]|].
             ++ apply trace_ok_snoc; auto.
                ** intros q E. inversion E; subst. auto.
                ** intros q Hq. apply reported_shows in Hq. inversion Hq; subst. auto.
             ++ now apply swarm_valued_app.
             ++ now apply outdoes_self.
             ++ eapply extremes_of_answers; [|exact H4]. rewrite answers_app. apply app_nil_r.
          -- intros ?x. apply (hoare_mret b (fun _ => rest s)).
      + intros [|].
        * apply (hoare_mret s (fun s' => rest s')).
        * eapply hoare_mbind; [apply ok_iteration|]. intros s'. apply IH.
  Qed.

  Lemma ok_next fuel s :
    hoare (rest s) (pso_next_iterations cfg fuel s)
      (fun r h u => rest (snd r) h u /\ fst r = option_map place (best_particle (snd r))) okt.
  Proof.
    unfold pso_next_iterations. eapply hoare_mbind; [apply rest_loggers|]. intros ?x.
    eapply hoare_mbind; [apply ok_loop|]. intros s'.
    eapply hoare_mbind; [apply rest_loggers|]. intros ?x.
    eapply hoare_pre; [apply hoare_mret|]. intros h u H. simpl. split; auto.
  Qed.

  (** ** Making the swarm *)
  Definition silent h (u : U) : Prop := Forall hidden h.
  Lemma silent_emit e : hidden e -> hoare silent (emit e) (fun _ => silent) silent.
  Proof.
    intros He h u H. simpl. apply Forall_app. auto.
  Qed.
  Lemma silent_call {A} (rec : A -> pso_call T) (c : comp U A) :
    hoare silent (call_comp rec c) (fun _ => silent) silent.
  Proof.
    unfold call_comp. eapply hoare_mbind with (R := fun _ => silent).
    - apply hoare_call; auto.
    - intros a. eapply hoare_mbind; [apply silent_emit; reflexivity|].
      intros ?x. apply (hoare_mret a (fun _ => silent)).
  Qed.
  Lemma silent_goal x : hoare silent (call_goal (pso_goal cfg) x) (fun _ => silent) silent.
  Proof.
    unfold call_goal. eapply hoare_mbind; [apply silent_emit; reflexivity|]. intros ?x.
    eapply hoare_mbind with (R := fun _ => silent); [apply hoare_call; auto|]. intros v.
    eapply hoare_mbind; [apply silent_emit; reflexivity|]. intros ?x.
    apply (hoare_mret v (fun _ => silent)).
  Qed.
  Lemma silent_mapM {A B} (f : A -> M U ev B) l :
    (forall x, hoare silent (f x) (fun _ => silent) silent) ->
    hoare silent (mmapM f l) (fun _ => silent) silent.
  Proof.
    intros H. eapply hoare_conseq; [apply (hoare_mmapM f l silent (fun _ _ => True) silent)|..]; auto.
    - intros x _. eapply hoare_conseq; [apply H|..]; auto.
    - intros a h u [K _]. exact K.
  Qed.
  Lemma silent_pure {A} (o : outcome A) : hoare silent (pure o) (fun _ => silent) silent.
  Proof. apply hoare_pure; auto. Qed.

  Lemma silent_renew s : hoare silent (renew_swarm cfg s) (fun _ => silent) silent.
  Proof.
    unfold renew_swarm. eapply hoare_mbind; [apply silent_call|]. intros coords.
    eapply hoare_mbind; [apply silent_call|]. intros vels.
    eapply hoare_mbind; [apply silent_pure|]. intros ?x.
    eapply hoare_mbind; [apply silent_mapM; intros x1; unfold run_post_move;
      apply hoare_mfold with (I := fun _ => silent); intros; apply silent_call|]. intros coords'.
    eapply hoare_mbind; [apply silent_mapM; intros cs|].
    { eapply hoare_mbind; [apply silent_goal|]. intros y. apply (hoare_mret _ (fun _ => silent)). }
    intros ps. apply silent_pure.
  Qed.

  Lemma silent_trace_ok h : Forall hidden h -> trace_ok h.
  Proof.
    intros H. rewrite Forall_forall in H.
    assert (K : forall t1 e t2 s, h = t1 ++ e :: t2 -> shows e = Some s -> False).
    { intros t1 e t2 s E Es. assert (hidden e) by (apply H; rewrite E; apply in_or_app; right; now left).
      unfold hidden in *. congruence. }
    split; [|split].
    - intros t1 e t2 s E Es. exfalso. eauto.
    - intros t1 e t2 s E Es. exfalso. apply reported_shows in Es. eauto.
    - intros t1 e1 t2 e2 t3 s1 s2 E Es1 Es2. exfalso. eauto.
  Qed.

  Lemma start_rest g s u : pso_start (length (pso_post_move cfg)) g s -> Forall hidden g -> rest s g u.
  Proof.
    intros Hs Hh. pose proof (start_read _ _ _ Hs) as [A [_ [_ [_ [_ [R _]]]]]].
    destruct Hs. split.
    - split; [now apply silent_trace_ok|]. split.
      + assert (Hin : forall p, In p (particles s) -> particle_valued g p).
        { intros p Hp. pose proof (R p Hp) as [R1 R2].
          assert (Hpl : evaluated g (coordinates p) (value p)).
          { apply answers_evaluated. rewrite A. change (coordinates p, value p) with (place p). now apply in_map. }
          apply first_least_in in R1. destruct R1 as [R1|[]]. destruct R2 as [[|[|]] [R2 _]]; simpl in R2; try discriminate.
          unfold place, best_memory in R1. unfold place, worst_memory in R2.
          inversion R1 as [[E1 E2]]. inversion R2 as [[E3 E4]].
          split; [auto|split]; [rewrite <- E1, <- E2|rewrite <- E3, <- E4]; auto. }
        intros p [Hp|[Hp|Hp]]; auto.
        * apply start_best in Hp. apply first_least_in in Hp. auto.
        * apply start_worst in Hp. apply last_greatest_greatest in Hp. apply Hin, Hp.
      + intros e q He Eq. rewrite Forall_forall in Hh. specialize (Hh e He). unfold hidden in Hh. congruence.
    - unfold extremes_of. rewrite A. pose proof (find_best_spec (particles s)) as Hf.
      pose proof (find_worst_spec (particles s)) as Hg.
      destruct (particles s) as [|p l] eqn:Ep; simpl.
      + split.
        * destruct (best_particle s) as [b|] eqn:Eb; auto. exfalso.
          apply (first_least_nil value b). now apply start_best.
        * destruct (worst_particle s) as [b|] eqn:Eb; auto. exfalso.
          apply (last_greatest_nil value b). now apply start_worst.
      + destruct Hf as [b [_ Hb]], Hg as [w [_ Hw]]. split.
        * exists b. split; [now apply start_best|]. apply (first_least_map place snd (p :: l) b Hb).
        * exists w. split; [now apply start_worst|]. apply (greatest_map place snd (p :: l) w).
          now apply last_greatest_greatest.
  Qed.

  Lemma ok_find fuel s :
    hoare (fun h _ => h = []) (pso_find_min cfg fuel s)
      (fun r h u => rest (snd r) h u /\ fst r = option_map place (best_particle (snd r))) okt.
  Proof.
    unfold pso_find_min. eapply hoare_mbind with (R := fun s1 => rest s1).
    { intros h u ->. pose proof (silent_renew s [] u (Forall_nil _)) as Hsil.
      destruct (renew_swarm cfg s u) as [[[s1| |] u1] t1] eqn:E; simpl in *.
      - apply start_rest; auto. eapply renew_swarm_ret; eauto.
      - now apply silent_trace_ok.
      - now apply silent_trace_ok. }
    intros s1. eapply hoare_mbind; [apply rest_loggers|]. intros ?x. apply ok_next.
  Qed.
End Safety.
