(** * kill_worst when nobody in the initial kill list is better than the first individual *)

From Coq Require Import List Arith ZArith Bool Lia Reals Lra.
From Verif Require Import Base Logic FloatModel GaModel GaComponents SpecGa SpecSel FloatFacts SelFacts SelProofs.
Import ListNotations.

Lemma seq_prefix a n done m rest : seq a n = done ++ m :: rest -> done = seq a (m - a) /\ a <= m.
Proof.
  revert a done. induction n as [|n IH]; intros a done H; [destruct done; discriminate H|].
  cbn [seq] in H. destruct done as [|d done]; injection H as E H.
  - subst. now rewrite Nat.sub_diag.
  - subst d. destruct (IH _ _ H) as [-> L]. split; [|lia]. replace (m - a) with (S (m - S a)) by lia. reflexivity.
Qed.

Section Right.
  Context {T : Type}.
  Variable l : list (individual T).
  Variable count : nat.
  Hypothesis nonempty : l <> [].
  Hypothesis HN : no_nan l.
  Hypothesis Hfill : forall n, n <> 0 -> alive_at l n = true -> 1 + alives l (seq 1 (n - 1)) < count ->
    (fit l 0 <= fit l n)%R.

  Definition right (done : list nat) (s : @kw_state) : Prop :=
    let '(K, bi, bf) := s in
    is_nan bf = false /\ (forall e, nth_error K bi = Some e -> key bf = fit l e) /\
    (forall n, In n K -> (key bf <= fit l n)%R) /\
    (forall n, cand l done n -> ~ In n K -> (fit l n <= key bf)%R).

  Lemma step_right done n s s' : shape l count done s -> right done s -> done = seq 1 (n - 1) -> n <> 0 -> n < length l ->
    kw_step l count s n = Ret s' -> right (done ++ [n]) s'.
  Proof.
    intros [Hnd Hfrom Hlen Hbest] R Hdone Hn0 Hlt H. destruct s as [[K bi] bf]. cbn [fst snd] in *.
    destruct R as [R1 [R2 [R3 R4]]].
    destruct (index_lt l n Hlt) as [i [Ei Hi]].
    assert (Ha : alive_at l n = alive i) by (unfold alive_at; now rewrite Hi).
    assert (Hfn : fit l n = key (fitness i)) by (unfold fit; now rewrite Hi).
    assert (HKlt : forall m, In m K -> m < length l).
    { intros m Hm. destruct (Hfrom m Hm) as [->|[H1 _]]; [destruct l; [congruence|simpl; lia]|]. subst done. apply in_seq in H1. lia. }
    assert (Hcand' : forall m, cand l (done ++ [n]) m -> cand l done m \/ (m = n /\ alive i = true)).
    { intros m [->|[H1 H2]]; [left; now left|]. apply in_app_or in H1.
      destruct H1 as [H1|[<-|[]]]; [left; right; auto|]. right. split; congruence. }
    unfold kw_step in H. rewrite Ei in H. cbn [obind] in H.
    destruct (alive i) eqn:Al; cbn [negb] in H.
    2: { injection H as <-. split; [auto|]. split; [auto|]. split; [auto|].
         intros m Hm. destruct (Hcand' m Hm) as [Hm'|[_ Hm']]; [auto|discriminate]. }
    assert (Nn : is_nan (fitness i) = false) by (apply (HN n i); auto).
    destruct (length K <? count) eqn:Lt.
    - apply Nat.ltb_lt in Lt. injection H as <-.
      assert (Hf : forall m, In m (K ++ [n]) -> (fit l 0 <= fit l m)%R).
      { intros m Hm. destruct (Nat.eq_dec m 0) as [->|Hm0]; [lra|]. apply Hfill; [exact Hm0| |].
        - apply in_app_or in Hm. destruct Hm as [Hm|[<-|[]]]; [|congruence]. destruct (Hfrom m Hm) as [->|[_ Hx]]; [congruence|exact Hx].
        - assert (Hmn : m <= n).
          { apply in_app_or in Hm. destruct Hm as [Hm|[<-|[]]]; [|lia]. destruct (Hfrom m Hm) as [->|[Hx _]]; [lia|].
            subst done. apply in_seq in Hx. lia. }
          assert (alives l (seq 1 (m - 1)) <= alives l done).
          { subst done. replace (n - 1) with ((m - 1) + (n - m)) by lia. rewrite seq_app. unfold alives. rewrite filter_app, app_length. lia. }
          lia. }
      assert (H0 : In 0 K \/ ~ In 0 K) by (destruct (in_dec Nat.eq_dec 0 K); auto).
      assert (B0 : (key bf <= fit l 0)%R).
      { destruct H0 as [H0|H0]; [auto|]. (* a list that is not full has never been changed *)
        destruct (nth_error K bi) as [e|] eqn:Ee; [|apply nth_error_None in Ee; lia].
        pose proof (R4 0 (or_introl eq_refl) H0) as A. exfalso.
        assert (Hall : forall m, In m K -> m <> 0 /\ In m done /\ alive_at l m = true).
        { intros m Hm. destruct (Hfrom m Hm) as [->|Hx]; [contradiction|]. split; [intros ->; contradiction|exact Hx]. }
        assert (Lc : length K <= alives l done).
        { unfold alives. apply NoDup_incl_length; [exact Hnd|]. intros m Hm. apply filter_In. apply Hall in Hm. tauto. }
        lia. }
      assert (Hge : (fit l 0 <= key bf)%R).
      { destruct (nth_error K bi) as [e|] eqn:Ee; [|apply nth_error_None in Ee; lia].
        rewrite (R2 e eq_refl). apply Hf. apply in_or_app. left. eapply nth_error_In; eauto. }
      assert (Hni : (key bf <= key (fitness i))%R).
      { rewrite <- Hfn. apply Rle_trans with (fit l 0); [exact B0|]. apply Hf. apply in_or_app. right. now left. }
      assert (Lf : ltb (fitness i) bf = false).
      { destruct (ltb (fitness i) bf) eqn:Lf; [|reflexivity]. apply ltb_key in Lf. lra. }
      rewrite Lf. split; [exact R1|]. split; [|split].
      + intros e He. apply R2. rewrite nth_error_app1 in He by exact Hbest. exact He.
      + intros m Hm. apply in_app_or in Hm. destruct Hm as [Hm|[<-|[]]]; [auto|lra].
      + intros m Hm Hnin. destruct (Hcand' m Hm) as [Hm'|[-> _]].
        * apply R4; [exact Hm'|]. intros Hx. apply Hnin. apply in_or_app. auto.
        * destruct Hnin. apply in_or_app. right. now left.
    - destruct (ltb bf (fitness i)) eqn:Lf.
      + destruct (update_spec K bi n) as [[K' [EK _]] _]; [auto|].
        rewrite EK in H. cbn [obind] in H.
        destruct (update_ret _ _ _ _ EK) as [_ [LK _]].
        assert (HK' : forall m, In m K' -> m = n \/ In m K) by (intros m; eapply update_in; eauto).
        destruct (rescan_spec l K') as [bi' [bf' [Er [Hb' [[nb [ib [Hnb [Hib Hbf']]]] Hmin]]]]].
        { intros ->. simpl in LK. lia. }
        { intros m Hm. destruct (HK' m Hm) as [->|Hx]; auto. }
        rewrite Er in H. injection H as <-.
        assert (HKn : forall m j, In m K' -> nth_error l m = Some j -> is_nan (fitness j) = false).
        { intros m j Hm Hj. apply (HN m j Hj). destruct (HK' m Hm) as [->|Hx].
          - left. congruence.
          - destruct (Hfrom m Hx) as [->|[_ H2]]; auto. left. unfold alive_at in H2. now rewrite Hj in H2. }
        apply ltb_key in Lf. destruct Lf as [Nbf [Ni Lf]].
        assert (Hmin' : forall m, In m K' -> (key bf' <= fit l m)%R).
        { intros m Hm. unfold fit. destruct (nth_error l m) as [j|] eqn:Ej.
          - apply (Hmin HKn m j); auto.
          - apply nth_error_None in Ej. destruct (HK' m Hm) as [->|Hx]; [lia|]. specialize (HKlt m Hx). lia. }
        destruct (nth_error K bi) as [old|] eqn:Eold; [|apply nth_error_None in Eold; lia].
        assert (Hbfb : key bf' = fit l nb) by (unfold fit; rewrite Hib; now subst).
        assert (Hnb' : In nb K') by (eapply nth_error_In; eauto).
        assert (Hup : (key bf <= key bf')%R).
        { rewrite Hbfb. destruct (HK' nb Hnb') as [->|Hx]; [lra|auto]. }
        split; [subst; eapply HKn; eauto|]. split; [intros e He; congruence|]. split; [exact Hmin'|].
        intros m Hm Hnin. destruct (Hcand' m Hm) as [Hm'|[-> _]].
        * destruct (in_dec Nat.eq_dec m K) as [HmK|HmK].
          -- destruct (update_in_old _ _ _ _ _ m EK Eold HmK) as [->|?]; [|contradiction].
             rewrite <- (R2 old eq_refl). exact Hup.
          -- specialize (R4 m Hm' HmK). lra.
        * destruct Hnin. eapply update_in_new; eauto.
      + injection H as <-. apply ltb_false in Lf; auto. split; [auto|]. split; [auto|]. split; [auto|].
        intros m Hm Hnin. destruct (Hcand' m Hm) as [Hm'|[-> _]]; [auto|lra].
  Qed.

  Lemma scan_right : exists K l', kill_worst l count = Ret l' /\ marked l K l' /\
    exists bf, (forall n, In n K -> (bf <= fit l n)%R) /\
      forall n, n < length l -> (n = 0 \/ alive_at l n = true) -> ~ In n K -> (fit l n <= bf)%R.
  Proof.
    destruct (index_lt l 0) as [i0 [E0 H0]]; [destruct l; [congruence|simpl; lia]|].
    assert (F0 : fit l 0 = key (fitness i0)) by (unfold fit; now rewrite H0).
    destruct (ofold_total (kw_step l count) (fun done s => shape l count done s /\ right done s)
      (seq 1 (length l - 1)) ([0], 0, fitness i0)) as [s [Es [S1 S2]]].
    - intros done n rest s Hs [I1 I2]. destruct (seq_prefix _ _ _ _ _ Hs) as [Hd Hn1].
      assert (Hin : In n (seq 1 (length l - 1))) by (rewrite Hs; apply in_or_app; right; now left). apply in_seq in Hin.
      assert (Hlt : forall m, In m done -> m < length l) by (intros m Hm; rewrite Hd in Hm; apply in_seq in Hm; lia).
      assert (Hnin : ~ In n done) by (rewrite Hd; intros Hm; apply in_seq in Hm; lia).
      destruct (kw_step_spec l count nonempty done n s I1) as [s' [E [Sh _]]]; auto; try lia.
      { intros _. destruct s as [[K bi] bf]. destruct I1 as [A B C D]. cbn [fst snd] in *. destruct I2 as [R1 [R2 [R3 R4]]].
        destruct (in_dec Nat.eq_dec 0 K) as [HK|HK].
        - destruct (le_lt_dec count (length K)) as [Hc|Hc].
          + right. repeat split; auto. exists 0. split; [exact HK|lra].
          + left. split; [exact HK|].
            assert (Hf : forall m, In m K -> (fit l 0 <= fit l m)%R).
            { intros m Hm. destruct (Nat.eq_dec m 0) as [->|Hm0]; [lra|]. destruct (B m Hm) as [->|[Hx Hy]]; [congruence|].
              apply Hfill; auto.
              assert (Hmn : m < n) by (rewrite Hd in Hx; apply in_seq in Hx; lia).
              assert (alives l (seq 1 (m - 1)) <= alives l done).
              { rewrite Hd. replace (n - 1) with ((m - 1) + (n - m)) by lia. rewrite seq_app. unfold alives. rewrite filter_app, app_length. lia. }
              lia. }
            assert (Eb : key bf = fit l 0).
            { apply Rle_antisym; [auto|]. destruct (nth_error K bi) as [e|] eqn:Ee; [|apply nth_error_None in Ee; lia].
              rewrite (R2 e eq_refl). apply Hf. eapply nth_error_In; eauto. }
            split; [exact Eb|]. split; [exact R1|]. split; [intros e He; rewrite <- (R2 e He), Eb; lra|].
            intros m Hm Hx. rewrite <- Eb. auto.
        - right. assert (Lc : length K <= alives l done).
          { unfold alives. apply NoDup_incl_length; [exact A|]. intros m Hm. apply filter_In.
            destruct (B m Hm) as [->|Hx]; [contradiction|exact Hx]. }
          split; [lia|]. split; [exact R1|]. split; [exact R2|]. split; [exact R3|]. split.
          + destruct (nth_error K bi) as [e|] eqn:Ee; [|apply nth_error_None in Ee; lia]. exists e.
            split; [eapply nth_error_In; eauto|]. rewrite <- (R2 e eq_refl). apply R4; [now left|exact HK].
          + intros m Hm Hx. right. auto. }
      exists s'. split; [exact E|]. split; [exact Sh|]. apply (step_right done n s s'); auto; lia.
    - split.
      + constructor; cbn [fst snd]; auto.
        * repeat constructor. simpl. tauto.
        * intros n [<-|[]]. auto.
        * change (alives l []) with 0. cbn [length]. lia.
      + split; [apply (HN 0 i0); auto|]. split; [intros e He; now injection He as <-|].
        split; [intros n [<-|[]]; lra|]. intros n [->|[[] _]] Hx. destruct Hx. now left.
    - destruct s as [[K bi] bf]. destruct S1 as [Hnd Hfrom Hlen Hbest]. cbn [fst snd] in *. destruct S2 as [R1 [R2 [R3 R4]]].
      assert (HB : forall n, In n K -> n < length l).
      { intros n Hn. destruct (Hfrom n Hn) as [->|[Hx _]]; [destruct l; [congruence|simpl; lia]|]. apply in_seq in Hx. lia. }
      destruct (kill_at_spec K l Hnd HB) as [l' [E [Hm Hc]]].
      exists K, l'. split; [unfold kill_worst, fitness_at; rewrite E0; cbn [obind]; rewrite Es; exact E|].
      split; [exact Hm|]. exists (key bf). split; [exact R3|].
      intros n Hn Ha Hx. apply R4; [|exact Hx]. destruct Ha as [->|Ha]; [now left|]. destruct n; [now left|]. right. split; [apply in_seq; lia|exact Ha].
  Qed.
End Right.

Lemma alives_live {T} (t : list (individual T)) f n : alives (f :: t) (seq 1 n) = live (firstn n t).
Proof.
  unfold alives. rewrite <- seq_shift. rewrite live_filter.
  assert (G : forall n l1 l2, length (filter (alive_at (f :: l1 ++ l2)) (map S (seq (length l1) n))) = length (filter alive (firstn n l2))).
  { clear. induction n as [|n IH]; intros l1 l2; [reflexivity|]. cbn [seq map filter]. destruct l2 as [|i l2].
    - cbn [firstn filter length]. rewrite app_nil_r. clear IH.
      assert (E : forall k m, length l1 <= k -> filter (alive_at (f :: l1)) (map S (seq k m)) = []).
      { intros k m. revert k. induction m as [|m IH]; intros k Hk; [reflexivity|]. cbn [seq map filter].
        unfold alive_at at 1. cbn [nth_error]. rewrite (proj2 (nth_error_None l1 k) Hk). apply IH. lia. }
      unfold alive_at at 1. cbn [nth_error]. rewrite (proj2 (nth_error_None l1 (length l1)) ltac:(lia)). rewrite E by lia. reflexivity.
    - cbn [firstn filter]. unfold alive_at at 1. cbn [nth_error]. rewrite nth_error_app2, Nat.sub_diag by lia. cbn [nth_error].
      specialize (IH (l1 ++ [i]) l2). rewrite <- app_assoc in IH. cbn [app] in IH. rewrite app_length in IH. simpl length in IH.
      replace (length l1 + 1) with (S (length l1)) in IH by lia. destruct (alive i); cbn [length]; rewrite IH; reflexivity. }
  exact (G n [] t).
Qed.

(** When nobody among the first [count] candidates is better than the first individual, the order is right. *)
Lemma kill_worst_first_of_filled {T} (l : list (individual T)) count l' f t : no_nan l -> l = f :: t ->
  (forall n s, nth_error t n = Some s -> alive s = true -> 1 + live (firstn n t) < count -> leb (fitness f) (fitness s) = true) ->
  kill_worst l count = Ret l' ->
  forall n s m k, survives_at l l' n s -> killed_at l l' m k -> leb (fitness s) (fitness k) = true.
Proof.
  intros HN El Hf H n s m k Hs Hk.
  assert (Hfill : forall n, n <> 0 -> alive_at l n = true -> 1 + alives l (seq 1 (n - 1)) < count -> (fit l 0 <= fit l n)%R).
  { intros [|j] Hj Ha Hc; [congruence|]. rewrite El in *. replace (S j - 1) with j in Hc by lia. rewrite alives_live in Hc.
    unfold alive_at in Ha. cbn [nth_error] in Ha. destruct (nth_error t j) as [i|] eqn:Ei; [|discriminate].
    specialize (Hf j i Ei Ha Hc). apply leb_key in Hf. unfold fit. cbn [nth_error]. rewrite Ei. tauto. }
  destruct (scan_right l count) as [K [l2 [E [Hm [bf [B1 B2]]]]]]; auto; [congruence|].
  assert (l2 = l') by congruence. subst l2.
  pose proof (marked_killed _ _ _ _ _ Hm Hk) as HkK. pose proof (marked_survives _ _ _ _ _ Hm Hs) as HsK.
  destruct Hs as [Hs1 [Hs2 _]], Hk as [Hk1 [Hk2 _]].
  specialize (B1 m HkK). assert (Hn : n < length l) by (apply nth_error_Some; congruence).
  assert (Ha : alive_at l n = true) by (unfold alive_at; now rewrite Hs1).
  specialize (B2 n Hn (or_intror Ha) HsK). unfold fit in B1, B2. rewrite Hk1 in B1. rewrite Hs1 in B2.
  apply leb_key. split; [apply (HN n s); auto|]. split; [apply (HN m k); auto|lra].
Qed.

(** The exact number for every [count]: never fewer than one. *)
Lemma kill_worst_exact {T} (l : list (individual T)) count : first_alive l ->
  exists l', kill_worst l count = Ret l' /\ live l' + Nat.max 1 (Nat.min count (live l)) = live l.
Proof.
  intros [i [t [El Ha]]].
  destruct (kill_worst_spec l count) as [K [l' [E [Hm [HN [Hlive [Hf [HB [Hlen _]]]]]]]]];
    [rewrite El; discriminate|].
  exists l'. split; auto.
  destruct (kill_list_alive l K HN Hf) as [_ H]. rewrite H in Hlive by (rewrite El; exact Ha).
  pose proof (alives_tail l i t El) as Ht. rewrite Ha in Ht. lia.
Qed.
