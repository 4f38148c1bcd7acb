(** * The selections: kill_worst, LimitPopulation, KillFitnessNaN, CheckChromoInterval *)

From Coq Require Import List Arith ZArith Bool Lia Reals Lra.
From Verif Require Import Base Logic FloatModel GaModel GaComponents SpecGa SpecSel FloatFacts.
Import ListNotations.

Lemma NoDup_snoc {A} (l : list A) x : NoDup l -> ~ In x l -> NoDup (l ++ [x]).
Proof.
  intros HN Hx. induction HN as [|y l Hy HN IH]; simpl.
  - repeat constructor; auto.
  - constructor.
    + intros H. apply in_app_or in H. destruct H as [H|[->|[]]]; [contradiction|].
      apply Hx. now left.
    + apply IH. intros H. apply Hx. now right.
Qed.

(** ** Counting *)
Section Count.
  Context {T : Type}.
  Implicit Types l : list (individual T).

  Lemma live_filter l : live l = length (filter alive l).
  Proof.
    unfold live. induction l as [|i l IH]; simpl; auto.
    destruct (alive i); simpl; rewrite IH; reflexivity.
  Qed.

  Definition alive_at l n : bool :=
    match nth_error l n with Some i => alive i | None => false end.

  Lemma live_seq l : length (filter (alive_at l) (seq 0 (length l))) = live l.
  Proof.
    rewrite live_filter.
    assert (G : forall l2 l1, length (filter (alive_at (l1 ++ l2)) (seq (length l1) (length l2)))
                = length (filter alive l2)).
    { induction l2 as [|i l2 IH]; intros l1; simpl; auto.
      assert (E : alive_at (l1 ++ i :: l2) (length l1) = alive i).
      { unfold alive_at. rewrite nth_error_app2, Nat.sub_diag by auto. reflexivity. }
      rewrite E.
      replace (l1 ++ i :: l2) with ((l1 ++ [i]) ++ l2) by (rewrite <- app_assoc; reflexivity).
      replace (S (length l1)) with (length (l1 ++ [i])) by (rewrite app_length; simpl; lia).
      destruct (alive i); simpl; rewrite IH; reflexivity. }
    apply (G l []).
  Qed.
End Count.

(** ** The final loop: mark the kill list *)
Section KillList.
  Context {T : Type}.
  Implicit Types l : list (individual T).

  Definition kill_at l (K : list nat) : outcome (list (individual T)) :=
    ofold (fun l' n => let! i := index l' n in update l' n (kill i)) K l.

  Definition marked l (K : list nat) l' : Prop :=
    length l' = length l /\
    forall n, nth_error l' n =
      if in_dec Nat.eq_dec n K then option_map kill (nth_error l n) else nth_error l n.

  Lemma filter_update l n i l' b : nth_error l n = Some i -> alive i = b ->
    update l n (kill i) = Ret l' ->
    length (filter alive l) = length (filter alive l') + (if b then 1 else 0).
  Proof.
    revert n l'. induction l as [|x l IH]; intros [|n] l'; simpl; try discriminate.
    - intros H Hb E. inversion H; inversion E; subst. simpl. destruct (alive i); simpl; lia.
    - intros H Hb E. apply obind_ret in E. destruct E as [t' [E1 E2]]. inversion E2; subst.
      specialize (IH n t' H eq_refl E1). simpl. destruct (alive x); simpl; lia.
  Qed.

  Lemma kill_at_spec K : forall l, NoDup K -> (forall n, In n K -> n < length l) ->
    exists l', kill_at l K = Ret l' /\ marked l K l' /\
      live l = live l' + length (filter (alive_at l) K).
  Proof.
    induction K as [|n K IH]; intros l HN HB.
    - exists l. split; [reflexivity|]. split; [split; auto|simpl; lia].
    - inversion HN; subst.
      destruct (index_lt l n) as [i [Ei Hi]]; [apply HB; now left|].
      destruct (update_spec l n (kill i)) as [[l1 [E1 [L1 [N1 O1]]]] _]; [apply HB; now left|].
      destruct (IH l1) as [l' [E2 [[M1 M2] Hc]]]; auto.
      { intros m Hm. rewrite L1. apply HB. now right. }
      exists l'. split; [unfold kill_at; simpl; rewrite Ei; simpl; rewrite E1; exact E2|].
      split; [split; [congruence|]|].
      + intros m. rewrite M2. destruct (Nat.eq_dec m n) as [->|Hm].
        * destruct (in_dec Nat.eq_dec n K) as [H|_]; [contradiction|].
          destruct (in_dec Nat.eq_dec n (n :: K)) as [_|H]; [|destruct H; now left].
          rewrite N1, Hi. reflexivity.
        * rewrite O1 by auto.
          destruct (in_dec Nat.eq_dec m K) as [H|H], (in_dec Nat.eq_dec m (n :: K)) as [H'|H']; auto.
          -- destruct H'. now right.
          -- destruct H' as [H'|H']; [subst; contradiction|contradiction].
      + rewrite !live_filter in *.
        rewrite (filter_update l n i l1 (alive i) Hi eq_refl E1), Hc. simpl.
        replace (alive_at l n) with (alive i) by (unfold alive_at; now rewrite Hi).
        assert (E : filter (alive_at l1) K = filter (alive_at l) K).
        { apply filter_ext_in. intros m Hm. unfold alive_at. rewrite O1; auto.
          intros ->. contradiction. }
        rewrite E. destruct (alive i); simpl; lia.
  Qed.
End KillList.

(** ** The scan *)
Section Scan.
  Context {T : Type}.
  Variable l : list (individual T).
  Variable count : nat.

  Definition alives (ns : list nat) : nat := length (filter (alive_at l) ns).

  (** Shape of the kill list, whatever the fitness values. *)
  Record shape (done : list nat) (s : @kw_state) : Prop := {
    sh_nodup : NoDup (fst (fst s));
    sh_from : forall n, In n (fst (fst s)) -> n = 0 \/ (In n done /\ alive_at l n = true);
    sh_len : length (fst (fst s)) = Nat.max 1 (Nat.min count (1 + alives done));
    sh_best : snd (fst s) < length (fst (fst s))
  }.

  Lemma rescan_spec K : K <> [] -> (forall n, In n K -> n < length l) ->
    exists bi bf, kw_rescan l K = Ret (K, bi, bf) /\ bi < length K /\
      (exists n i, nth_error K bi = Some n /\ nth_error l n = Some i /\ bf = fitness i) /\
      ((forall n i, In n K -> nth_error l n = Some i -> is_nan (fitness i) = false) ->
       forall n i, In n K -> nth_error l n = Some i -> (key bf <= key (fitness i))%R).
  Proof.
    intros HK HB. unfold kw_rescan.
    destruct K as [|k0 K]; [congruence|]. change (index (k0 :: K) 0) with (Ret k0). cbn [obind].
    destruct (index_lt l k0) as [i0 [E0 H0]]; [apply HB; now left|].
    unfold fitness_at at 1. rewrite E0. cbn [obind].
    set (Kl := k0 :: K) in *.
    match goal with |- context [ofold ?g (seq 1 _) _] => set (f := g) end.
    destruct (ofold_total f
      (fun done s => fst s < length Kl /\
         (exists n i, nth_error Kl (fst s) = Some n /\ nth_error l n = Some i /\ snd s = fitness i) /\
         ((forall n i, In n Kl -> nth_error l n = Some i -> is_nan (fitness i) = false) ->
          forall m n i, (m = 0 \/ In m done) -> nth_error Kl m = Some n -> nth_error l n = Some i ->
            (key (snd s) <= key (fitness i))%R))
      (seq 1 (length Kl - 1)) (0, fitness i0)) as [s [Es [S1 [S2 S3]]]].
    - intros done m rest [bi bf] Hseq [I1 [I2 I3]]. cbn [fst snd] in *.
      assert (Hm : m < length Kl).
      { assert (Hin : In m (seq 1 (length Kl - 1))) by (rewrite Hseq; apply in_or_app; right; now left).
        apply in_seq in Hin. unfold Kl in *. simpl in *. lia. }
      destruct (index_lt Kl m) as [km [E1 H1]]; auto.
      destruct (index_lt l km) as [im [E2 H2]]; [apply HB; eapply nth_error_In; eauto|].
      unfold f. rewrite E1. cbn [obind]. unfold fitness_at. rewrite E2. cbn [obind].
      eexists. split; [reflexivity|].
      destruct (ltb (fitness im) bf) eqn:Lt; cbn [fst snd].
      + split; [auto|]. split; [exists km, im; auto|].
        intros HN m' n i Hm' Hn Hi. apply ltb_key in Lt. destruct Lt as [_ [_ Lt]].
        destruct Hm' as [->|Hm'].
        * specialize (I3 HN 0 n i (or_introl eq_refl) Hn Hi). lra.
        * apply in_app_or in Hm'. destruct Hm' as [Hm'|[->|[]]].
          -- specialize (I3 HN m' n i (or_intror Hm') Hn Hi). lra.
          -- rewrite H1 in Hn. inversion Hn; subst. rewrite H2 in Hi. inversion Hi; subst. lra.
      + split; [auto|]. split; [auto|].
        intros HN m' n i Hm' Hn Hi.
        destruct Hm' as [->|Hm']; [apply (I3 HN 0 n i); auto|].
        apply in_app_or in Hm'. destruct Hm' as [Hm'|[->|[]]]; [apply (I3 HN m' n i); auto|].
        rewrite H1 in Hn. inversion Hn; subst. rewrite H2 in Hi. inversion Hi; subst.
        destruct I2 as [n0 [i0' [Ha [Hb ->]]]].
        apply ltb_false in Lt; auto.
        * apply (HN n i); auto. eapply nth_error_In; eauto.
        * apply (HN n0 i0'); auto. eapply nth_error_In; eauto.
    - cbn [fst snd]. split; [unfold Kl; simpl; lia|]. split; [exists k0, i0; auto|].
      intros HN m n i [->|[]] Hn Hi. inversion Hn; subst. rewrite H0 in Hi. inversion Hi. lra.
    - rewrite Es. cbn [obind].
      exists (fst s), (snd s). split; [reflexivity|]. split; [exact S1|]. split; [exact S2|].
      intros HN n i Hn Hi. apply In_nth_error in Hn. destruct Hn as [m Hm].
      apply (S3 HN m n i); auto.
      assert (m < length Kl) by (apply nth_error_Some; congruence).
      destruct m; auto. right. apply in_seq. lia.
  Qed.

  Hypothesis nonempty : l <> [].

  Lemma alives_snoc done n : alives (done ++ [n]) = alives done + (if alive_at l n then 1 else 0).
  Proof.
    unfold alives. rewrite filter_app, app_length. simpl. destruct (alive_at l n); reflexivity.
  Qed.

  Lemma update_nodup (K : list nat) b n K' : NoDup K -> ~ In n K -> update K b n = Ret K' -> NoDup K'.
  Proof.
    revert b K'. induction K as [|k K IH]; intros [|b] K' HN Hn E; simpl in E; try discriminate.
    - inversion E; subst. inversion HN; subst. constructor; auto. intros H. apply Hn. now right.
    - apply obind_ret in E. destruct E as [t [E1 E2]]. inversion E2; subst. inversion HN; subst.
      constructor.
      + intros H. apply In_nth_error in H. destruct H as [m Hm].
        destruct (update_ret _ _ _ _ E1) as [_ [_ [U1 U2]]].
        destruct (Nat.eq_dec m b) as [->|Hmb].
        * rewrite U1 in Hm. inversion Hm; subst. apply Hn. now left.
        * rewrite U2 in Hm by auto. apply nth_error_In in Hm. contradiction.
      + eapply IH; eauto. intros H. apply Hn. now right.
  Qed.

  Lemma update_in (K : list nat) b n K' m : update K b n = Ret K' -> In m K' -> m = n \/ In m K.
  Proof.
    intros E H. destruct (update_ret _ _ _ _ E) as [_ [_ [U1 U2]]].
    apply In_nth_error in H. destruct H as [j Hj]. destruct (Nat.eq_dec j b) as [->|Hjb].
    - rewrite U1 in Hj. inversion Hj; auto.
    - rewrite U2 in Hj by auto. right. eapply nth_error_In; eauto.
  Qed.

  Lemma update_in_new (K : list nat) b n K' : update K b n = Ret K' -> In n K'.
  Proof. intros E. destruct (update_ret _ _ _ _ E) as [_ [_ [U1 _]]]. eapply nth_error_In; eauto. Qed.

  Lemma update_in_old (K : list nat) b n K' e m : update K b n = Ret K' -> nth_error K b = Some e ->
    In m K -> m = e \/ In m K'.
  Proof.
    intros E He H. destruct (update_ret _ _ _ _ E) as [_ [_ [U1 U2]]].
    apply In_nth_error in H. destruct H as [j Hj]. destruct (Nat.eq_dec j b) as [->|Hjb].
    - left. congruence.
    - right. rewrite <- U2 in Hj by auto. eapply nth_error_In; eauto.
  Qed.

  (** Fitness at a position (0 for the impossible case). *)
  Definition fit (n : nat) : R := match nth_error l n with Some i => key (fitness i) | None => 0%R end.

  (** Order of the fitness values, when there is no NaN. *)
  Definition cand (done : list nat) (n : nat) : Prop := n = 0 \/ (In n done /\ alive_at l n = true).
  Definition early (done : list nat) (s : @kw_state) : Prop :=
    let '(K, bi, bf) := s in
    In 0 K /\ key bf = fit 0 /\ is_nan bf = false /\
    (forall e, nth_error K bi = Some e -> (fit e <= fit 0)%R) /\
    (forall n, cand done n -> ~ In n K -> (fit n <= fit 0)%R).
  Definition late (done : list nat) (s : @kw_state) : Prop :=
    let '(K, bi, bf) := s in
    count <= length K /\ is_nan bf = false /\
    (forall e, nth_error K bi = Some e -> key bf = fit e) /\
    (forall n, In n K -> (key bf <= fit n)%R) /\
    (exists e, In e K /\ (fit 0 <= fit e)%R) /\
    (forall n, cand done n -> ~ In n K -> (fit n <= fit 0)%R \/ (fit n <= key bf)%R).

  Lemma kw_step_spec done n s :
    shape done s -> n <> 0 -> ~ In n done -> (forall m, In m done -> m < length l) -> n < length l ->
    (no_nan l -> early done s \/ late done s) ->
    exists s', kw_step l count s n = Ret s' /\ shape (done ++ [n]) s' /\
      (no_nan l -> early (done ++ [n]) s' \/ late (done ++ [n]) s').
  Proof.
    intros [Hnd Hfrom Hlen Hbest] Hn0 Hnd' Hdone Hlt Hord.
    destruct s as [[K bi] bf]. cbn [fst snd] in Hnd, Hfrom, Hlen, Hbest.
    destruct (index_lt l n Hlt) as [i [Ei Hi]].
    assert (Ha : alive_at l n = alive i) by (unfold alive_at; now rewrite Hi).
    assert (HKlt : forall m, In m K -> m < length l).
    { intros m Hm. destruct (Hfrom m Hm) as [->|[H _]]; auto. destruct l; [congruence|simpl; lia]. }
    assert (HnK : ~ In n K).
    { intros H. destruct (Hfrom n H) as [->|[H' _]]; auto. }
    assert (Hfn : fit n = key (fitness i)) by (unfold fit; now rewrite Hi).
    assert (Hcand : forall m, cand done m -> cand (done ++ [n]) m).
    { intros m [->|[H1 H2]]; [now left|right]. split; auto. apply in_or_app. auto. }
    assert (Hcand' : forall m, cand (done ++ [n]) m -> cand done m \/ (m = n /\ alive i = true)).
    { intros m [->|[H1 H2]]; [left; now left|]. apply in_app_or in H1.
      destruct H1 as [H1|[<-|[]]]; [left; right; auto|]. right. split; congruence. }
    unfold kw_step. rewrite Ei. cbn [obind].
    destruct (alive i) eqn:Al; cbn [negb].
    2: { (* dead: skipped *)
      eexists. split; [reflexivity|]. split.
      - constructor; simpl; auto.
        + intros m Hm. destruct (Hfrom m Hm) as [->|[H1 H2]]; auto. right. split; auto.
          apply in_or_app. auto.
        + rewrite alives_snoc, Ha, Nat.add_0_r. auto.
      - intros HN. destruct (Hord HN) as [H|H]; [left|right].
        + destruct H as [H1 [H2 [H3 [H4 H5]]]].
          split; [auto|]. split; [auto|]. split; [auto|]. split; [auto|].
          intros m Hm. destruct (Hcand' m Hm) as [Hm'|[_ Hm']]; [auto|discriminate].
        + destruct H as [H0 [H1 [H2 [H3 [H4 H5]]]]].
          split; [auto|]. split; [auto|]. split; [auto|]. split; [auto|]. split; [auto|].
          intros m Hm. destruct (Hcand' m Hm) as [Hm'|[_ Hm']]; [auto|discriminate]. }
    destruct (length K <? count) eqn:Lt.
    - (* the list is being filled *)
      apply Nat.ltb_lt in Lt. eexists. split; [reflexivity|]. split.
      + constructor; cbn [fst snd].
        * now apply NoDup_snoc.
        * intros m Hm. apply in_app_or in Hm. destruct Hm as [Hm|[<-|[]]].
          -- destruct (Hfrom m Hm) as [->|[H1 H2]]; auto. right. split; auto. apply in_or_app. auto.
          -- right. split; [apply in_or_app; right; now left|congruence].
        * rewrite app_length, alives_snoc, Ha. cbn [length]. cbn [fst] in Hlen. lia.
        * rewrite app_length. simpl. destruct (ltb _ _); lia.
      + intros HN.
        assert (Nn : is_nan (fitness i) = false) by (apply (HN n i); auto).
        destruct (Hord HN) as [H|H]; [left|right].
        * destruct H as [H1 [H2 [H3 [H4 H5]]]].
          split; [apply in_or_app; auto|]. split; [auto|]. split; [auto|]. split.
          -- intros e He. destruct (ltb (fitness i) bf) eqn:Lf.
             ++ apply ltb_key in Lf. rewrite app_length in He. simpl in He.
                rewrite nth_error_app2 in He by lia.
                replace (length K + 1 - 1 - length K) with 0 in He by lia. simpl in He.
                inversion He; subst. rewrite Hfn, <- H2. lra.
             ++ rewrite nth_error_app1 in He by auto. auto.
          -- intros m Hm Hnin. destruct (Hcand' m Hm) as [Hm'|[-> _]].
             ++ apply H5; auto. intros H. apply Hnin. apply in_or_app. auto.
             ++ destruct Hnin. apply in_or_app. right. now left.
        * (* a rescan happens only once the list is full *)
          destruct H as [H _]. lia.
    - apply Nat.ltb_ge in Lt.
      assert (Hlen' : length K = Nat.max 1 (Nat.min count (1 + alives (done ++ [n])))).
      { rewrite alives_snoc, Ha. lia. }
      assert (Hfrom' : forall m, In m K -> m = 0 \/ In m (done ++ [n]) /\ alive_at l m = true).
      { intros m Hm. destruct (Hfrom m Hm) as [->|[H1 H2]]; auto. right. split; auto.
        apply in_or_app. auto. }
      destruct (ltb bf (fitness i)) eqn:Lf.
      + (* replace the best of the list *)
        destruct (update_spec K bi n) as [[K' [EK _]] _]; [auto|].
        rewrite EK. cbn [obind].
        destruct (update_ret _ _ _ _ EK) as [_ [LK _]].
        assert (HK' : forall m, In m K' -> m = n \/ In m K) by (intros m; eapply update_in; eauto).
        destruct (rescan_spec K') as [bi' [bf' [Er [Hb' [[nb [ib [Hnb [Hib Hbf']]]] Hmin]]]]].
        { intros ->. simpl in LK. lia. }
        { intros m Hm. destruct (HK' m Hm) as [->|H]; auto. }
        rewrite Er. eexists. split; [reflexivity|]. split.
        * constructor; cbn [fst snd]; auto.
          -- eapply update_nodup; eauto.
          -- intros m Hm. destruct (HK' m Hm) as [->|H]; auto.
             right. split; [apply in_or_app; right; now left|congruence].
          -- congruence.
        * intros HN. right.
          assert (HKn : forall m j, In m K' -> nth_error l m = Some j -> is_nan (fitness j) = false).
          { intros m j Hm Hj. apply (HN m j Hj). destruct (HK' m Hm) as [->|H].
            - left. congruence.
            - destruct (Hfrom m H) as [->|[_ H2]]; auto. left. unfold alive_at in H2. now rewrite Hj in H2. }
          apply ltb_key in Lf. destruct Lf as [Nbf [Ni Lf]].
          assert (Hmin' : forall m, In m K' -> (key bf' <= fit m)%R).
          { intros m Hm. unfold fit. destruct (nth_error l m) as [j|] eqn:Ej.
            - apply (Hmin HKn m j); auto.
            - apply nth_error_None in Ej. destruct (HK' m Hm) as [->|H]; [lia|].
              specialize (HKlt m H). lia. }
          destruct (nth_error K bi) as [old|] eqn:Eold; [|apply nth_error_None in Eold; lia].
          assert (Hbfb : key bf' = fit nb) by (unfold fit; rewrite Hib; now subst).
          assert (Hnb' : In nb K') by (eapply nth_error_In; eauto).
          destruct (Hord HN) as [H|H].
          -- destruct H as [H1 [H2 [H3 [H4 H5]]]].
             split; [lia|]. split; [subst; eapply HKn; eauto|].
             split; [intros e He; congruence|]. split; [exact Hmin'|]. split.
             ++ exists n. split; [eapply update_in_new; eauto|]. lra.
             ++ intros m Hm Hnin. left. destruct (Hcand' m Hm) as [Hm'|[-> _]].
                ** destruct (in_dec Nat.eq_dec m K) as [HmK|HmK]; [|auto].
                   destruct (update_in_old _ _ _ _ _ m EK Eold HmK) as [->|?]; [auto|contradiction].
                ** destruct Hnin. eapply update_in_new; eauto.
          -- destruct H as [H0 [H1 [H2 [H3 [[e0 [He0 He0']] H5]]]]].
             assert (Hup : (key bf <= key bf')%R).
             { rewrite Hbfb. destruct (HK' nb Hnb') as [->|H]; [lra|auto]. }
             split; [lia|]. split; [subst; eapply HKn; eauto|].
             split; [intros e He; congruence|]. split; [exact Hmin'|]. split.
             ++ destruct (update_in_old _ _ _ _ _ e0 EK Eold He0) as [->|He]; [|eauto].
                exists n. split; [eapply update_in_new; eauto|].
                specialize (H2 _ Eold). lra.
             ++ intros m Hm Hnin. destruct (Hcand' m Hm) as [Hm'|[-> _]].
                ** destruct (in_dec Nat.eq_dec m K) as [HmK|HmK].
                   --- destruct (update_in_old _ _ _ _ _ m EK Eold HmK) as [->|?]; [|contradiction].
                       specialize (H2 _ Eold). right. lra.
                   --- destruct (H5 m Hm' HmK) as [H|H]; [left; exact H|right; lra].
                ** destruct Hnin. eapply update_in_new; eauto.
      + (* no worse than the best of the list: skipped *)
        eexists. split; [reflexivity|]. split; [constructor; simpl; auto|].
        intros HN.
        assert (Nn : is_nan (fitness i) = false) by (apply (HN n i); auto).
        destruct (Hord HN) as [H|H]; [left|right].
        * destruct H as [H1 [H2 [H3 [H4 H5]]]]. apply ltb_false in Lf; auto.
          split; [auto|]. split; [auto|]. split; [auto|]. split; [auto|].
          intros m Hm Hnin. destruct (Hcand' m Hm) as [Hm'|[-> _]]; [auto|]. lra.
        * destruct H as [H0 [H1 [H2 [H3 [H4 H5]]]]]. apply ltb_false in Lf; auto.
          split; [auto|]. split; [auto|]. split; [auto|]. split; [auto|]. split; [auto|].
          intros m Hm Hnin. destruct (Hcand' m Hm) as [Hm'|[-> _]]; [auto|]. right. lra.
  Qed.

  Lemma kw_scan_spec :
    exists f0, fitness_at l 0 = Ret f0 /\
      exists s, ofold (kw_step l count) (seq 1 (length l - 1)) ([0], 0, f0) = Ret s /\
      shape (seq 1 (length l - 1)) s /\
      (no_nan l -> early (seq 1 (length l - 1)) s \/ late (seq 1 (length l - 1)) s).
  Proof.
    destruct (index_lt l 0) as [i0 [E0 H0]]; [destruct l; [congruence|simpl; lia]|].
    exists (fitness i0). split; [unfold fitness_at; now rewrite E0|].
    apply (ofold_total (kw_step l count) (fun done s => shape done s /\
             (no_nan l -> early done s \/ late done s))).
    - intros done n rest s Hs [I1 I2].
      assert (Hin : forall m, In m done -> m < length l).
      { intros m Hm. assert (H : In m (seq 1 (length l - 1))) by (rewrite Hs; apply in_or_app; auto).
        apply in_seq in H. lia. }
      assert (Hn : In n (seq 1 (length l - 1))) by (rewrite Hs; apply in_or_app; right; now left).
      apply in_seq in Hn.
      assert (HN : ~ In n done).
      { pose proof (seq_NoDup (length l - 1) 1) as ND. rewrite Hs in ND.
        apply NoDup_remove_2 in ND. intros H. apply ND. apply in_or_app. auto. }
      destruct (kw_step_spec done n s I1) as [s' [E [S1 S2]]]; auto; try lia.
      exists s'. auto.
    - split.
      + constructor; cbn [fst snd]; auto.
        * repeat constructor. simpl. tauto.
        * intros n [<-|[]]. auto.
        * change (alives []) with 0. cbn [length]. lia.
      + intros HN. left.
        assert (F0 : fit 0 = key (fitness i0)) by (unfold fit; now rewrite H0).
        split; [now left|]. split; [auto|]. split; [apply (HN 0 i0); auto|]. split.
        * intros e He. inversion He; subst. lra.
        * intros n [->|[[] _]] H. destruct H. now left.
  Qed.

  (** Everything about one call of [kill_worst]. *)
  Lemma kill_worst_spec :
    exists K l', kill_worst l count = Ret l' /\ marked l K l' /\ NoDup K /\
      live l = live l' + length (filter (alive_at l) K) /\
      (forall n, In n K -> n = 0 \/ alive_at l n = true) /\
      (forall n, In n K -> n < length l) /\
      length K = Nat.max 1 (Nat.min count (1 + alives (seq 1 (length l - 1)))) /\
      (no_nan l ->
       (exists e, In e K /\ (fit 0 <= fit e)%R) /\
      forall n k, n < length l -> (n = 0 \/ alive_at l n = true) -> ~ In n K -> In k K ->
         (fit n <= fit k)%R \/ (fit n <= fit 0)%R).
  Proof.
    destruct kw_scan_spec as [f0 [E0 [s [Es [Hs Ho]]]]]. destruct s as [[K bi] bf].
    destruct Hs as [Hnd Hfrom Hlen Hbest]. cbn [fst snd] in *.
    assert (HB : forall n, In n K -> n < length l).
    { intros n Hn. destruct (Hfrom n Hn) as [->|[H _]]; [destruct l; [congruence|simpl; lia]|].
      apply in_seq in H. lia. }
    destruct (kill_at_spec K l Hnd HB) as [l' [E [Hm Hc]]].
    exists K, l'. split; [unfold kill_worst; rewrite E0; cbn [obind]; rewrite Es; exact E|].
    split; [exact Hm|]. split; [exact Hnd|]. split; [exact Hc|].
    split; [intros n Hn; destruct (Hfrom n Hn) as [->|[_ H]]; auto|].
    split; [exact HB|]. split; [exact Hlen|].
    intros HN.
    assert (Hcand : forall n, n < length l -> n = 0 \/ alive_at l n = true -> cand (seq 1 (length l - 1)) n).
    { intros n Hn [->|Ha]; [now left|]. destruct n; [now left|]. right. split; auto. apply in_seq. lia. }
    destruct (Ho HN) as [H|H].
    - destruct H as [H1 [H2 [H3 [H4 H5]]]]. split; [exists 0; split; auto; lra|]. auto.
    - destruct H as [H0 [H1 [H2 [H3 [H4 H5]]]]]. split; [exact H4|].
      intros n k Hn Ha Hnin Hk. destruct (H5 n (Hcand n Hn Ha) Hnin) as [H|H]; [now right|left].
      specialize (H3 k Hk). lra.
  Qed.
End Scan.
