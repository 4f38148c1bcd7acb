(** * Pairing: RandomPairing and Tournament *)

From Coq Require Import List Arith ZArith Bool Lia Reals Lra.
From Verif Require Import Base Logic FloatModel Rng GaModel GaComponents SpecGa SpecSel SpecRand FloatFacts
  RandFacts.
Import ListNotations.

Lemma nth_error_seq a n j k : nth_error (seq a n) j = Some k <-> j < n /\ k = a + j.
Proof.
  revert a j. induction n as [|n IH]; intros a [|j]; simpl.
  - split; [discriminate|lia].
  - split; [discriminate|lia].
  - split; [intros H; inversion H; lia|intros [_ ->]; f_equal; lia].
  - rewrite IH. split; intros [H ->]; split; lia.
Qed.

Lemma nth_error_map_seq {A} (f : nat -> A) n j x :
  nth_error (map f (seq 0 n)) j = Some x <-> j < n /\ x = f j.
Proof.
  rewrite nth_error_map. destruct (nth_error (seq 0 n) j) as [k|] eqn:E; simpl.
  - apply nth_error_seq in E. destruct E as [H ->]. simpl. split; [intros G; inversion G; auto|].
    intros [_ ->]. reflexivity.
  - split; [discriminate|]. intros [H _].
    assert (nth_error (seq 0 n) j = Some (0 + j)) by (apply nth_error_seq; auto). congruence.
Qed.

Section Pairing.
  Context {T : Type}.
  Implicit Types p : population T.
  Notation size p := (length (individuals p)).

  Lemma random_pairing_spec p r :
    (individuals p = [] -> fst (random_pairing p r) = Panic) /\
    (individuals p <> [] ->
     exists pairs, random_pairing p r = (Ret pairs, shift (2 * (size p / 2)) r) /\
       length pairs = size p / 2 /\
       forall j pair, nth_error pairs j = Some pair ->
         pair = [drawn r 0 (size p) (2 * j); drawn r 0 (size p) (2 * j + 1)] /\
         Forall (fun i => i < size p) pair).
  Proof.
    split; intros H.
    - unfold random_pairing. rewrite H. reflexivity.
    - assert (Hpos : 0 < size p) by (destruct (individuals p); [congruence|simpl; lia]).
      assert (C : consumes (0 + size p / 2 * (1 + (1 + 0))) (random_pairing p)
                  (fun r => map (fun j => [drawn (shift (j * 2) r) 0 (size p) 0;
                                           drawn (shift 1 (shift (j * 2) r)) 0 (size p) 0])
                                (seq 0 (size p / 2)))).
      { unfold random_pairing, uniform_usize. apply Nat.ltb_lt in Hpos. rewrite Hpos.
        eapply consumes_bind'; [apply consumes_pure; reflexivity|].
        intros r0. cbv beta. 
        pose proof (consumes_replicate (1 + (1 + 0))
          (do first <- sample_usize (0, size p) ;;
           do second <- sample_usize (0, size p) ;; cret [first; second])
          (fun r => [drawn r 0 (size p) 0; drawn (shift 1 r) 0 (size p) 0]) (size p / 2)) as R.
        rewrite R; [reflexivity|].
        exact (consumes_bind 1 (1 + 0) _ _ _ (fun first r => [first; drawn r 0 (size p) 0])
          (consumes_usize 0 (size p))
          (fun first => consumes_bind 1 0 _ _ _ (fun second _ => [first; second])
             (consumes_usize 0 (size p)) (fun second => consumes_ret [first; second]))). }
      eexists. split; [rewrite C; f_equal; f_equal; lia|]. split; [now rewrite map_length, seq_length|].
      intros j pair Hj. apply nth_error_map_seq in Hj. destruct Hj as [Hj ->].
      rewrite !shift_shift, !drawn_shift, Nat.add_0_r. 
      replace (j * 2) with (2 * j) by lia. rewrite Nat.add_0_r. split; [reflexivity|].
      repeat constructor; apply drawn_bound; auto.
  Qed.

  Definition fit_at p n : f64 := match nth_error (individuals p) n with
                                 | Some i => fitness i | None => f64_MAX end.
  Definition champion p (r : rng) (rounds : nat) : nat :=
    fold_left (fun b k => if ltb (fit_at p (drawn r 0 (size p) k)) (fit_at p b)
                          then drawn r 0 (size p) k else b)
              (seq 1 rounds) (drawn r 0 (size p) 0).

  Lemma champion_bound p r rounds : 0 < size p -> champion p r rounds < size p.
  Proof.
    intros H. unfold champion.
    assert (G : forall l b, b < size p ->
      fold_left (fun b k => if ltb (fit_at p (drawn r 0 (size p) k)) (fit_at p b)
                            then drawn r 0 (size p) k else b) l b < size p).
    { induction l as [|k l IH]; intros b Hb; simpl; auto. apply IH.
      destruct (ltb _ _); auto. apply drawn_bound; auto. }
    apply G. apply drawn_bound; auto.
  Qed.

  Lemma champion_in p r rounds : exists k, k <= rounds /\ champion p r rounds = drawn r 0 (size p) k.
  Proof.
    unfold champion.
    assert (G : forall n a b, (exists k, k < a + n /\ b = drawn r 0 (size p) k) ->
      exists k, k < a + n /\ fold_left (fun b k => if ltb (fit_at p (drawn r 0 (size p) k)) (fit_at p b)
                            then drawn r 0 (size p) k else b) (seq a n) b = drawn r 0 (size p) k).
    { induction n as [|n IH]; intros a b [k [Hk ->]]; simpl; [eauto|].
      destruct (IH (S a) (if ltb (fit_at p (drawn r 0 (size p) a)) (fit_at p (drawn r 0 (size p) k))
                          then drawn r 0 (size p) a else drawn r 0 (size p) k)) as [k' [H1 H2]].
      - destruct (ltb _ _); eexists; split; [|reflexivity| |reflexivity]; lia.
      - exists k'. split; [lia|exact H2]. }
    destruct (G rounds 1 (drawn r 0 (size p) 0)) as [k [H1 H2]]; [exists 0; split; [lia|auto]|].
    exists k. split; [lia|exact H2].
  Qed.

  Lemma champion_best p r rounds :
    (forall k, k <= rounds -> is_nan (fit_at p (drawn r 0 (size p) k)) = false) ->
    forall k, k <= rounds -> (key (fit_at p (champion p r rounds)) <= key (fit_at p (drawn r 0 (size p) k)))%R.
  Proof.
    intros HN. unfold champion.
    assert (G : forall n a b, a + n <= S rounds -> is_nan (fit_at p b) = false ->
      let c := fold_left (fun b k => if ltb (fit_at p (drawn r 0 (size p) k)) (fit_at p b)
                            then drawn r 0 (size p) k else b) (seq a n) b in
      (key (fit_at p c) <= key (fit_at p b))%R /\
      forall k, a <= k < a + n -> (key (fit_at p c) <= key (fit_at p (drawn r 0 (size p) k)))%R).
    { induction n as [|n IH]; intros a b Ha Hb; simpl.
      - split; [lra|lia].
      - assert (Na : is_nan (fit_at p (drawn r 0 (size p) a)) = false) by (apply HN; lia).
        destruct (ltb (fit_at p (drawn r 0 (size p) a)) (fit_at p b)) eqn:L.
        + destruct (IH (S a) (drawn r 0 (size p) a)) as [I1 I2]; [lia|auto|]. apply ltb_key in L.
          split; [lra|]. intros k Hk. destruct (Nat.eq_dec k a) as [->|]; [lra|]. apply I2. lia.
        + destruct (IH (S a) b) as [I1 I2]; [lia|auto|]. apply ltb_false in L; auto.
          split; [lra|]. intros k Hk. destruct (Nat.eq_dec k a) as [->|]; [lra|]. apply I2. lia. }
    destruct (G rounds 1 (drawn r 0 (size p) 0)) as [G1 G2]; [lia|apply HN; lia|].
    intros k Hk. destruct k as [|k]; [exact G1|]. apply G2. lia.
  Qed.

  Lemma partner_consumes t p : 0 < size p ->
    consumes (1 + rounds_count t) (tournament_partner t p (0, size p))
      (fun r => champion p r (rounds_count t)).
  Proof.
    intros Hpos. unfold tournament_partner, champion.
    eapply consumes_bind'; [apply consumes_usize|]. intros r.
    assert (G : forall l a b, b < size p ->
      cfold (fun best_ind_index (_ : nat) =>
           do challenger <- sample_usize (0, size p) ;;
           cpure (let! c := index (individuals p) challenger in
                  let! b := index (individuals p) best_ind_index in
                  Ret (if ltb (fitness c) (fitness b) then challenger else best_ind_index)))
        l b (shift a r) =
      (Ret (fold_left (fun b k => if ltb (fit_at p (drawn r 0 (size p) k)) (fit_at p b)
                          then drawn r 0 (size p) k else b) (seq a (length l)) b),
       shift (length l) (shift a r))).
    { induction l as [|x l IH]; intros a b Hb.
      - reflexivity.
      - assert (D : drawn r 0 (size p) a < size p) by (apply drawn_bound; auto).
        cbn [cfold length seq fold_left].
        unfold cbind at 1. unfold cbind at 1. rewrite consumes_usize.
        rewrite drawn_shift, Nat.add_0_r. unfold cpure.
        destruct (index_lt (individuals p) (drawn r 0 (size p) a) D) as [c [E1 H1]].
        destruct (index_lt (individuals p) b Hb) as [bi [E2 H2]].
        rewrite E1, E2. cbn [obind].
        replace (fit_at p (drawn r 0 (size p) a)) with (fitness c) by (unfold fit_at; now rewrite H1).
        replace (fit_at p b) with (fitness bi) by (unfold fit_at; now rewrite H2).
        rewrite shift_shift. replace (a + 1) with (S a) by lia. rewrite IH by (destruct (ltb _ _); auto).
        f_equal. rewrite !shift_shift. f_equal. lia. }
    pose proof (G (seq 0 (rounds_count t)) 1 _ (proj2 (drawn_bound r 0 (size p) 0 Hpos))) as G'.
    rewrite seq_length in G'. exact G'.
  Qed.

  Lemma tournament_spec t p r :
    (individuals p = [] -> fst (tournament_pairs t p r) = Panic) /\
    (individuals p <> [] ->
     exists fams,
       tournament_pairs t p r =
         (Ret fams, shift (families_count t * (partners_count t * S (rounds_count t))) r) /\
       length fams = families_count t /\
       forall j fam, nth_error fams j = Some fam ->
         length fam = partners_count t /\
         forall i a, nth_error fam i = Some a ->
           let slot := (j * partners_count t + i) * S (rounds_count t) in
           a < size p /\
           (exists k, k <= rounds_count t /\ a = drawn r 0 (size p) (slot + k)) /\
           ((forall k v, k <= rounds_count t -> fitness_is p (drawn r 0 (size p) (slot + k)) v ->
               is_nan v = false) ->
            forall k, k <= rounds_count t -> ~ beats p (drawn r 0 (size p) (slot + k)) a)).
  Proof.
    split; intros H.
    - unfold tournament_pairs. rewrite H. reflexivity.
    - assert (Hpos : 0 < size p) by (destruct (individuals p); [congruence|simpl; lia]).
      pose proof (consumes_replicate _ _ _ (families_count t)
                    (consumes_replicate _ _ _ (partners_count t) (partner_consumes t p Hpos))) as C.
      eexists. split; [unfold tournament_pairs, uniform_usize; pose proof Hpos as Hb;
        apply Nat.ltb_lt in Hb; rewrite Hb; unfold cbind at 1, cpure; cbn [fst snd]; rewrite C; reflexivity|].
      split; [now rewrite map_length, seq_length|].
      intros j fam Hj. apply nth_error_map_seq in Hj. destruct Hj as [Hj ->].
      split; [now rewrite map_length, seq_length|].
      intros i a Hi. apply nth_error_map_seq in Hi. destruct Hi as [Hi Ha].
      rewrite shift_shift in Ha. intros slot.
      replace (j * (partners_count t * (1 + rounds_count t)) + i * (1 + rounds_count t)) with slot in Ha
        by (unfold slot; change (1 + rounds_count t) with (S (rounds_count t)); ring).
      clearbody slot. subst a. split; [apply champion_bound; auto|]. split.
      + destruct (champion_in p (shift slot r) (rounds_count t)) as [k [K1 K2]].
        exists k. split; [exact K1|]. rewrite K2. apply drawn_shift.
      + intros HN k Hk [va [vb [[ia [A1 A2]] [[ib [B1 B2]] L]]]].
        assert (HN' : forall k, k <= rounds_count t ->
                   is_nan (fit_at p (drawn (shift slot r) 0 (size p) k)) = false).
        { intros k' Hk'. rewrite drawn_shift. unfold fit_at.
          destruct (nth_error (individuals p) (drawn r 0 (size p) (slot + k'))) as [x|] eqn:E.
          - apply (HN k' _ Hk'). exists x. auto.
          - reflexivity. }
        pose proof (champion_best p (shift slot r) (rounds_count t) HN' k Hk) as B.
        rewrite drawn_shift in B. unfold fit_at in B. rewrite A1, B1 in B.
        apply ltb_key in L. subst va vb. lra.
  Qed.
End Pairing.
