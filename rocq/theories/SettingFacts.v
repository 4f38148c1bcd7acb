(** * How the example programs are set up: proofs *)

From Coq Require Import List Arith ZArith Bool Reals String Lia Lra Psatz.
From Flocq Require Import Core IEEE754.BinarySingleNaN IEEE754.Binary.
From Verif Require Import Base FloatModel Rng FloatFacts GaModel GaComponents PsoModel PsoComponents StopModel LogModel
  TestFuncModel ExampleModel StatModel StatProgramModel SpecRand SpecSel SpecBits SpecStop SpecPso SpecVel SpecExample SpecSettings ArithFacts
  PairFacts MutFacts CalcFacts StopProofs ExampleFacts ExampleRuns StatProgramFacts StatProgramRuns SpecSpeed SpecPace SpeedFacts VelFacts BoxFacts PostFacts PaceFacts PaceRuns.
Import ListNotations.

Section Settings.
  Context {W : Type}.
  Notation U := (world W).
  Notation vec := (list f32).

  (** ** Pairing *)
  Lemma tournament_pairs_by families rounds tr : tr = Tournament families 2 rounds ->
    pairs_by_tournament (W := W) families rounds (fun p => zoom at_rng (tournament_pairs tr p)).
  Proof.
    intros -> p u Hp. destruct (tournament_spec (Tournament families 2 rounds) p (w_rng u)) as [_ H].
    destruct (H Hp) as [fams [E [L K]]]. cbn [families_count partners_count rounds_count] in *.
    exists fams. split; [|split; [exact L|]].
    - unfold zoom. cbn [lget at_rng]. rewrite E. rewrite Nat.add_1_r. reflexivity.
    - intros j fam Hf. destruct (K j fam Hf) as [L2 K2]. split; [exact L2|]. intros i a Ha. rewrite Nat.add_1_r. exact (K2 i a Ha).
  Qed.

  Lemma seq_at n j : (j < n)%nat -> nth_error (seq 0 n) j = Some j.
  Proof.
    intros H. rewrite (nth_error_nth' (seq 0 n) 0) by (rewrite seq_length; exact H). now rewrite seq_nth.
  Qed.
  Lemma random_pairs_by : pairs_at_random (W := W) (fun p => zoom at_rng (random_pairing p)).
  Proof.
    intros p u Hp. set (n := List.length (individuals p)). destruct (random_pairing_spec p (w_rng u)) as [_ H].
    destruct (H Hp) as [prs [E [L K]]]. unfold zoom. cbn [lget lput at_rng]. rewrite E.
    assert (Q : prs = map (fun j => [drawn (w_rng u) 0 n (2 * j); drawn (w_rng u) 0 n (2 * j + 1)]) (seq 0 (n / 2))).
    { apply nth_ext with (d := []) (d' := []); [now rewrite map_length, seq_length|].
      intros j Hj. change (List.length prs = n / 2) in L. rewrite L in Hj. destruct (nth_error prs j) as [pr|] eqn:Ej; [|apply nth_error_None in Ej; lia].
      rewrite (nth_error_nth _ _ _ Ej). destruct (K j pr Ej) as [-> _]. symmetry. apply nth_error_nth.
      rewrite nth_error_map. rewrite (seq_at _ _ Hj). reflexivity. }
    rewrite Q. reflexivity.
  Qed.

  (** ** Mutation *)
  Lemma cmp_ge (x y : f64) : is_nan x = false -> is_nan y = false -> ltb x y = false -> leb y x = true.
  Proof.
    intros Nx Ny H. apply leb_key. split; [exact Ny|]. split; [exact Nx|].
    destruct (Rle_or_lt (key y) (key x)) as [G|G]; [exact G|]. exfalso.
    assert (T : ltb x y = true) by (apply ltb_key; auto). congruence.
  Qed.

  Lemma mutation_mutates np64 chance : is_nan (@b_of_Z 53 1024 _ _ chance) = false ->
    mutates (W := W) np64 chance (vec_mutation np64 at_rng (b_of_Z chance) (fun gene => zoom at_rng (bitwise_mutation32 3 gene))).
  Proof.
    intros Hc. intros x u.
    assert (G : exists y r', varied np64 chance x (w_rng u) y r' /\
      mutated np64 (@at_rng W) (b_of_Z chance) (fun gene => zoom at_rng (bitwise_mutation32 3 gene)) x u y
        (World r' (w_gnc u) (w_started u) (w_rest u))).
    { revert u. induction x as [|g x IH]; intros u.
      - exists [], (w_rng u). split; [constructor|]. destruct u; constructor.
      - destruct (percent_range np64 (@at_rng W) u) as [Hlo Hhi].
        destruct (ltb (percent np64 at_rng u) (b_of_Z chance)) eqn:E.
        + destruct (bitwise_mutation32_spec 3 g (shift 1 (w_rng u))) as [g' [Eg [_ [Hg _]]]].
          destruct (IH (World (shift 3 (shift 1 (w_rng u))) (w_gnc u) (w_started u) (w_rest u))) as [y [r' [V M]]].
          exists (g' :: y), r'. split.
          * eapply varied_flipped; [exact E|exact Hg|exact V].
          * eapply mut_change; [exact E| |exact M]. unfold zoom, after_draw. cbn [lget lput at_rng w_rng w_gnc w_started w_rest].
            rewrite Eg. reflexivity.
        + destruct (IH (after_draw at_rng u)) as [y [r' [V M]]].
          exists (g :: y), r'. split.
          * eapply varied_kept; [|exact V]. apply leb_key in Hlo. destruct Hlo as [_ [N _]].
            apply (cmp_ge _ _ N Hc). exact E.
          * eapply mut_keep; [exact E|exact M]. }
    destruct G as [y [r' [V M]]]. exists y, r'. split; [exact V|]. now apply vec_mutation_spec.
  Qed.

  (** ** Stopping *)
  Section Stop.
    Variable np64 : nan_policy 53 1024.
    Variable dbg : bool.
    Definition checker_of (r : rule) : stop_checker U vec :=
      match r with
      | AtMost t => threshold t
      | Steady n delta => not_change np64 dbg n delta
      | Iterations k => max_iterations k
      end.
    Definition stateless (r : rule) : bool := match r with Steady _ _ => false | _ => true end.
    Definition same_gnc (u u' : U) : Prop := w_gnc u' = w_gnc u.

    Lemma stateless_says (ss : list (alg_state vec)) s r u : stateless r = true ->
      exists b, checker_of r s u = (Ret b, u) /\ (b = true <-> applies np64 ss s r).
    Proof.
      destruct r as [t|n delta|k]; [|discriminate|]; intros _; cbn [checker_of applies].
      - unfold threshold, cret. destruct (as_best s) as [[x v]|].
        + exists (leb v t). split; [reflexivity|]. split.
          * intros H. exists x, v. auto.
          * intros [x' [v' [E H]]]. injection E as -> ->. exact H.
        + exists false. split; [reflexivity|]. split; [discriminate|]. intros [x' [v' [E _]]]. discriminate.
      - unfold max_iterations, cret. exists (k <=? as_iter s). split; [reflexivity|]. apply Nat.leb_le.
    Qed.

    (** Rules without a memory. *)
    Lemma stateless_any (ss : list (alg_state vec)) s rules u : forallb stateless rules = true ->
      exists b, composite_any (map checker_of rules) s u = (Ret b, u) /\ (b = true <-> Exists (applies np64 ss s) rules).
    Proof.
      induction rules as [|r rules IH]; intros H; cbn [map composite_any].
      - exists false. split; [reflexivity|]. split; [discriminate|]. intros K. inversion K.
      - cbn [forallb] in H. apply andb_prop in H. destruct H as [H1 H2].
        destruct (stateless_says ss s r u H1) as [b [E K]]. unfold cbind. rewrite E. destruct b.
        + exists true. split; [reflexivity|]. split; [|reflexivity]. intros _. apply Exists_cons_hd. now apply K.
        + destruct (IH H2) as [b [E' K']]. exists b. split; [exact E'|]. rewrite K'. split.
          * apply Exists_cons_tl.
          * intros X. inversion X; subst; [|assumption]. apply K in H0. discriminate.
    Qed.
    Lemma stateless_stops rules : forallb stateless rules = true ->
      stops_by np64 rules (composite_any (map checker_of rules)).
    Proof.
      intros H ss s u u1 _ _ _. destruct (stateless_any ss s rules u1 H) as [b [E K]]. exists b, u1. auto.
    Qed.

    (** With one GoalNotChange among them. *)
    Variables (pre post : list rule) (n : nat) (delta : f64).
    Hypothesis Hpre : forallb stateless pre = true.
    Hypothesis Hpost : forallb stateless post = true.
    Let rules := (pre ++ Steady n delta :: post)%list.

    Definition remembers (ss : list (alg_state vec)) (u : U) : Prop :=
      reference (differ np64 delta) (best_goals ss) (old_goal (w_gnc u)) (change_iter (w_gnc u)).

    Lemma any_app (a b : list (stop_checker U vec)) s u :
      composite_any (a ++ b) s u =
        match composite_any a s u with
        | (Ret true, u1) => (Ret true, u1)
        | (Ret false, u1) => composite_any b s u1
        | (Panic, u1) => (Panic, u1)
        | (NoFuel, u1) => (NoFuel, u1)
        end.
    Proof.
      revert u. induction a as [|c a IH]; intros u; cbn [app composite_any].
      - reflexivity.
      - unfold cbind. destruct (c s u) as [[[]| |] u1]; auto.
    Qed.

    Lemma steady_step ss s u : remembers ss u -> Forall (fun j => j <= as_iter s) (map as_iter ss) ->
      exists b u1, composite_any (map checker_of rules) s u = (Ret b, u1) /\
        (b = true <-> Exists (applies np64 ss s) rules) /\ (b = false -> remembers (ss ++ [s]) u1).
    Proof.
      intros Hr Hi. unfold rules. rewrite map_app. rewrite any_app.
      destruct (stateless_any ss s pre u Hpre) as [b [E K]]. rewrite E. destruct b.
      - exists true, u. split; [reflexivity|]. split; [|discriminate]. split; [|reflexivity]. intros _.
        apply Exists_app. left. now apply K.
      - cbn [map composite_any checker_of]. unfold cbind at 1. unfold not_change, zoom.
        destruct (gnc_step np64 dbg n delta ss s (w_gnc u) Hr Hi) as [b [g' [Eg [Hr' Hs]]]].
        cbn [lget lput at_gnc]. rewrite Eg. set (u1 := World (w_rng u) g' (w_started u) (w_rest u)).
        assert (NP : ~ Exists (applies np64 ss s) pre) by (intros X; apply K in X; discriminate).
        unfold gnc_says in Hs. destruct b.
        + exists true, u1. split; [reflexivity|]. split; [|discriminate]. split; [|reflexivity]. intros _.
          apply Exists_app. right. apply Exists_cons_hd. cbn [applies]. now apply Hs.
        + destruct (stateless_any ss s post u1 Hpost) as [b [E' K']]. exists b, u1. split; [exact E'|].
          split; [|intros _; exact Hr']. rewrite K'. split.
          * intros X. apply Exists_app. right. now apply Exists_cons_tl.
          * intros X. apply Exists_app in X. destruct X as [X|X]; [contradiction|].
            inversion X; subst; [|assumption]. cbn [applies] in H0. apply Hs in H0. discriminate.
    Qed.

    Lemma steady_asked todo : forall done u u1, not_decreasing (map as_iter (done ++ todo)) -> remembers done u ->
      asked (map (composite_any (map checker_of rules)) todo) u (repeat false (List.length todo)) u1 -> remembers (done ++ todo) u1.
    Proof.
      induction todo as [|s todo IH]; intros done u u1 Hn Hr A; cbn [map repeat List.length] in A.
      - inversion A; subst. now rewrite app_nil_r.
      - inversion A as [|q qs u0 b um bs u2 E A' EQ1 EQ2 EQ3 EQ4]; subst.
        assert (Hi : Forall (fun j => j <= as_iter s) (map as_iter done)).
        { rewrite map_app in Hn. cbn [map] in Hn. eapply not_decreasing_app; eauto. }
        destruct (steady_step done s u Hr Hi) as [b [v [E' [_ Hf]]]]. rewrite E in E'. injection E' as <- <-.
        replace (done ++ s :: todo)%list with ((done ++ [s]) ++ todo)%list by (now rewrite <- app_assoc).
        apply (IH (done ++ [s])%list um u1); auto. now rewrite <- app_assoc.
    Qed.

    Lemma steady_stops : stops_by np64 rules (composite_any (map checker_of rules)).
    Proof.
      intros ss s u u1 Hg Hn A.
      assert (Hr : remembers [] u) by (unfold remembers; rewrite Hg; constructor).
      assert (Hr1 : remembers ss u1).
      { apply (steady_asked ss [] u u1); auto. cbn [app]. clear - Hn. revert Hn. rewrite map_app.
        generalize (map as_iter ss) (map as_iter [s]). intros l l'. induction l as [|i l IH]; cbn [app not_decreasing]; auto.
        intros [H1 H2]. split; [|auto]. apply Forall_app in H1. apply H1. }
      assert (Hi : Forall (fun j => j <= as_iter s) (map as_iter ss)).
      { rewrite map_app in Hn. cbn [map] in Hn. eapply not_decreasing_app; eauto. }
      destruct (steady_step ss s u1 Hr1 Hi) as [b [u2 [E [K _]]]]. exists b, u2. auto.
    Qed.

    Lemma iterations_stops k : stops_by np64 [Iterations k] (@max_iterations U vec k).
    Proof.
      intros ss s u u1 _ _ _. destruct (stateless_says ss s (Iterations k) u1 eq_refl) as [b [E K]].
      exists b, u1. split; [exact E|]. rewrite K. split; [apply Exists_cons_hd|].
      intros X. inversion X as [? ? H|? ? H]; subst; [exact H|inversion H].
    Qed.
  End Stop.

  (** ** The genetic programs *)
  Section Programs.
    Context {LM : Libm f32}.
    Variables (np32 : nan_policy 24 128) (np64 : nan_policy 53 1024) (dbg : bool).

    Lemma creator_of (lo hi : f32) size d : (0 < size)%nat -> (0 < d)%nat -> ltb lo hi = true ->
      @random_creator_new f32 (NumGene32 np64 np32) size (repeat (lo, hi) d) = Ret (RandomCreator size (repeat (lo, hi) d)).
    Proof.
      intros Hs Hd H. unfold random_creator_new. apply Nat.ltb_lt in Hs. rewrite Hs.
      cbn [oassert obind]. destruct d as [|d]; [lia|]. cbn [repeat negb oassert obind].
      change ((lo, hi) :: repeat (lo, hi) d) with (repeat (lo, hi) (S d)).
      assert (E : ofold (fun (_ : unit) (i : f32 * f32) => oassert (@ng_lt f32 (NumGene32 np64 np32) (fst i) (snd i))) (repeat (lo, hi) (S d)) tt = Ret tt).
      { generalize (S d). intros k. induction k as [|k IH]; cbn [repeat ofold]; [reflexivity|].
        change (@ng_lt f32 (NumGene32 np64 np32) (fst (lo, hi)) (snd (lo, hi))) with (@ltb 24 128 lo hi). rewrite H. exact IH. }
      rewrite E. reflexivity.
    Qed.

    Lemma program_breeds (lo hi : f32) size d goal families rounds tr chance stop rules loggers :
      (0 < size)%nat -> (0 < d)%nat -> ltb lo hi = true ->
      tr = Tournament families 2 rounds -> is_nan (@b_of_Z 53 1024 _ _ chance) = false -> stops_by np64 rules stop ->
      breeds np64 families rounds chance rules
        (@ga_program W np32 np64 LM dbg lo hi size d goal (tournament_pairs tr) (b_of_Z chance) (Ret stop) loggers).
    Proof.
      intros Hs Hd H E Hc St. unfold ga_program, Gene32, Float32. rewrite (creator_of lo hi size d Hs Hd H). cbn [obind].
      eexists. split; [reflexivity|]. split; [|split].
      - exact (tournament_pairs_by families rounds tr E).
      - exact (mutation_mutates np64 chance Hc).
      - exact St.
    Qed.
    Lemma program_breeds_at_random (lo hi : f32) size d goal chance stop rules loggers :
      (0 < size)%nat -> (0 < d)%nat -> ltb lo hi = true ->
      is_nan (@b_of_Z 53 1024 _ _ chance) = false -> stops_by np64 rules stop ->
      breeds_at_random np64 chance rules
        (@ga_program W np32 np64 LM dbg lo hi size d goal random_pairing (b_of_Z chance) (Ret stop) loggers).
    Proof.
      intros Hs Hd H Hc St. unfold ga_program, Gene32, Float32. rewrite (creator_of lo hi size d Hs Hd H). cbn [obind].
      eexists. split; [reflexivity|]. split; [|split].
      - exact random_pairs_by.
      - exact (mutation_mutates np64 chance Hc).
      - exact St.
    Qed.

    (** ** Limits and moves *)
    Notation FI := (FloatIEEE np32).
    Lemma pow20 : (bpow radix2 20 = 2 ^ 20)%R.
    Proof. unfold bpow. simpl Z.pow_pos. simpl pow. lra. Qed.
    Lemma roundings k : (k <= 15)%nat -> ((1 + bpow radix2 (-24)) ^ k <= 1 + / 1000000)%R.
    Proof.
      intros H. apply Rle_trans with ((1 + bpow radix2 (-24)) ^ 15)%R.
      - apply Rle_pow; [|exact H]. pose proof (bpow_ge_0 radix2 (-24)). lra.
      - unfold bpow. simpl Z.pow_pos. simpl pow. lra.
    Qed.
    Lemma roundings_pos k : (1 <= (1 + bpow radix2 (-24)) ^ k)%R.
    Proof. apply pow_R1_Rle. pose proof (bpow_ge_0 radix2 (-24)). lra. Qed.
    Lemma limit_speed d (l : Z) : (d <= 8)%nat -> (1 <= l <= 2 ^ 24)%Z ->
      limits_speed (W := W) d (IZR l) [fun v => cret (@max_velocity_abs f32 FI (b_of_Z l) v)].
    Proof.
      intros Hd Hl. eexists. split; [reflexivity|]. intros v u B.
      destruct (of_Z_exact (prec := 24) (emax := 128) l) as [Fl El]; [rewrite Z.abs_eq by lia; lia|].
      assert (L1 : (1 <= IZR l)%R) by (apply IZR_le; lia).
      assert (L2 : (IZR l <= 2 ^ 24)%R) by (replace (2 ^ 24)%R with (IZR (2 ^ 24)) by (simpl pow; simpl Z.pow; lra); apply IZR_le; lia).
      assert (N : is_finite (@velocity_norm f32 FI v) = true).
      { apply (norm_small np32 v d 20); [lia|lia| |].
        - unfold M. apply Rle_lt_trans with (bpow radix2 43).
          + change 43%Z with (3 + 2 * 20)%Z. rewrite bpow_plus. apply Rmult_le_compat_r; [apply bpow_ge_0|].
            change (bpow radix2 3) with 8%R. rewrite INR_IZR_INZ. apply IZR_le. lia.
          + apply bpow_lt. lia.
        - rewrite pow20. exact B. }
      assert (Z0 : leb (Binary.B754_zero false : f32) (b_of_Z l) = true).
      { apply leb_key. destruct l as [|p|p]; try lia. split; [reflexivity|]. split; [now apply finite_not_nan|].
        rewrite !key_finite by (auto; reflexivity). rewrite El. cbn [Binary.B2R]. lra. }
      assert (Nn : is_nan (@velocity_norm f32 FI v) = false) by now apply finite_not_nan.
      assert (Nl : is_nan (b_of_Z l : f32) = false) by now apply finite_not_nan.
      destruct B as [Lv Fv].
      pose proof (norm_accuracy np32 ltac:(lia) v N) as [C1 C2]. rewrite Lv in C1, C2.
      change (- (24))%Z with (-24)%Z in *. fold (@speed 24 128 v) in C1, C2.
      pose proof (underflow_small d Hd) as US. pose proof (roundings (d + 3) ltac:(lia)) as K1. pose proof (roundings_pos (d + 3)) as K2.
      assert (U0 : (0 <= underflow 24 128 d)%R) by apply sqrt_pos.
      assert (S0 : (0 <= speed v)%R) by apply sqrt_pos.
      assert (T0 : (bpow radix2 (-60) <= / 1000000000)%R) by (unfold bpow; simpl Z.pow_pos; lra).
      set (nv := Binary.B2R 24 128 (@velocity_norm f32 FI v)) in *. set (kk := ((1 + bpow radix2 (-24)) ^ (d + 3))%R) in *.
      change (nv <= kk * (speed v + underflow 24 128 d))%R in C1. change (speed v <= kk * (nv + underflow 24 128 d))%R in C2.
      exists (@max_velocity_abs f32 FI (b_of_Z l) v). split; [reflexivity|].
      split; [rewrite (max_abs_length np32 (b_of_Z l) v); exact Lv|]. split.
      - intros Hs. apply (max_abs_within np32 (b_of_Z l) v).
        match goal with |- ?t = false => destruct t eqn:E end; [|reflexivity]. exfalso.
        apply ltb_key in E. destruct E as [_ [_ E]]. rewrite !key_finite in E by assumption. rewrite El in E. change (IZR l < nv)%R in E.
        assert (H : (kk * (speed v + underflow 24 128 d) <= (1 + / 1000000) * (IZR l * (1 - / 100000) + / 1000000000))%R).
        { apply Rmult_le_compat; lra. }
        lra.
      - intros Hs.
        assert (E : ltb (b_of_Z l) (@velocity_norm f32 FI v) = true).
        { apply ltb_key. split; [exact Nl|]. split; [exact Nn|]. rewrite !key_finite by assumption. rewrite El. change (IZR l < nv)%R.
          destruct (Rlt_or_le (IZR l) nv) as [G|G]; [exact G|]. exfalso.
          assert (H : (kk * (nv + underflow 24 128 d) <= (1 + / 1000000) * (IZR l + / 1000000000))%R).
          { assert (0 <= nv)%R; [|apply Rmult_le_compat; lra]. unfold nv.
            destruct (Rle_or_lt 0 nv) as [Q|Q]; [exact Q|]. exfalso.
            assert (kk * (nv + underflow 24 128 d) <= kk * underflow 24 128 d)%R by (apply Rmult_le_compat_l; lra).
            assert (kk * underflow 24 128 d <= (1 + / 1000000) * / 1000000000)%R by (apply Rmult_le_compat; lra). lra. }
          lra. }
        destruct (norm_limit np32 ltac:(lia) 64 eq_refl (b_of_Z l) v N Z0 E) as [_ [[D1 D2] _]].
        rewrite Lv in D1, D2. change (- (24))%Z with (-24)%Z in *. rewrite El in D1, D2.
        fold (@speed 24 128 (@max_velocity_abs f32 FI (b_of_Z l) v)) in D1, D2.
        pose proof (roundings (d + 7) ltac:(lia)) as K3. pose proof (roundings_pos (d + 7)) as K4.
        set (y := speed (@max_velocity_abs f32 FI (b_of_Z l) v)) in *. assert (Y0 : (0 <= y)%R) by apply sqrt_pos.
        set (k7 := ((1 + bpow radix2 (-24)) ^ (d + 7))%R) in *.
        change (y <= k7 * (IZR l + 4 * underflow 24 128 d))%R in D1. change (IZR l <= k7 * (y + 4 * underflow 24 128 d))%R in D2.
        assert (H1 : (k7 * (IZR l + 4 * underflow 24 128 d) <= (1 + / 1000000) * (IZR l + 4 * / 1000000000))%R) by (apply Rmult_le_compat; lra).
        assert (H2 : (k7 * (y + 4 * underflow 24 128 d) <= (1 + / 1000000) * (y + 4 * / 1000000000))%R) by (apply Rmult_le_compat; lra).
        apply Rabs_le. split; lra.
    Qed.

    Lemma nth_error_box (lo hi : f32) d k : k < d -> nth_error (repeat (lo, hi) d) k = Some (lo, hi).
    Proof. intros H. rewrite (nth_error_nth' _ (lo, hi)); [now rewrite nth_repeat|now rewrite repeat_length]. Qed.
    Lemma boundary_moves d (lo hi : f32) : ltb lo hi = true ->
      moves_into (W := W) d lo hi (fun x => cpure (@move_to_boundary f32 FI (repeat (lo, hi) d) x)).
    Proof.
      intros Hlh x u Hx. 
      pose proof (@move_to_boundary_eq f32 FI (repeat (lo, hi) d) x) as E. rewrite repeat_length in E. specialize (E Hx).
      eexists. split; [unfold cpure; rewrite E; reflexivity|].
      destruct (boundary_cases np32 _ _ _ E) as [L1 [_ K]]. split; [exact (eq_trans L1 Hx)|].
      intros k a b Ha Hb.
      assert (Hk : nth_error (repeat (lo, hi) d) k = Some (lo, hi)).
      { apply nth_error_box. rewrite <- Hx. apply nth_error_Some. congruence. }
      apply (K k a b lo hi Ha Hb Hk). apply ltb_key in Hlh. apply leb_key. destruct Hlh as [A [B C]]. repeat split; auto. lra.
    Qed.

    Lemma zoom_rng {A} (c : comp rng A) (u : U) (o : outcome A) n : c (w_rng u) = (o, shift n (w_rng u)) -> zoom at_rng c u = (o, drew n u).
    Proof. intros H. unfold zoom. cbn [lget lput at_rng]. rewrite H. reflexivity. Qed.
    Lemma canonical_teleports (lo hi chance : f32) rt d :
      @random_teleport_new f32 FI (repeat (lo, hi) d) chance = Ret rt ->
      teleports (W := W) np32 d lo hi chance (fun x => zoom at_rng (@random_teleport_post_move f32 FI _ np32 rt x)).
    Proof.
      intros E x u Hx dice. subst d. assert (Hx := eq_refl (List.length x)).
      destruct (teleport_move np32 np32 _ _ _ x (w_rng u) E) as [_ [K1 K2]]. rewrite repeat_length in K1, K2.
      split.
      - intros H. apply (zoom_rng _ u (Ret x) 1). apply K1; [exact Hx|].
        fold dice. destruct (ltb dice chance) eqn:L; [|reflexivity]. exfalso. apply ltb_key in L. apply leb_key in H. destruct L as [_ [_ L]], H as [_ [_ H]]. lra.
      - intros H. destruct (K2 Hx H) as [y [Ey [Ly Ky]]]. exists y. split; [|split; [exact (eq_trans Ly Hx)|]].
        + exact (zoom_rng _ u (Ret y) _ Ey).
        + intros k b Hb. apply (Ky k lo hi b); [|exact Hb]. apply nth_error_box. refine (Nat.lt_le_trans _ _ _ _ (Nat.eq_le_incl _ _ Ly)). apply nth_error_Some. intros K. pose proof (eq_trans (eq_sym K) Hb). discriminate.
    Qed.

    Definition paced (pace : option Z) : bool := match pace with None => true | Some l => (1 <=? l)%Z && (l <=? 2 ^ 24)%Z end.
    Definition pace_of (pace : option Z) : list (vec -> comp U vec) :=
      match pace with None => [] | Some l => [fun v => cret (@max_velocity_abs f32 FI (b_of_Z l) v)] end.
    Lemma program_swarms (lo hi : f32) n d calc goal pace stop rules loggers (M : (swarm f32 -> particle f32 -> comp U vec) -> Prop) :
      M calc -> stops_by np64 rules stop -> ltb lo hi = true -> (d <= 8)%nat -> paced pace = true ->
      swarms np32 np64 d lo hi (option_map IZR pace) None M rules
        (@pso_program W np32 np64 lo hi n d (Ret calc) goal (pace_of pace) (Ret []) (Ret stop) loggers).
    Proof.
      intros H St Hlh Hd Hp. unfold pso_program. cbn [obind]. eexists. split; [reflexivity|]. split; [exact H|]. split; [exact St|]. split.
      - destruct pace as [l|]; [|reflexivity]. apply limit_speed; [exact Hd|]. apply andb_prop in Hp. destruct Hp. split; now apply Z.leb_le.
      - eexists. split; [reflexivity|]. now apply boundary_moves.
    Qed.
    Lemma program_swarms_teleport (lo hi chance : f32) n d calc goal pace stop rules loggers (M : (swarm f32 -> particle f32 -> comp U vec) -> Prop) f :
      M calc -> stops_by np64 rules stop -> ltb lo hi = true -> (d <= 8)%nat -> paced pace = true ->
      teleports np32 d lo hi chance f ->
      swarms np32 np64 d lo hi (option_map IZR pace) (Some chance) M rules
        (@pso_program W np32 np64 lo hi n d (Ret calc) goal (pace_of pace) (Ret [f]) (Ret stop) loggers).
    Proof.
      intros H St Hlh Hd Hp Hf. unfold pso_program. cbn [obind]. eexists. split; [reflexivity|]. split; [exact H|]. split; [exact St|]. split.
      - destruct pace as [l|]; [|reflexivity]. apply limit_speed; [exact Hd|]. apply andb_prop in Hp. destruct Hp. split; now apply Z.leb_le.
      - eexists. eexists. split; [reflexivity|]. split; [exact Hf|]. now apply boundary_moves.
    Qed.

    (** ** Velocity calculators *)
    Definition close (x : f32) (p q : Z) : bool :=
      match x with
      | Binary.B754_finite false m (Zneg k) _ =>
          ((Z.abs (Zpos m * q - p * 2 ^ Zpos k) * 1000000 <=? q * 2 ^ Zpos k) && (0 <? q))%Z
      | _ => false
      end.
    Lemma close_near x p q : close x p q = true -> near x (IZR p / IZR q).
    Proof.
      destruct x as [s|s|s pl e|s m e B]; try discriminate. destruct s; try discriminate.
      destruct e as [|k|k]; try discriminate. cbn [close]. intros H. apply andb_prop in H. destruct H as [H1 H2].
      apply Z.leb_le in H1. apply Z.ltb_lt in H2. split; [reflexivity|].
      cbn [Binary.B2R]. unfold F2R. cbn [Fnum Fexp cond_Zopp].
      assert (P : (0 < 2 ^ Zpos k)%Z) by (apply Z.pow_pos_nonneg; lia).
      set (D := (2 ^ Zpos k)%Z) in *.
      assert (E : bpow radix2 (Zneg k) = (/ IZR D)%R).
      { change (Zneg k) with (- Zpos k)%Z. rewrite bpow_opp. reflexivity. }
      rewrite E. apply IZR_le in H1. rewrite !mult_IZR, abs_IZR, minus_IZR, !mult_IZR in H1.
      assert (Pq : (0 < IZR q)%R) by (apply IZR_lt; lia). assert (PD : (0 < IZR D)%R) by (apply IZR_lt; lia).
      replace (IZR (Zpos m) * / IZR D - IZR p / IZR q)%R with ((IZR (Zpos m) * IZR q - IZR p * IZR D) * / (IZR q * IZR D))%R
        by (field; split; lra).
      rewrite Rabs_mult. rewrite (Rabs_pos_eq (/ (IZR q * IZR D))).
      2:{ apply Rlt_le, Rinv_0_lt_compat. apply Rmult_lt_0_compat; lra. }
      assert (PQ : (0 < IZR q * IZR D)%R) by (apply Rmult_lt_0_compat; lra).
      apply Rmult_le_reg_r with (IZR q * IZR D)%R; [exact PQ|].
      rewrite Rmult_assoc, Rinv_l by lra. rewrite Rmult_1_r. lra.
    Qed.
    Lemma canonical_constricted phi_p phi_g xi p q : close xi p q = true ->
      constricted np32 phi_p phi_g (IZR p / IZR q) (fun s c => zoom (@at_rng W) (@canonical_velocity f32 (FloatIEEE np32) np32 phi_p phi_g xi s c)).
    Proof.
      intros H. exists xi. split; [now apply close_near|]. intros s c u b Hb C1 C2 C3.
      destruct (@canonical_returns f32 (FloatIEEE np32) np32 phi_p phi_g xi s c (w_rng u) b Hb C1 C2 C3) as [y [E [L K]]].
      exists y. split; [|split; [exact L|]].
      - unfold zoom. cbn [lget lput at_rng]. rewrite E. reflexivity.
      - intros k v b' x g H1 H2 H3 H4. exact (K k v b' x g H1 H2 H3 H4).
    Qed.
    Lemma inertia_weighted phi_p phi_g w :
      weighted (W := W) np32 phi_p phi_g w (@inertia_velocity f32 (FloatIEEE np32) np32 _ at_rng phi_p phi_g (fun t => cret (const_inertia w t)) : swarm f32 -> particle f32 -> comp U vec).
    Proof.
      intros s c u b Hb C1 C2 C3.
      destruct (@inertia_returns f32 (FloatIEEE np32) np32 U at_rng lens_rng phi_p phi_g (fun t => cret (const_inertia w t)) s c u b w u
        Hb C1 C2 C3 eq_refl) as [y [E [L K]]].
      exists y. split; [exact E|]. split; [exact L|].
      intros k v b' x g H1 H2 H3 H4. exact (K k v b' x g H1 H2 H3 H4).
    Qed.
    Lemma negative_reinforced a1 a2 a3 a4 a5 a6 xi p q : close xi p q = true ->
      reinforced np32 np64 a1 a2 a3 a4 a5 a6 (IZR p / IZR q)
        (fun s c => zoom (@at_rng W) (@negative_velocity f32 (FloatIEEE np32) np64 (NegativeReinforcement a1 a2 a3 a4 a5 a6 xi) s c)).
    Proof.
      intros H. exists xi. split; [now apply close_near|]. intros s c u bg wg bc wc Hb Hw Hbc Hwc C1 C2 C3 C4 C5 C6 C7.
      destruct (@negative_returns f32 (FloatIEEE np32) np64 (NegativeReinforcement a1 a2 a3 a4 a5 a6 xi) s c (w_rng u) bg wg bc wc
        Hb Hw Hbc Hwc C1 C2 C3 C4 C5 C6 C7) as [y [E [L K]]].
      exists y. split; [|split; [exact L|]].
      - unfold zoom. cbn [lget lput at_rng]. rewrite E. reflexivity.
      - intros i v x b1 b2 b3 w1 w2 w3 H1 H2 H3 H4 H5 H6 H7 H8 pull.
        rewrite (K i v x b1 b2 b3 w1 w2 w3 H1 H2 H3 H4 H5 H6 H7 H8). unfold pull. rewrite Nat.add_0_r. reflexivity.
    Qed.
  End Programs.
End Settings.

Lemma lit_0_2 : f32_0_2 = decimal32 2 1. Proof. same_float. Qed.
Lemma lit_0_9 : f32_0_9 = decimal32 9 1. Proof. same_float. Qed.
Lemma lit_3_2 : f32_3_2 = decimal32 32 1. Proof. same_float. Qed.
Lemma lit_3_4 : f32_3_4 = decimal32 34 1. Proof. same_float. Qed.
Lemma lit_2_2 : f32_2_2 = decimal32 22 1. Proof. same_float. Qed.
Lemma lit_0_6 : f32_0_6 = decimal32 6 1. Proof. same_float. Qed.
Lemma lit_0_85 : f32_0_85 = decimal32 85 2. Proof. same_float. Qed.
Lemma lit_1em10 : f64_1em10 = decimal64 1 10. Proof. same_float. Qed.

Section Runs.
  Context {W : Type}.
  Variables (write : string -> comp W bool) (now : comp W Z).
  Variable fmt : formatter f32.
  Variables (np32 : nan_policy 24 128) (np64 : nan_policy 53 1024).
  Context {LM : Libm f32}.
  Variable dbg : bool.
  Notation ten := (decimal64 1).
  Ltac fin := vm_compute; reflexivity.

  Lemma ga_paraboloid_set : breeds np64 100 2 15 [AtMost (ten 6); Iterations 3000] (genetic_paraboloid write now fmt np32 np64 dbg).
  Proof.
    rewrite <- lit_1em6. unfold genetic_paraboloid. rewrite any_cons.
    apply program_breeds; [lia|lia|fin|reflexivity|fin|]. exact (stateless_stops np64 true [AtMost f64_1em6; Iterations 3000] eq_refl).
  Qed.
  Lemma ga_rastrigin_set : breeds np64 10 5 15 [AtMost (ten 4); Iterations 3000] (genetic_rastrigin write now fmt np32 np64 dbg).
  Proof.
    rewrite <- lit_1em4. unfold genetic_rastrigin. rewrite any_cons.
    apply program_breeds; [lia|lia|fin|reflexivity|fin|]. exact (stateless_stops np64 true [AtMost f64_1em4; Iterations 3000] eq_refl).
  Qed.
  Lemma ga_rosenbrock_set : breeds np64 300 5 85 [Steady 3000 (ten 9)] (genetic_rosenbrock write now fmt np32 np64 dbg).
  Proof.
    rewrite <- lit_1em9. unfold genetic_rosenbrock. rewrite any_cons.
    apply program_breeds; [lia|lia|fin|reflexivity|fin|]. exact (steady_stops np64 dbg [] [] 3000 f64_1em9 eq_refl eq_refl).
  Qed.
  Lemma ga_schwefel_set : breeds np64 250 5 15 [AtMost (ten 4); Iterations 3000] (genetic_schwefel write now fmt np32 np64 dbg).
  Proof.
    rewrite <- lit_1em4. unfold genetic_schwefel. rewrite any_cons.
    apply program_breeds; [lia|lia|fin|reflexivity|fin|]. exact (stateless_stops np64 true [AtMost f64_1em4; Iterations 3000] eq_refl).
  Qed.
  Lemma ga_schwefel_iterative_set : breeds np64 250 5 15 [Iterations 100] (genetic_schwefel_iterative write now fmt np32 np64 dbg).
  Proof.
    unfold genetic_schwefel_iterative.
    apply program_breeds; [lia|lia|fin|reflexivity|fin|]. exact (iterations_stops np64 true 100).
  Qed.
  Lemma ga_test_paraboloid_set : breeds (W := W) np64 400 2 15 [AtMost (ten 6); Steady 150 (ten 7); Iterations 5000] (test_genetic_paraboloid np32 np64 dbg).
  Proof.
    rewrite <- lit_1em6, <- lit_1em7. unfold test_genetic_paraboloid. rewrite any_cons.
    apply program_breeds; [lia|lia|fin|reflexivity|fin|].
    exact (steady_stops np64 dbg [AtMost f64_1em6] [Iterations 5000] 150 f64_1em7 eq_refl eq_refl).
  Qed.
  Lemma ga_test_rastrigin_set : breeds (W := W) np64 10 5 15 [AtMost (ten 4); Steady 200 (ten 7); Iterations 3000] (test_genetic_rastrigin np32 np64 dbg).
  Proof.
    rewrite <- lit_1em4, <- lit_1em7. unfold test_genetic_rastrigin. rewrite any_cons.
    apply program_breeds; [lia|lia|fin|reflexivity|fin|].
    exact (steady_stops np64 dbg [AtMost f64_1em4] [Iterations 3000] 200 f64_1em7 eq_refl eq_refl).
  Qed.
  Lemma ga_test_schwefel_set : breeds (W := W) np64 400 5 15 [AtMost (ten 4); Steady 200 (ten 7); Iterations 3000] (test_genetic_schwefel np32 np64 dbg).
  Proof.
    rewrite <- lit_1em4, <- lit_1em7. unfold test_genetic_schwefel. rewrite any_cons.
    apply program_breeds; [lia|lia|fin|reflexivity|fin|].
    exact (steady_stops np64 dbg [AtMost f64_1em4] [Iterations 3000] 200 f64_1em7 eq_refl eq_refl).
  Qed.
  Lemma ga_stat_schwefel_set loggers goal : breeds np64 50 5 10 [Iterations 3000] (create_genetic_schwefel np32 np64 dbg loggers goal).
  Proof.
    unfold create_genetic_schwefel. rewrite any_cons.
    apply program_breeds; [lia|lia|fin|reflexivity|fin|]. exact (stateless_stops np64 true [Iterations 3000] eq_refl).
  Qed.
  Lemma ga_stat_paraboloid_set : breeds np64 400 2 15 [AtMost (ten 6); Steady 150 (ten 7); Iterations 5000] (create_stat_paraboloid np32 np64 dbg).
  Proof.
    rewrite <- lit_1em6, <- lit_1em7. unfold create_stat_paraboloid. rewrite any_cons.
    apply program_breeds; [lia|lia|fin|reflexivity|fin|].
    exact (steady_stops np64 dbg [AtMost f64_1em6] [Iterations 5000] 150 f64_1em7 eq_refl eq_refl).
  Qed.
  Lemma ga_stat_rosenbrock_set loggers goal : breeds_at_random np64 80 [AtMost (ten 6); Steady 2000 (ten 7)] (create_genetic_rosenbrock np32 np64 dbg loggers goal).
  Proof.
    rewrite <- lit_1em6, <- lit_1em7. unfold create_genetic_rosenbrock. rewrite any_cons.
    apply program_breeds_at_random; [lia|lia|fin|fin|].
    exact (steady_stops np64 dbg [AtMost f64_1em6] [] 2000 f64_1em7 eq_refl eq_refl).
  Qed.
  Lemma ga_test_rosenbrock_set : breeds_at_random np64 80 [AtMost (ten 6); Steady 2000 (ten 7)] (create_test_rosenbrock np32 np64 dbg).
  Proof.
    rewrite <- lit_1em6, <- lit_1em7. unfold create_test_rosenbrock. rewrite any_cons.
    apply program_breeds_at_random; [lia|lia|fin|fin|].
    exact (steady_stops np64 dbg [AtMost f64_1em6] [] 2000 f64_1em7 eq_refl eq_refl).
  Qed.

  (** ** Swarms *)
  Notation FI := (FloatIEEE np32).
  Lemma xi_close (phi_p phi_g alpha xi : f32) p q : @canonical_new f32 FI phi_p phi_g alpha = Ret xi ->
    match @canonical_new f32 FI phi_p phi_g alpha with Ret x => close x p q | _ => false end = true -> close xi p q = true.
  Proof. intros ->. auto. Qed.
  Lemma lit_0_05 : f32_0_05 = decimal32 5 2. Proof. same_float. Qed.
  Lemma canonical_moves {V} (phi_p phi_g k : f32) p q :
    ltb (b_of_Z 4) (b_add np32 phi_p phi_g) = true -> ltb (Binary.B754_zero false) k = true -> ltb k (b_of_Z 1) = true ->
    match @canonical_new f32 FI phi_p phi_g k with Ret x => close x p q | _ => false end = true ->
    exists calc, @canonical V np32 phi_p phi_g k = Ret calc /\ constricted np32 phi_p phi_g (IZR p / IZR q) calc.
  Proof.
    intros H1 H2 H3 H4. destruct (canonical_ok np32 phi_p phi_g k H1 H2 H3) as [xi Hxi].
    eexists. split; [exact (canonical_is np32 _ _ _ _ Hxi)|].
    apply canonical_constricted. exact (xi_close _ _ _ _ _ _ Hxi H4).
  Qed.
  Lemma canonical_swarms {V} (lo hi : f32) n d (phi_p phi_g k : f32) p q pace goal stop rules loggers :
    ltb (b_of_Z 4) (b_add np32 phi_p phi_g) = true -> ltb (Binary.B754_zero false) k = true -> ltb k (b_of_Z 1) = true ->
    match @canonical_new f32 FI phi_p phi_g k with Ret x => close x p q | _ => false end = true ->
    ltb lo hi = true -> d <= 8 -> paced pace = true ->
    stops_by np64 rules stop ->
    swarms np32 np64 d lo hi (option_map IZR pace) None (constricted np32 phi_p phi_g (IZR p / IZR q)) rules
      (@pso_program V np32 np64 lo hi n d (canonical np32 phi_p phi_g k) goal (pace_of np32 pace) (Ret []) (Ret stop) loggers).
  Proof.
    intros H1 H2 H3 H4 Hlh Hd Hp St. destruct (canonical_moves (V := V) _ _ _ _ _ H1 H2 H3 H4) as [calc [-> Hc]].
    now apply program_swarms.
  Qed.
  Lemma canonical_teleporting (lo hi chance : f32) n (phi_p phi_g k : f32) p q pace goal stop rules loggers :
    ltb (b_of_Z 4) (b_add np32 phi_p phi_g) = true -> ltb (Binary.B754_zero false) k = true -> ltb k (b_of_Z 1) = true ->
    match @canonical_new f32 FI phi_p phi_g k with Ret x => close x p q | _ => false end = true ->
    ltb lo hi = true -> paced pace = true -> is_finite lo = true -> is_finite hi = true ->
    leb (b_of_Z 0) chance = true -> leb chance (b_of_Z 1) = true -> leb lo hi = true ->
    stops_by np64 rules stop ->
    swarms np32 np64 3 lo hi (option_map IZR pace) (Some chance) (constricted np32 phi_p phi_g (IZR p / IZR q)) rules
      (@pso_program run_data np32 np64 lo hi n 3 (canonical np32 phi_p phi_g k) goal (pace_of np32 pace) (teleport np32 lo hi 3 chance) (Ret stop) loggers).
  Proof.
    intros H1 H2 H3 H4 Hlh Hp Fl Fh C0 C1 Hle St. destruct (canonical_moves (V := run_data) _ _ _ _ _ H1 H2 H3 H4) as [calc [-> Hc]].
    pose proof (teleport_ok np32 lo hi chance C0 C1 Hle Fl Fh) as E.
    unfold teleport. rewrite E. cbn [obind].
    apply program_swarms_teleport; try assumption; [lia|]. exact (canonical_teleports np32 lo hi chance _ 3 E).
  Qed.
  Lemma pso_paraboloid_set : swarms np32 np64 5 (b_of_Z (-100)) (b_of_Z 100) (Some 10%R) None
    (constricted np32 (b_of_Z 2) (b_of_Z 6) (1 / 15))
    [AtMost (ten 6); Steady 150 (ten 7); Iterations 3000] (particleswarm_paraboloid write now fmt np32 np64 dbg).
  Proof.
    rewrite <- lit_1em6, <- lit_1em7. unfold particleswarm_paraboloid. rewrite any_cons.
    apply (canonical_swarms _ _ _ _ _ _ _ 1 15 (Some 10%Z)); [fin|fin|fin|fin|fin|lia|reflexivity|].
    exact (steady_stops np64 dbg [AtMost f64_1em6] [Iterations 3000] 150 f64_1em7 eq_refl eq_refl).
  Qed.
  Lemma pso_rastrigin_set : swarms np32 np64 3 (decimal32 (-512) 2) (decimal32 512 2) None None
    (constricted np32 (b_of_Z 2) (b_of_Z 5) (2 / 25))
    [AtMost (ten 6); Steady 150 (ten 8); Iterations 3000] (particleswarm_rastrigin write now fmt np32 np64 dbg).
  Proof.
    rewrite <- lit_5_12, <- lit_m5_12, <- lit_1em6, <- lit_1em8. unfold particleswarm_rastrigin. rewrite any_cons.
    apply (canonical_swarms _ _ _ _ _ _ _ 2 25 None); [fin|fin|fin|fin|fin|lia|reflexivity|].
    exact (steady_stops np64 dbg [AtMost f64_1em6] [Iterations 3000] 150 f64_1em8 eq_refl eq_refl).
  Qed.
  Lemma pso_rosenbrock_set : swarms np32 np64 3 (b_of_Z (-2)) (b_of_Z 2) None None
    (constricted np32 (b_of_Z 1) (b_of_Z 8) (2 / 35))
    [AtMost (ten 6); Steady 150 (ten 8); Iterations 3000] (particleswarm_rosenbrock write now fmt np32 np64 dbg).
  Proof.
    rewrite <- lit_1em6, <- lit_1em8. unfold particleswarm_rosenbrock. rewrite any_cons.
    apply (canonical_swarms _ _ _ _ _ _ _ 2 35 None); [fin|fin|fin|fin|fin|lia|reflexivity|].
    exact (steady_stops np64 dbg [AtMost f64_1em6] [Iterations 3000] 150 f64_1em8 eq_refl eq_refl).
  Qed.
  Lemma pso_schwefel_set : swarms np32 np64 3 (b_of_Z (-500)) (b_of_Z 500) (Some 700%R) None
    (constricted np32 (decimal32 32 1) (b_of_Z 1) (9 / 11))
    [AtMost (ten 6); Steady 150 (ten 8); Iterations 3000] (particleswarm_schwefel write now fmt np32 np64 dbg).
  Proof.
    rewrite <- lit_1em6, <- lit_1em8, <- lit_3_2. unfold particleswarm_schwefel. rewrite any_cons.
    apply (canonical_swarms _ _ _ _ _ _ _ 9 11 (Some 700%Z)); [fin|fin|fin|fin|fin|lia|reflexivity|].
    exact (steady_stops np64 dbg [AtMost f64_1em6] [Iterations 3000] 150 f64_1em8 eq_refl eq_refl).
  Qed.
  Lemma pso_schwefel_iterative_set : swarms np32 np64 3 (b_of_Z (-500)) (b_of_Z 500) (Some 700%R) None
    (constricted np32 (decimal32 32 1) (b_of_Z 1) (9 / 11))
    [Iterations 50] (particleswarm_schwefel_iterative write now fmt np32 np64).
  Proof.
    rewrite <- lit_3_2. unfold particleswarm_schwefel_iterative.
    apply (canonical_swarms _ _ _ _ _ _ _ 9 11 (Some 700%Z)); [fin|fin|fin|fin|fin|lia|reflexivity|]. exact (iterations_stops np64 true 50).
  Qed.
  Lemma pso_test_paraboloid_set : swarms (W := W) np32 np64 5 (b_of_Z (-100)) (b_of_Z 100) None None
    (constricted np32 (b_of_Z 2) (b_of_Z 6) (1 / 15))
    [AtMost (ten 6); Steady 150 (ten 7); Iterations 3000] (test_particleswarm_paraboloid np32 np64 dbg).
  Proof.
    rewrite <- lit_1em6, <- lit_1em7. unfold test_particleswarm_paraboloid. rewrite any_cons.
    apply (canonical_swarms _ _ _ _ _ _ _ 1 15 None); [fin|fin|fin|fin|fin|lia|reflexivity|].
    exact (steady_stops np64 dbg [AtMost f64_1em6] [Iterations 3000] 150 f64_1em7 eq_refl eq_refl).
  Qed.
  Lemma pso_stat_schwefel_set loggers goal : swarms np32 np64 3 (b_of_Z (-500)) (b_of_Z 500) (Some 700%R) (Some (decimal32 5 2))
    (constricted np32 (decimal32 32 1) (b_of_Z 1) (9 / 11))
    [AtMost (ten 8); Iterations 3000] (create_particleswarm_schwefel np32 np64 loggers goal).
  Proof.
    rewrite <- lit_0_05, <- lit_1em8, <- lit_3_2. unfold create_particleswarm_schwefel. rewrite any_cons.
    apply (canonical_teleporting _ _ _ _ _ _ _ 9 11 (Some 700%Z)); [fin|fin|fin|fin|fin|reflexivity|fin|fin|fin|fin|fin|].
    exact (stateless_stops np64 true [AtMost f64_1em8; Iterations 3000] eq_refl).
  Qed.
  Lemma pso_stat_rosenbrock_set loggers goal : swarms np32 np64 3 (b_of_Z (-2)) (b_of_Z 2) (Some 2%R) (Some (b_of_Z 0))
    (constricted np32 (decimal32 34 1) (b_of_Z 1) (3 / 4))
    [AtMost (ten 8); Steady 500 (ten 10)] (create_particleswarm_rosenbrock np32 np64 dbg loggers goal).
  Proof.
    rewrite <- lit_1em8, <- lit_1em10, <- lit_3_4. unfold create_particleswarm_rosenbrock. rewrite any_cons.
    apply (canonical_teleporting _ _ _ _ _ _ _ 3 4 (Some 2%Z)); [fin|fin|fin|fin|fin|reflexivity|fin|fin|fin|fin|fin|].
    exact (steady_stops np64 dbg [AtMost f64_1em8] [] 500 f64_1em10 eq_refl eq_refl).
  Qed.
  Lemma pso_stat_full_set loggers goal :
    swarms np32 np64 3 (b_of_Z (-500)) (b_of_Z 500) (Some 700%R) None
    (reinforced np32 np64 (decimal32 32 1) (b_of_Z 0) (b_of_Z 1) (b_of_Z 0) (b_of_Z 0) (b_of_Z 0) (9 / 11))
    [AtMost (ten 6); Steady 50 (ten 8); Iterations 1000] (create_particleswarm_schwefel_full np32 np64 dbg loggers goal).
  Proof.
    rewrite <- lit_1em6, <- lit_1em8, <- lit_3_2. unfold create_particleswarm_schwefel_full. rewrite any_cons.
    apply (program_swarms np32 np64 _ _ _ _ _ _ (Some 700%Z)); [|exact (steady_stops np64 dbg [AtMost f64_1em6] [Iterations 1000] 50 f64_1em8 eq_refl eq_refl)|fin|lia|reflexivity].
    apply (negative_reinforced np32 np64 f32_3_2 (b_of_Z 0) (b_of_Z 1) (b_of_Z 0) (b_of_Z 0) (b_of_Z 0) _ 9 11). fin.
  Qed.
  Lemma pso_stat_inertia_set (lo hi : f32) loggers goal : ltb lo hi = true ->
    swarms np32 np64 3 lo hi (Some 700%R) None
    (weighted np32 (decimal32 22 1) (decimal32 6 1) (decimal32 85 2))
    [AtMost (ten 6); Steady 50 (ten 8); Iterations 400] (create_particleswarm_inertia np32 np64 dbg lo hi loggers goal).
  Proof.
    intros Hlh.
    rewrite <- lit_1em6, <- lit_1em8, <- lit_2_2, <- lit_0_6, <- lit_0_85. unfold create_particleswarm_inertia. rewrite any_cons.
    apply (program_swarms np32 np64 _ _ _ _ _ _ (Some 700%Z)); [|exact (steady_stops np64 dbg [AtMost f64_1em6] [Iterations 400] 50 f64_1em8 eq_refl eq_refl)|exact Hlh|lia|reflexivity].
    exact (inertia_weighted np32 f32_2_2 f32_0_6 f32_0_85).
  Qed.
End Runs.
