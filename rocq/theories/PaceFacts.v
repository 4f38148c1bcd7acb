(** * How fast the particles of a swarm fly: proofs *)

From Coq Require Import List Arith ZArith Bool Reals Lia Lra Psatz Classical.
From Flocq Require Import Core IEEE754.BinarySingleNaN IEEE754.Binary.
From Verif Require Import Base Logic FloatModel Rng FloatFacts GaModel GaComponents PsoModel PsoComponents SpecGa SpecPso
  SpecBox SpecRand SpecVel SpecReal SpecSpeed SpecPace ArithFacts SatFacts CreateFacts GaFacts PsoFacts PsoRuns PsoProofs
  PostFacts VelFacts SpeedFacts CalcFacts BoxFacts WithinRuns StillFacts.
Import ListNotations.
Local Open Scope R_scope.

Section Pace.
  Context {prec emax : Z} {Hp : Prec_gt_0 prec} {He : Prec_lt_emax prec emax}.
  Variable np : nan_policy prec emax.
  Notation F := (bfloat prec emax).
  Notation FI := (FloatIEEE np).
  Notation fexp := (SpecFloat.fexp prec emax).
  Notation rnd x := (round radix2 fexp (round_mode mode_NE) x).
  Notation B2R := (Binary.B2R prec emax).
  Notation M := (bpow radix2 emax).

  (** ** Bounds that survive rounding *)
  Definition small (x : F) (a : R) : Prop := is_finite x = true /\ Rabs (B2R x) <= a.
  Definition fits (m : R) : Prop := rnd m = m /\ m < M.
  Lemma fits_rnd m r : fits m -> Rabs r <= m -> Rabs (rnd r) <= m.
  Proof.
    intros [E _] H. apply Rabs_le_inv in H. apply Rabs_le. split.
    - assert (G : rnd (- m) = - m) by (transitivity (- rnd m); [exact (round_NE_opp radix2 fexp m)|now rewrite E]).
      apply Rle_trans with (rnd (- m)); [right; now symmetry|]. apply rnd_le. lra.
    - apply Rle_trans with (rnd m); [|right; exact E]. apply rnd_le. lra.
  Qed.
  Lemma fits_Z n : (0 <= n <= 2 ^ prec)%Z -> fits (IZR n).
  Proof.
    intros H. assert (A : (Z.abs n <= 2 ^ prec)%Z) by lia. split; [apply rnd_format; now apply format_IZR|].
    pose proof (IZR_bound (prec := prec) (emax := emax) n A) as B. apply Rabs_lt_inv in B. lra.
  Qed.
  Lemma fits_bpow e : (0 <= e < emax)%Z -> fits (bpow radix2 e).
  Proof.
    intros H. split; [|apply bpow_lt; lia]. apply rnd_format. apply generic_format_bpow.
    pose proof prec_pos (prec := prec). pose proof prec_emax (prec := prec) (emax := emax).
    unfold SpecFloat.fexp, SpecFloat.emin. lia.
  Qed.
  Lemma fits_B2R (x : F) : fits (Rabs (B2R x)).
  Proof.
    split; [|apply B2R_bound]. apply rnd_format. apply generic_format_abs. apply format_B2R.
  Qed.
  Lemma small_add x y a b m : small x a -> small y b -> a + b <= m -> fits m -> small (b_add np x y) m.
  Proof.
    intros [Fx Hx] [Fy Hy] H Hm.
    assert (G : Rabs (rnd (B2R x + B2R y)) <= m).
    { apply fits_rnd; [exact Hm|]. eapply Rle_trans; [apply Rabs_triang|lra]. }
    destruct (add_correct np x y Fx Fy) as [A B]; [destruct Hm; lra|]. split; [exact A|]. now rewrite B.
  Qed.
  Lemma small_sub x y a b m : small x a -> small y b -> a + b <= m -> fits m -> small (b_sub np x y) m.
  Proof.
    intros [Fx Hx] [Fy Hy] H Hm.
    assert (G : Rabs (rnd (B2R x - B2R y)) <= m).
    { apply fits_rnd; [exact Hm|]. unfold Rminus. eapply Rle_trans; [apply Rabs_triang|]. rewrite Rabs_Ropp. lra. }
    destruct (sub_correct np x y Fx Fy) as [A B]; [destruct Hm; lra|]. split; [exact A|]. now rewrite B.
  Qed.
  Lemma small_mul x y a b m : small x a -> small y b -> a * b <= m -> fits m -> small (b_mul np x y) m.
  Proof.
    intros [Fx Hx] [Fy Hy] H Hm.
    assert (G : Rabs (rnd (B2R x * B2R y)) <= m).
    { apply fits_rnd; [exact Hm|]. rewrite Rabs_mult. pose proof (Rabs_pos (B2R x)). pose proof (Rabs_pos (B2R y)).
      eapply Rle_trans; [|exact H]. apply Rmult_le_compat; auto. }
    destruct (mul_correct np x y Fx Fy) as [A B]; [destruct Hm; lra|]. split; [exact A|]. now rewrite B.
  Qed.
  Lemma small_le x a b : small x a -> a <= b -> small x b.
  Proof. intros [Fx Hx] H. split; [exact Fx|lra]. Qed.

  (** ** The norm of a velocity does not overflow *)
  Lemma fits_scaled (i k : Z) : (0 <= i <= 2 ^ prec)%Z -> (0 <= k)%Z -> rnd (IZR i * bpow radix2 k) = IZR i * bpow radix2 k.
  Proof.
    intros Hi Hk. apply rnd_format. pose proof prec_pos (prec := prec). pose proof prec_emax (prec := prec) (emax := emax).
    destruct (Z.eq_dec i (2 ^ prec)) as [->|N].
    - rewrite (IZR_Zpower radix2) by lia. rewrite <- bpow_plus. apply generic_format_bpow.
      unfold SpecFloat.fexp, SpecFloat.emin. lia.
    - apply generic_format_FLT with (emin := SpecFloat.emin prec emax) (prec := prec).
      apply FLT_spec with (Float radix2 i k); unfold F2R; simpl; [reflexivity| |unfold SpecFloat.emin; lia].
      rewrite Z.abs_eq by lia. change (Z.pow_pos 2) with (fun p => 2 ^ Z.pos p)%Z in *. lia.
  Qed.
  Lemma norm_small (v : list F) (d : nat) (k : Z) : (0 <= k)%Z -> (Z.of_nat d <= 2 ^ prec)%Z ->
    INR d * bpow radix2 (2 * k) < M -> bounded d (bpow radix2 k) v -> is_finite (@velocity_norm F FI v) = true.
  Proof.
    intros Hk Hd HM [L HB]. unfold velocity_norm. cbn [fsqrt fadd fmul fzero FloatIEEE].
    assert (P : forall acc i, (i + length v <= d)%nat -> is_finite acc = true -> 0 <= B2R acc <= INR i * bpow radix2 (2 * k) ->
      let z := fold_left (fun a vi => b_add np a (b_mul np vi vi)) v acc in is_finite z = true /\ 0 <= B2R z).
    { clear L. induction v as [|x v IH]; intros acc i Hi Fa Ha; cbn [fold_left]; [tauto|].
      cbn [length] in Hi. inversion HB as [|? ? [Fx Hx] HB']; subst.
      assert (BS : bpow radix2 (2 * k) < M).
      { eapply Rle_lt_trans; [|exact HM]. pose proof (bpow_gt_0 radix2 (2 * k)).
        assert (1 <= INR d) by (change 1 with (INR 1); apply le_INR; lia). nra. }
      assert (Sq : fits (bpow radix2 (2 * k))).
      { split; [apply rnd_format, generic_format_bpow|exact BS].
        pose proof prec_pos (prec := prec). pose proof prec_emax (prec := prec) (emax := emax).
        unfold SpecFloat.fexp, SpecFloat.emin. lia. }
      assert (Hn : fits (INR (S i) * bpow radix2 (2 * k))).
      { split; [rewrite INR_IZR_INZ; apply fits_scaled; lia|]. eapply Rle_lt_trans; [|exact HM].
        apply Rmult_le_compat_r; [apply bpow_ge_0|]. apply le_INR. lia. }
      assert (XX : Rabs (B2R x * B2R x) <= bpow radix2 (2 * k)).
      { rewrite Rabs_mult. replace (2 * k)%Z with (k + k)%Z by lia. rewrite bpow_plus. pose proof (Rabs_pos (B2R x)).
        apply Rmult_le_compat; auto. }
      assert (Rx : Rabs (rnd (B2R x * B2R x)) <= bpow radix2 (2 * k)) by now apply fits_rnd.
      destruct (mul_correct np x x Fx Fx ltac:(lra)) as [Fq Eq].
      assert (Q0 : 0 <= B2R (b_mul np x x) <= bpow radix2 (2 * k)).
      { rewrite Eq. apply Rabs_le_inv in Rx. split; [apply rnd_pos; nra|lra]. }
      assert (AA : Rabs (B2R acc + B2R (b_mul np x x)) <= INR (S i) * bpow radix2 (2 * k)).
      { rewrite Rabs_pos_eq, S_INR by lra. lra. }
      assert (Ra : Rabs (rnd (B2R acc + B2R (b_mul np x x))) <= INR (S i) * bpow radix2 (2 * k)) by now apply fits_rnd.
      destruct (add_correct np acc (b_mul np x x) Fa Fq ltac:(destruct Hn; lra)) as [Fs Es].
      apply (IH HB' _ (S i)); [lia|exact Fs|]. rewrite Es. apply Rabs_le_inv in Ra. split; [apply rnd_pos; lra|lra]. }
    specialize (P (Binary.B754_zero false) 0%nat ltac:(lia) eq_refl ltac:(cbn; lra)). cbn zeta in P.
    destruct P as [Fz Pz]. set (z := fold_left _ _ _) in *.
    pose proof (Binary.Bsqrt_correct prec emax Hp He (np_sqrt np) mode_NE z) as [_ [G _]]. unfold b_sqrt, is_finite.
    rewrite G. destruct z as [s|s|s pl q|[|] m e q]; try reflexivity; try discriminate Fz.
    exfalso. assert (F2R (Float radix2 (Z.neg m) e) < 0) by (apply F2R_lt_0; simpl; lia). cbn in Pz. unfold F2R in *. simpl in *. lra.
  Qed.

  (** ** Runs *)
  Lemma component_speed (v : list F) x : In x v -> Rabs (B2R x) <= speed v.
  Proof.
    intros Hx. unfold speed. rewrite <- (Rabs_pos_eq (length2 _)) by apply length2_nonneg.
    apply Rsqr_le_abs_0. unfold Rsqr. rewrite length2_sq. induction v as [|y v IH]; [destruct Hx|].
    simpl. pose proof (sq_nonneg (map B2R v)). unfold sq in *. destruct Hx as [->|Hx]; [nra|]. specialize (IH Hx). nra.
  Qed.
  Lemma slow_bounded d m (v : list F) : slow d m v -> bounded d m v.
  Proof.
    intros [L [Fv Hs]]. split; [exact L|]. rewrite Forall_forall in *. intros x Hx. split; [auto|].
    exact (Rle_trans _ _ _ (component_speed v x Hx) Hs).
  Qed.
  Lemma where_mono d a (V V' : list F -> Prop) s : (forall v, V v -> V' v) -> swarm_where d a V s -> swarm_where d a V' s.
  Proof.
    intros H [A B]. split; [|exact B]. intros p Hp0. destruct (A p Hp0) as [A1 [A2 [A3 A4]]]. auto.
  Qed.
  Lemma box_bounded a (box : list (F * F)) x : box_within a box -> in_box box x -> bounded (length box) a x.
  Proof.
    intros HB HI. split; [exact (Forall2_length _ _ _ HI)|].
    revert x HI. induction HB as [|[lo hi] box [F1 [F2 [A [B C]]]] _ IH]; intros x HI.
    - inversion HI. constructor.
    - inversion HI as [|xi i x' box' [Fx [L1 L2]] HI']; subst. constructor; [|auto]. split; [exact Fx|].
      apply leb_key in L1, L2. cbn [fst snd] in *. rewrite !key_finite in L1, L2 by auto. apply Rabs_le. intuition lra.
  Qed.
  Lemma within_good a (box : list (F * F)) : box_within a box -> good_box box.
  Proof.
    apply Forall_impl. intros [lo hi] [F1 [F2 [A [B C]]]]. cbn [fst snd] in *. split; [exact F1|]. split; [exact F2|].
    apply leb_key. rewrite !key_finite by auto. split; [now apply finite_not_nan|]. split; [now apply finite_not_nan|exact B].
  Qed.

  Section Run.
    Context {U : Type}.
    Variable cfg : pso_config U F.
    Variables (d : nat) (a : R) (box : list (F * F)) (V0 V : list F -> Prop).
    Hypothesis Ld : length box = d.
    Hypothesis HB : box_within a box.
    Hypothesis HM : exists moves, pso_post_move cfg = moves ++ [fun x => cpure (@move_to_boundary F FI box x)].
    Hypothesis HC : forall s p u v u', swarm_where d a V s -> In p (particles s) -> pso_calc cfg s p u = (Ret v, u') -> V0 v.
    Hypothesis HV : forall v, V0 v ->
      hoare (fun _ _ => True) (run_post_velocity cfg v) (fun w _ _ => V w) (fun _ _ => True).

    Lemma lands x : hoare (fun _ _ => True) (run_post_move cfg x) (fun y _ _ => bounded d a y) (fun _ _ => True).
    Proof.
      apply (stays_post_move (bounded d a)). destruct HM as [moves E]. exists moves. eexists. split; [exact E|].
      intros y u z u' H. apply cpure_ret in H. destruct H as [H _]. rewrite <- Ld. apply box_bounded; [exact HB|].
      eapply boundary_in_box; [eapply within_good; exact HB|exact H].
    Qed.
    Lemma seen_every (t : list (pso_event F)) : Forall (WithinRuns.fine (bounded d a) V) t -> velocities_seen V t.
    Proof.
      intros H e s p He0 Hs Hin. rewrite Forall_forall in H. destruct (H e He0) as [_ G]. destruct (G s Hs) as [G1 _].
      destruct (G1 p Hin) as [_ [_ [_ K]]]. exact K.
    Qed.
    Lemma next_pace fuel s u o u' t : swarm_where d a V s ->
      @pso_next_iterations U F FI cfg fuel s u = (o, u', t) ->
      velocities_seen V t /\ (forall r s', o = Ret (r, s') -> swarm_where d a V s').
    Proof.
      intros W E.
      pose proof (@w_next U F FI cfg (fun _ => True) (bounded d a) V0 V HC HV (fun x _ => lands x) (fun _ _ _ _ => I)
        fuel s [] u (conj (Forall_nil _) W)) as G.
      rewrite E in G. destruct o as [[r s']| |]; cbn [snd app] in G.
      - destruct G as [G1 G2]. split; [now apply seen_every|]. intros r0 s0 H. injection H as <- <-. exact G2.
      - split; [now apply seen_every|discriminate].
      - split; [now apply seen_every|discriminate].
    Qed.
    Lemma find_pace fuel s u o u' t : (forall u vs u1, pso_velocities cfg u = (Ret vs, u1) -> Forall V vs) ->
      @pso_find_min U F FI cfg fuel s u = (o, u', t) ->
      velocities_seen V t /\ (forall r s', o = Ret (r, s') -> swarm_where d a V s').
    Proof.
      intros H2 E.
      pose proof (@w_find U F FI cfg (fun _ => True) (bounded d a) V0 V HC HV (fun x _ => lands x) (fun _ _ _ _ => I)
        fuel s u (fun xs _ _ => proj2 (Forall_forall _ _) (fun _ _ => I)) H2 [] u (conj (Forall_nil _) eq_refl)) as G.
      rewrite E in G. destruct o as [[r s']| |]; cbn [snd app] in G.
      - destruct G as [G1 G2]. split; [now apply seen_every|]. intros r0 s0 H. injection H as <- <-. exact G2.
      - split; [now apply seen_every|discriminate].
      - split; [now apply seen_every|discriminate].
    Qed.
  End Run.

  (** *** With MaxVelocityAbs *)
  Section Limited.
    Hypothesis Two : (1 < prec)%Z.
    Variable h : Z.
    Hypothesis even : emax = (2 * h)%Z.
    Context {U : Type}.
    Variables (cfg : pso_config U F) (d : nat) (a : R) (k : Z) (limit : F) (box : list (F * F)).
    Hypothesis Hk : (0 <= k)%Z.
    Hypothesis Hd : (Z.of_nat d <= 2 ^ prec)%Z.
    Hypothesis HO : INR d * bpow radix2 (2 * k) < M.
    Hypothesis HL : limited np cfg d a (bpow radix2 k) limit box.
    Notation rl := (rounded_limit (prec := prec) (emax := emax) d (B2R limit)).

    Lemma limited_calc s p u v u' : swarm_where d a (slow d rl) s -> In p (particles s) -> pso_calc cfg s p u = (Ret v, u') ->
      bounded d (bpow radix2 k) v.
    Proof.
      destruct HL as [_ [_ [_ [_ [T _]]]]]. intros W. apply T. revert W. apply where_mono. apply slow_bounded.
    Qed.
    Lemma limited_velocity v : bounded d (bpow radix2 k) v ->
      hoare (fun _ _ => True) (run_post_velocity cfg v) (fun w _ _ => slow d rl w) (fun _ _ => True).
    Proof.
      destruct HL as [F1 [P1 [_ [_ [_ [E _]]]]]]. intros Hv h0 u0 _. unfold run_post_velocity. rewrite E.
      cbn [mfold]. unfold call_comp, mbind, call, emit, mret, cret. cbn.
      pose proof (norm_small v d k Hk Hd HO Hv) as N.
      destruct (norm_bound np Two h even limit v N F1 P1) as [A B]. destruct Hv as [Lv _].
      split; [rewrite max_abs_length; exact Lv|]. split; [exact A|]. rewrite Lv in B. exact B.
    Qed.
    Theorem limited_next fuel s u o u' t : swarm_where d a (slow d rl) s ->
      @pso_next_iterations U F FI cfg fuel s u = (o, u', t) ->
      velocities_seen (slow d rl) t /\ (forall r s', o = Ret (r, s') -> swarm_where d a (slow d rl) s').
    Proof.
      pose proof HL as [_ [_ [L [B [_ [_ HM]]]]]].
      exact (next_pace cfg d a box (bounded d (bpow radix2 k)) (slow d rl) L B HM limited_calc limited_velocity fuel s u o u' t).
    Qed.
    Theorem limited_find fuel s u o u' t : (forall u vs u1, pso_velocities cfg u = (Ret vs, u1) -> Forall (slow d rl) vs) ->
      @pso_find_min U F FI cfg fuel s u = (o, u', t) ->
      velocities_seen (slow d rl) t /\ (forall r s', o = Ret (r, s') -> swarm_where d a (slow d rl) s').
    Proof.
      pose proof HL as [_ [_ [L [B [_ [_ HM]]]]]].
      exact (find_pace cfg d a box (bounded d (bpow radix2 k)) (slow d rl) L B HM limited_calc limited_velocity fuel s u o u' t).
    Qed.
  End Limited.

  (** *** Without post-processing of velocities *)
  Section Unlimited.
    Context {U : Type}.
    Variables (cfg : pso_config U F) (d : nat) (a m : R) (box : list (F * F)).
    Hypothesis L : length box = d.
    Hypothesis HB : box_within a box.
    Hypothesis HT : tame d a m m (pso_calc cfg).
    Hypothesis HE : pso_post_velocity cfg = [].
    Hypothesis HM : exists moves, pso_post_move cfg = moves ++ [fun x => cpure (@move_to_boundary F FI box x)].
    Lemma free_velocity v : bounded d m v ->
      hoare (fun _ _ => True) (run_post_velocity cfg v) (fun w _ _ => bounded d m w) (fun _ _ => True).
    Proof. intros Hv h0 u0 _. unfold run_post_velocity. rewrite HE. exact Hv. Qed.
    Theorem free_next fuel s u o u' t : swarm_where d a (bounded d m) s ->
      @pso_next_iterations U F FI cfg fuel s u = (o, u', t) ->
      velocities_seen (bounded d m) t /\ (forall r s', o = Ret (r, s') -> swarm_where d a (bounded d m) s').
    Proof.
      exact (next_pace cfg d a box (bounded d m) (bounded d m) L HB HM HT free_velocity fuel s u o u' t).
    Qed.
    Theorem free_find fuel s u o u' t : (forall u vs u1, pso_velocities cfg u = (Ret vs, u1) -> Forall (bounded d m) vs) ->
      @pso_find_min U F FI cfg fuel s u = (o, u', t) ->
      velocities_seen (bounded d m) t /\ (forall r s', o = Ret (r, s') -> swarm_where d a (bounded d m) s').
    Proof.
      exact (find_pace cfg d a box (bounded d m) (bounded d m) L HB HM HT free_velocity fuel s u o u' t).
    Qed.
  End Unlimited.

  (** ** Calculators *)
  Variable np32 : nan_policy 24 128.
  Variable np64 : nan_policy 53 1024.
  Lemma unit_small r j : small (@unit32 F FI np32 r j) 1.
  Proof.
    destruct (unit_range np32 (np_of32 np) r j) as [A B]. split; [exact A|]. rewrite Rabs_pos_eq; apply B.
  Qed.
  Lemma unit_small64 r j : small (@unit64 F FI np64 r j) 1.
  Proof.
    destruct (unit_range np64 (np_of64 np) r j) as [A B]. split; [exact A|]. rewrite Rabs_pos_eq; apply B.
  Qed.
  Lemma bounded_nth d m (v : list F) k x : bounded d m v -> nth_error v k = Some x -> small x m.
  Proof. intros [_ H] E. rewrite Forall_forall in H. apply H. eapply nth_error_In; eauto. Qed.
  Lemma bounded_has d m (v : list F) k : bounded d m v -> (k < d)%nat -> exists x, nth_error v k = Some x /\ small x m.
  Proof.
    intros H Hk. destruct (nth_in_bounds v k) as [x Hx]; [destruct H; lia|]. exists x. split; [exact Hx|].
    eapply bounded_nth; eauto.
  Qed.
  Lemma bounded_of d m (v : list F) : length v = d ->
    (forall k, (k < d)%nat -> exists x, nth_error v k = Some x /\ small x m) -> bounded d m v.
  Proof.
    intros L H. split; [exact L|]. apply Forall_forall. intros x Hx. apply In_nth_error in Hx. destruct Hx as [k Hk].
    assert (Lk : (k < d)%nat) by (rewrite <- L; apply nth_error_Some; congruence).
    destruct (H k Lk) as [y [Hy Sy]]. rewrite Hk in Hy. injection Hy as <-. exact Sy.
  Qed.

  (** A pull: [phi * r * (b - x)] with the difference at most [D]. *)
  Lemma small_pull phi r b x a f D q : small phi f -> small r 1 -> small b a -> small x a ->
    a + a <= D -> fits D -> f * D <= q -> fits q -> fits f ->
    small (b_mul np (b_mul np phi r) (b_sub np b x)) q.
  Proof.
    intros H1 H2 H3 H4 HD FD Hq Fq Ff. apply (small_mul _ _ f D); [|now apply (small_sub b x a a)|exact Hq|exact Fq].
    apply (small_mul phi r f 1); auto. lra.
  Qed.

  Lemma two_tame {U} (f : swarm F -> particle F -> comp U (list F)) (form : F -> F -> F -> F -> F -> F -> F) d a m w :
    (forall s p u b v u', best_particle s = Some b -> covers p (velocity p) -> covers p (best_personal_coordinates p) ->
       covers p (coordinates b) -> f s p u = (Ret v, u') -> length v = length (coordinates p) /\
       forall k v0 b' x g, nth_error (velocity p) k = Some v0 -> nth_error (best_personal_coordinates p) k = Some b' ->
         nth_error (coordinates p) k = Some x -> nth_error (coordinates b) k = Some g ->
         exists r1 r2, small r1 1 /\ small r2 1 /\ nth_error v k = Some (form v0 b' x g r1 r2)) ->
    (forall s p u, best_particle s = None -> forall v u', f s p u <> (Ret v, u')) ->
    (forall v b x g r1 r2, small v m -> small b a -> small x a -> small g a -> small r1 1 -> small r2 1 ->
       small (form v b x g r1 r2) w) ->
    tame d a m w f.
  Proof.
    intros HR HN HF s p u v u' [W1 W2] Hin E.
    destruct (best_particle s) as [b|] eqn:Eb; [|exfalso; exact (HN s p u Eb v u' E)].
    destruct (W1 p Hin) as [Bx [Bb [_ Bv]]]. pose proof (W2 b (or_introl eq_refl)) as Bg.
    unfold bounded in Bx, Bb, Bv, Bg. unfold covers in HR.
    destruct (HR s p u b v u' Eb) as [Lv K]; [lia|lia|lia|exact E|].
    apply bounded_of; [lia|]. intros k Hk.
    destruct (bounded_has d m _ k Bv Hk) as [v0 [Ev Sv]]. destruct (bounded_has d a _ k Bb Hk) as [b' [Eb' Sb]].
    destruct (bounded_has d a _ k Bx Hk) as [x [Ex Sx]]. destruct (bounded_has d a _ k Bg Hk) as [g [Eg Sg]].
    destruct (K k v0 b' x g Ev Eb' Ex Eg) as [r1 [r2 [R1 [R2 E1]]]].
    eexists. split; [exact E1|]. now apply HF.
  Qed.
  Lemma tame_zoom {U} (L : lens U rng) (f : swarm F -> particle F -> comp rng (list F)) d a m w : tame d a m w f -> tame d a m w (fun s p => zoom L (f s p)).
  Proof.
    intros Q s p u v u' W Hin E. unfold zoom in E. destruct (f s p (lget L u)) as [o r] eqn:Ef. injection E as -> _.
    exact (Q s p _ v r W Hin Ef).
  Qed.

  (** With explicit bounds [D] on the differences, [q1], [q2] on the pulls, [s1], [s2]
      on the sums. *)
  Lemma canonical_tame_bounds phi_p phi_g xi d a m fp fg fx D q1 q2 s1 s2 w :
    small phi_p fp -> small phi_g fg -> small xi fx -> fits fp -> fits fg ->
    a + a <= D -> fits D -> fp * D <= q1 -> fits q1 -> fg * D <= q2 -> fits q2 ->
    m + q1 <= s1 -> fits s1 -> s1 + q2 <= s2 -> fits s2 -> fx * s2 <= w -> fits w ->
    tame d a m w (@canonical_velocity F FI np32 phi_p phi_g xi).
  Proof.
    intros Sp Sg Sx Fp Fg H1 F1 H2 F2 H3 F3 H4 F4 H5 F5 H6 F6.
    apply (two_tame _ (fun v b x g r1 r2 => b_mul np xi (b_add np (b_add np v (b_mul np (b_mul np phi_p r1) (b_sub np b x)))
                                                   (b_mul np (b_mul np phi_g r2) (b_sub np g x))))).
    - intros s p r b v r' Hb C1 C2 C3 E. destruct (@canonical_returns F FI np32 phi_p phi_g xi s p r b Hb C1 C2 C3) as [y [E' [Ly K]]].
      rewrite E in E'. injection E' as <- _. split; [exact Ly|]. intros k v0 b' x g A1 A2 A3 A4.
      exists (@unit32 F FI np32 r (2 * k)), (@unit32 F FI np32 r (2 * k + 1)).
      split; [apply unit_small|]. split; [apply unit_small|]. exact (K k v0 b' x g A1 A2 A3 A4).
    - intros s p r Hn v r' E. assert (N : fst (@canonical_velocity F FI np32 phi_p phi_g xi s p r) = Panic).
      { apply canonical_panics. intros [b [Hb _]]. congruence. }
      rewrite E in N. discriminate N.
    - intros v b x g r1 r2 Sv Sb Sxx Sgg R1 R2. apply (small_mul _ _ fx s2); auto.
      apply (small_add _ _ s1 q2); auto.
      + apply (small_add _ _ m q1); auto. now apply (small_pull phi_p r1 b x a fp D).
      + now apply (small_pull phi_g r2 g x a fg D).
  Qed.
  Lemma inertia_tame_bounds {U} (L : lens U rng) (HL : lens_ok L) phi_p phi_g (inertia : nat -> comp U F) d a m fp fg fx D q1 q2 s0 s1 w :
    (forall i u x u', inertia i u = (Ret x, u') -> small x fx) ->
    small phi_p fp -> small phi_g fg -> fits fp -> fits fg ->
    a + a <= D -> fits D -> fp * D <= q1 -> fits q1 -> fg * D <= q2 -> fits q2 ->
    fx * m <= s0 -> fits s0 -> s0 + q1 <= s1 -> fits s1 -> s1 + q2 <= w -> fits w ->
    tame d a m w (@inertia_velocity F FI np32 U L phi_p phi_g inertia).
  Proof.
    intros HI Sp Sg Fp Fg H1 F1 H2 F2 H3 F3 H4 F4 H5 F5 H6 F6 s p u v u' [W1 W2] Hin E.
    unfold inertia_velocity in E. apply cbind_ret in E. destruct E as [b [u0 [E0 E]]]. apply cpure_ret in E0.
    destruct E0 as [E0 <-]. apply unwrap_ret in E0. pose proof E as E1. apply cbind_ret in E1. destruct E1 as [wt [u1 [Ew _]]].
    assert (E2 : @inertia_velocity F FI np32 U L phi_p phi_g inertia s p u = (Ret v, u')).
    { unfold inertia_velocity, cbind at 1, cpure at 1. rewrite E0. cbn [unwrap]. exact E. }
    clear E. destruct (W1 p Hin) as [Bx [Bb [_ Bv]]]. pose proof (W2 b (or_introl E0)) as Bg.
    pose proof (HI _ _ _ _ Ew) as Sw. unfold bounded in Bx, Bb, Bv, Bg.
    destruct (@inertia_returns F FI np32 U L HL phi_p phi_g inertia s p u b wt u1 E0) as [y [E' [Ly K]]]; unfold covers; [lia|lia|lia|exact Ew|].
    rewrite E2 in E'. injection E' as <- _. apply bounded_of; [lia|]. intros k Hk.
    destruct (bounded_has d m _ k Bv Hk) as [v0 [Ev Sv]]. destruct (bounded_has d a _ k Bb Hk) as [b' [Eb' Sb]].
    destruct (bounded_has d a _ k Bx Hk) as [x [Ex Sx]]. destruct (bounded_has d a _ k Bg Hk) as [g [Eg Sgg]].
    eexists. split; [exact (K k v0 b' x g Ev Eb' Ex Eg)|]. cbn [fadd fmul fsub FloatIEEE].
    pose proof (unit_small (lget L u1) (2 * k)) as R1. pose proof (unit_small (lget L u1) (2 * k + 1)) as R2.
    apply (small_add _ _ s1 q2); auto.
    - apply (small_add _ _ s0 q1); auto.
      + now apply (small_mul _ _ fx m).
      + now apply (small_pull phi_p _ b' x a fp D).
    - now apply (small_pull phi_g _ g x a fg D).
  Qed.
  Lemma negative_tame_bounds (q : @negative_reinforcement F) d a m f fx D q0 s1 s2 s3 s4 s5 s6 w :
    Forall (fun phi => small phi f)
      [nr_phi_best_personal q; nr_phi_best_current q; nr_phi_best_global q;
       nr_phi_worst_personal q; nr_phi_worst_current q; nr_phi_worst_global q] ->
    small (nr_xi q) fx -> fits f -> a + a <= D -> fits D -> f * D <= q0 -> fits q0 ->
    m + q0 <= s1 -> fits s1 -> s1 + q0 <= s2 -> fits s2 -> s2 + q0 <= s3 -> fits s3 ->
    s3 + q0 <= s4 -> fits s4 -> s4 + q0 <= s5 -> fits s5 -> s5 + q0 <= s6 -> fits s6 -> fx * s6 <= w -> fits w ->
    tame d a m w (@negative_velocity F FI np64 q).
  Proof.
    intros HF Sx Ff H1 F1 H2 F2 G1 T1 G2 T2 G3 T3 G4 T4 G5 T5 G6 T6 G7 T7 s p r v r' [W1 W2] Hin E.
    repeat match goal with H : Forall _ (_ :: _) |- _ => apply Forall_cons_iff in H; destruct H as [? H] end.
    assert (US : six_usable s p).
    { apply NNPP. intros N. apply (@negative_panics F FI np64 q s p r) in N. rewrite E in N. discriminate N. }
    destruct US as [bg [wg [bc [wc [Hbg [Hwg [Hbc [Hwc [C1 [C2 [C3 [C4 [C5 [C6 C7]]]]]]]]]]]]]].
    destruct (@negative_returns F FI np64 q s p r bg wg bc wc Hbg Hwg Hbc Hwc C1 C2 C3 C4 C5 C6 C7) as [y [E' [Ly K]]].
    rewrite E in E'. injection E' as <- _.
    destruct (W1 p Hin) as [Bx [Bb [Bw Bv]]]. pose proof (W2 bg (or_introl Hbg)) as Bg. pose proof (W2 wg (or_intror Hwg)) as Bg'.
    assert (IB : In bc (particles s)) by (destruct Hbc as [j [Hj _]]; now apply nth_error_In in Hj).
    assert (IW : In wc (particles s)) by (destruct Hwc as [j [Hj _]]; now apply nth_error_In in Hj).
    pose proof (proj1 (W1 bc IB)) as Bc. pose proof (proj1 (W1 wc IW)) as Bc'.
    apply bounded_of; [destruct Bx; lia|]. intros k Hk.
    destruct (bounded_has d m _ k Bv Hk) as [v0 [Ev Sv]]. destruct (bounded_has d a _ k Bb Hk) as [b' [Eb' Sb]].
    destruct (bounded_has d a _ k Bx Hk) as [x [Ex Sxx]]. destruct (bounded_has d a _ k Bg Hk) as [g [Eg Sgg]].
    destruct (bounded_has d a _ k Bw Hk) as [w' [Ew' Sw]]. destruct (bounded_has d a _ k Bg' Hk) as [g' [Eg' Sg']].
    destruct (bounded_has d a _ k Bc Hk) as [c [Ec Sc]]. destruct (bounded_has d a _ k Bc' Hk) as [c' [Ec' Sc']].
    specialize (K k v0 x b' c g w' c' g' Ev Ex Eb' Ec Eg Ew' Ec' Eg'). cbn zeta in K.
    eexists. split; [exact K|]. cbn [fadd fmul fsub FloatIEEE].
    pose proof (unit_small64 r) as UR.
    apply (small_mul _ _ fx s6); auto.
    apply (small_sub _ _ s5 q0); auto; [|now apply (small_pull _ _ _ _ a f D)].
    apply (small_sub _ _ s4 q0); auto; [|now apply (small_pull _ _ _ _ a f D)].
    apply (small_sub _ _ s3 q0); auto; [|now apply (small_pull _ _ _ _ a f D)].
    apply (small_add _ _ s2 q0); auto; [|now apply (small_pull _ _ _ _ a f D)].
    apply (small_add _ _ s1 q0); auto; [|now apply (small_pull _ _ _ _ a f D)].
    apply (small_add _ _ m q0); auto. now apply (small_pull _ _ _ _ a f D).
  Qed.

  Lemma classic_tame_bounds phi_p phi_g d a m fp fg D q1 q2 s1 w :
    small phi_p fp -> small phi_g fg -> fits fp -> fits fg ->
    a + a <= D -> fits D -> fp * D <= q1 -> fits q1 -> fg * D <= q2 -> fits q2 ->
    m + q1 <= s1 -> fits s1 -> s1 + q2 <= w -> fits w ->
    tame d a m w (@classic_velocity F FI np32 phi_p phi_g).
  Proof.
    intros Sp Sg Fp Fg H1 F1 H2 F2 H3 F3 H4 F4 H5 F5.
    apply (two_tame _ (fun v b x g r1 r2 => b_add np (b_add np v (b_mul np (b_mul np phi_p r1) (b_sub np b x)))
                                                   (b_mul np (b_mul np phi_g r2) (b_sub np g x)))).
    - intros s p r b v r' Hb C1 C2 C3 E. destruct (@classic_returns F FI np32 phi_p phi_g s p r b Hb C1 C2 C3) as [y [E' [Ly K]]].
      rewrite E in E'. injection E' as <- _. split; [exact Ly|]. intros k v0 b' x g A1 A2 A3 A4.
      exists (@unit32 F FI np32 r (2 * k)), (@unit32 F FI np32 r (2 * k + 1)).
      split; [apply unit_small|]. split; [apply unit_small|]. exact (K k v0 b' x g A1 A2 A3 A4).
    - intros s p r Hn v r' E. assert (N : fst (@classic_velocity F FI np32 phi_p phi_g s p r) = Panic).
      { apply classic_panics. intros [b [Hb _]]. congruence. }
      rewrite E in N. discriminate N.
    - intros v b x g r1 r2 Sv Sb Sxx Sgg R1 R2. apply (small_add _ _ s1 q2); auto.
      + apply (small_add _ _ m q1); auto. now apply (small_pull phi_p r1 b x a fp D).
      + now apply (small_pull phi_g r2 g x a fg D).
  Qed.

  (** *** Bounds that are powers of two *)
  Lemma bpow_twice e : bpow radix2 e + bpow radix2 e = bpow radix2 (e + 1).
  Proof. rewrite bpow_plus. change (bpow radix2 1) with 2. ring. Qed.
  Lemma sum_bpow i j e : (i <= e)%Z -> (j <= e)%Z -> bpow radix2 i + bpow radix2 j <= bpow radix2 (e + 1).
  Proof.
    intros A B. apply (bpow_le radix2) in A, B. rewrite <- bpow_twice. lra.
  Qed.
  Lemma prod_bpow i j : bpow radix2 i * bpow radix2 j <= bpow radix2 (i + j).
  Proof. rewrite bpow_plus. lra. Qed.

  Ltac pw := first [exact (prod_bpow _ _) | apply fits_bpow; lia | assumption].
  Section Powers.
    Context {U : Type}.
    Variables (L : lens U rng) (d : nat) (a v p x : Z) (m : R).
    Hypothesis Ha : (0 <= a)%Z.
    Hypothesis Hv : (0 <= v)%Z.
    Hypothesis Hpp : (0 <= p)%Z.
    Hypothesis Hx : (0 <= x)%Z.
    Hypothesis Hm : m <= bpow radix2 v.
    Notation top := (Z.max v (p + a + 1)).

    Lemma canonical_tame phi_p phi_g xi : at_most phi_p p -> at_most phi_g p -> at_most xi x -> (x + top + 2 < emax)%Z ->
      tame d (bpow radix2 a) m (bpow radix2 (x + top + 2)) (fun s q => zoom L (@canonical_velocity F FI np32 phi_p phi_g xi s q)).
    Proof.
      intros S1 S2 S3 HE. apply tame_zoom.
      apply (canonical_tame_bounds phi_p phi_g xi d (bpow radix2 a) m (bpow radix2 p) (bpow radix2 p) (bpow radix2 x)
        (bpow radix2 (a + 1)) (bpow radix2 (p + (a + 1))) (bpow radix2 (p + (a + 1))) (bpow radix2 (top + 1))
        (bpow radix2 (top + 1 + 1)) (bpow radix2 (x + top + 2))); try pw.
      - rewrite bpow_twice. lra.
      - eapply Rle_trans; [|apply (sum_bpow v (p + (a + 1)) top); lia]. lra.
      - apply sum_bpow; lia.
      - replace (x + top + 2)%Z with (x + (top + 1 + 1))%Z by lia. apply prod_bpow.
    Qed.
    Lemma classic_tame phi_p phi_g : at_most phi_p p -> at_most phi_g p -> (top + 2 < emax)%Z ->
      tame d (bpow radix2 a) m (bpow radix2 (top + 2)) (fun s q => zoom L (@classic_velocity F FI np32 phi_p phi_g s q)).
    Proof.
      intros S1 S2 HE. apply tame_zoom.
      apply (classic_tame_bounds phi_p phi_g d (bpow radix2 a) m (bpow radix2 p) (bpow radix2 p)
        (bpow radix2 (a + 1)) (bpow radix2 (p + (a + 1))) (bpow radix2 (p + (a + 1))) (bpow radix2 (top + 1))
        (bpow radix2 (top + 2))); try pw.
      - rewrite bpow_twice. lra.
      - eapply Rle_trans; [|apply (sum_bpow v (p + (a + 1)) top); lia]. lra.
      - replace (top + 2)%Z with (top + 1 + 1)%Z by lia. apply sum_bpow; lia.
    Qed.
    Lemma negative_tame (q : @negative_reinforcement F) :
      Forall (fun phi => at_most phi p)
        [nr_phi_best_personal q; nr_phi_best_current q; nr_phi_best_global q;
         nr_phi_worst_personal q; nr_phi_worst_current q; nr_phi_worst_global q] ->
      at_most (nr_xi q) x -> (x + top + 6 < emax)%Z ->
      tame d (bpow radix2 a) m (bpow radix2 (x + top + 6)) (fun s r => zoom L (@negative_velocity F FI np64 q s r)).
    Proof.
      intros S1 S2 HE. apply tame_zoom.
      apply (negative_tame_bounds q d (bpow radix2 a) m (bpow radix2 p) (bpow radix2 x)
        (bpow radix2 (a + 1)) (bpow radix2 (p + (a + 1))) (bpow radix2 (top + 1)) (bpow radix2 (top + 1 + 1))
        (bpow radix2 (top + 2 + 1)) (bpow radix2 (top + 3 + 1)) (bpow radix2 (top + 4 + 1)) (bpow radix2 (top + 5 + 1))
        (bpow radix2 (x + top + 6))); try pw.
      - rewrite bpow_twice. lra.
      - eapply Rle_trans; [|apply (sum_bpow v (p + (a + 1)) top); lia]. lra.
      - apply sum_bpow; lia.
      - apply sum_bpow; lia.
      - apply sum_bpow; lia.
      - apply sum_bpow; lia.
      - apply sum_bpow; lia.
      - replace (x + top + 6)%Z with (x + (top + 5 + 1))%Z by lia. apply prod_bpow.
    Qed.
    Notation itop := (Z.max (x + v) (p + a + 1)).
    Lemma inertia_tame (HL : lens_ok L) phi_p phi_g (inertia : nat -> comp U F) :
      (forall i u w u', inertia i u = (Ret w, u') -> at_most w x) ->
      at_most phi_p p -> at_most phi_g p -> (itop + 2 < emax)%Z ->
      tame d (bpow radix2 a) m (bpow radix2 (itop + 2)) (@inertia_velocity F FI np32 U L phi_p phi_g inertia).
    Proof.
      intros S0 S1 S2 HE.
      apply (inertia_tame_bounds L HL phi_p phi_g inertia d (bpow radix2 a) m (bpow radix2 p) (bpow radix2 p) (bpow radix2 x)
        (bpow radix2 (a + 1)) (bpow radix2 (p + (a + 1))) (bpow radix2 (p + (a + 1))) (bpow radix2 (x + v)) (bpow radix2 (itop + 1))
        (bpow radix2 (itop + 2))); try pw.
      - rewrite bpow_twice. lra.
      - eapply Rle_trans; [|apply prod_bpow]. apply Rmult_le_compat_l; [apply bpow_ge_0|exact Hm].
      - apply sum_bpow; lia.
      - replace (itop + 2)%Z with (itop + 1 + 1)%Z by lia. apply sum_bpow; lia.
    Qed.
  End Powers.
End Pace.
