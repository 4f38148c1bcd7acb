(** * A coordinate in which the swarm rests: proofs *)

From Coq Require Import List Arith ZArith Bool Lia Reals Lra Classical.
From Flocq Require Import Core IEEE754.BinarySingleNaN IEEE754.Binary.
From Verif Require Import Base Logic FloatModel Rng FloatFacts GaModel GaComponents PsoModel PsoComponents SpecGa SpecPso
  SpecBox SpecRand SpecVel SpecStill ArithFacts SatFacts CreateFacts GaFacts PsoFacts PsoRuns PostFacts VelFacts CalcFacts
  BoxFacts WithinRuns.
Import ListNotations.

(** ** Floats *)
Section Still.
  Context {prec emax : Z} {Hp : Prec_gt_0 prec} {He : Prec_lt_emax prec emax}.
  Variable np : nan_policy prec emax.
  Notation F := (bfloat prec emax).
  Notation FI := (FloatIEEE np).
  Notation B2R := (Binary.B2R prec emax).

  Lemma cmp_same (a c : F) : partial_cmp a c = Some Eq -> same_number a c.
  Proof. now left. Qed.
  Lemma same_cmp (a c : F) : is_finite c = true -> same_number a c -> partial_cmp a c = Some Eq.
  Proof. intros Fc [H|[_ H]]; auto. apply finite_not_nan in Fc. congruence. Qed.
  Lemma cmp_finite (a c : F) : is_finite c = true -> partial_cmp a c = Some Eq -> is_finite a = true.
  Proof.
    intros Fc H. destruct (same_cases a c (cmp_same a c H)) as [->|[[[A _] _]|[_ A]]]; auto.
    apply finite_not_nan in Fc. congruence.
  Qed.
  Lemma cmp_both (a b c : F) : is_finite c = true -> partial_cmp a c = Some Eq -> partial_cmp b c = Some Eq ->
    partial_cmp a b = Some Eq.
  Proof.
    intros Fc Ha Hb. apply same_cmp; [exact (cmp_finite b c Fc Hb)|].
    eapply same_trans; [apply cmp_same; exact Ha|]. apply same_sym, cmp_same. exact Hb.
  Qed.
  Lemma zero_sign (z : F) : is_zero z <-> exists s, z = Binary.B754_zero s.
  Proof. split; [apply is_zero_eq|]. intros [s ->]. apply zero_is. Qed.
  Lemma same_is_zero (z w : F) : is_zero w -> same_number z w -> is_zero z.
  Proof.
    intros Hw H. destruct (same_cases z w H) as [->|[[A _]|[_ A]]]; auto.
    destruct Hw as [Fw _]. apply finite_not_nan in Fw. congruence.
  Qed.

  Variables (k : nat) (c : F).
  Hypothesis Fc : is_finite c = true.

  Lemma sum_at (x v : list F) : at_number k c x -> still k v -> at_number k c (@pointwise_sum F FI x v).
  Proof.
    intros [a [Ea Ha]] [z [Ez Hz]]. apply zero_sign in Hz. exists (b_add np a z). split.
    - unfold pointwise_sum. rewrite nth_error_map, (nth_error_combine _ _ _ _ _ Ea Ez). reflexivity.
    - apply same_cmp; [exact Fc|]. eapply same_trans; [now apply add_zero|]. now apply cmp_same.
  Qed.

  Definition within_still (s : swarm F) : swarm_rests k c s <-> within (at_number k c) (still k) s := iff_refl _.

  Lemma rested_every (t : list (pso_event F)) : Forall (fine (at_number k c) (still k)) t -> rested k c t.
  Proof.
    intros H. rewrite Forall_forall in H. split; [|split].
    - intros x Hx. exact (proj1 (H _ Hx)).
    - intros x y Hx. exact (proj1 (H _ Hx)).
    - intros e s He0 Hs. exact (proj2 (H _ He0) _ Hs).
  Qed.

  Lemma next_rests {U} (cfg : pso_config U F) fuel s u o u' t : quiet k c cfg -> swarm_rests k c s ->
    @pso_next_iterations U F FI cfg fuel s u = (o, u', t) ->
    rested k c t /\ (forall r s', o = Ret (r, s') -> swarm_rests k c s').
  Proof.
    intros [Q1 [Q2 Q3]] W E. rewrite Forall_forall in Q2, Q3.
    pose proof (@w_next U F FI cfg (at_number k c) (at_number k c) (still k) (still k) Q1
      (chain_keeps PPostVelocity (still k) _ (fun f v u w u' Hf => Q2 f Hf v u w u'))
      (chain_keeps PPostMove (at_number k c) _ (fun f x u y u' Hf => Q3 f Hf x u y u')) sum_at
      fuel s [] u (conj (Forall_nil _) W)) as G.
    rewrite E in G. destruct o as [[r s']| |]; cbn [snd app] in G.
    - destruct G as [G1 G2]. split; [now apply rested_every|]. intros r0 s0 H. injection H as <- <-. exact G2.
    - split; [now apply rested_every|discriminate].
    - split; [now apply rested_every|discriminate].
  Qed.
  Lemma find_rests {U} (cfg : pso_config U F) fuel s u o u' t : quiet k c cfg ->
    (forall xs u1, pso_coordinates cfg u = (Ret xs, u1) -> Forall (at_number k c) xs) ->
    (forall u vs u1, pso_velocities cfg u = (Ret vs, u1) -> Forall (still k) vs) ->
    @pso_find_min U F FI cfg fuel s u = (o, u', t) ->
    rested k c t /\ (forall r s', o = Ret (r, s') -> swarm_rests k c s').
  Proof.
    intros [Q1 [Q2 Q3]] H1 H2 E. rewrite Forall_forall in Q2, Q3.
    pose proof (@w_find U F FI cfg (at_number k c) (at_number k c) (still k) (still k) Q1
      (chain_keeps PPostVelocity (still k) _ (fun f v u w u' Hf => Q2 f Hf v u w u'))
      (chain_keeps PPostMove (at_number k c) _ (fun f x u y u' Hf => Q3 f Hf x u y u')) sum_at
      fuel s u H1 H2 [] u (conj (Forall_nil _) eq_refl)) as G.
    rewrite E in G. destruct o as [[r s']| |]; cbn [snd app] in G.
    - destruct G as [G1 G2]. split; [now apply rested_every|]. intros r0 s0 H. injection H as <- <-. exact G2.
    - split; [now apply rested_every|discriminate].
    - split; [now apply rested_every|discriminate].
  Qed.

  (** ** Quiet components *)
  Lemma move_quiet {U} box lo hi : nth_error box k = Some (lo, hi) -> leb lo c = true -> leb c hi = true ->
    quiet_move k c (fun x => @cpure U _ (@move_to_boundary F FI box x)).
  Proof.
    intros Hb Hl Hh x u y u' [a [Ea Ha]] E. apply cpure_ret in E. destruct E as [E _].
    destruct (Nat.eq_dec (length x) (length box)) as [L|L].
    2:{ apply (@move_to_boundary_panic F FI box x) in L. congruence. }
    rewrite (@move_to_boundary_eq F FI box x L) in E. injection E as <-.
    exists (@clamp_coordinate F FI a (lo, hi)). rewrite nth_error_map, (nth_error_combine _ _ _ _ _ Ea Hb). split; [reflexivity|].
    pose proof (cmp_finite a c Fc Ha) as Fa. unfold clamp_coordinate. cbn [ffinite flt FloatIEEE fst snd]. rewrite Fa. cbn [negb].
    pose proof Ha as Ka. rewrite partial_cmp_key in Ka by now apply finite_not_nan.
    injection Ka as Ka. apply Rcompare_Eq_inv in Ka. apply leb_key in Hl, Hh.
    destruct (ltb a lo) eqn:B1; [apply ltb_key in B1; exfalso; intuition lra|].
    destruct (ltb hi a) eqn:B2; [apply ltb_key in B2; exfalso; intuition lra|]. exact Ha.
  Qed.

  Lemma dimensions_quiet {U} limits m : nth_error limits k = Some m -> leb (Binary.B754_zero false) m = true ->
    quiet_velocity k (fun v => @cpure U _ (@max_velocity_dimensions F FI limits v)).
  Proof.
    intros Hm Pm v u w u' [z [Ez [s ->]]] E. apply cpure_ret in E. destruct E as [E _].
    destruct (Nat.eq_dec (length v) (length limits)) as [L|L].
    2:{ apply (max_dim_panic np limits v) in L. congruence. }
    unfold max_velocity_dimensions in E. rewrite L, Nat.eqb_refl in E. cbn [oassert obind] in E. injection E as <-.
    exists (Binary.B754_zero s). rewrite nth_error_map, (nth_error_combine _ _ _ _ _ Ez Hm). split; [|now exists s].
    cbn [option_map fle fabs FloatIEEE]. change (b_abs (Binary.B754_zero s)) with (Binary.B754_zero false : F).
    now rewrite Pm.
  Qed.

  Lemma div_zero (z n : F) : is_zero z -> ltb (Binary.B754_zero false) n = true -> is_zero (b_div np z n).
  Proof.
    intros Hz Hn. apply is_zero_eq in Hz. destruct Hz as [s ->]. apply zero_sign.
    destruct n as [sn|sn|sn pl h|sn m e h].
    - destruct sn; discriminate Hn.
    - eexists; reflexivity.
    - discriminate Hn.
    - eexists; reflexivity.
  Qed.
  Lemma abs_quiet {U} limit : is_finite limit = true -> leb (Binary.B754_zero false) limit = true ->
    quiet_velocity k (fun v => @cret U _ (@max_velocity_abs F FI limit v)).
  Proof.
    intros Fm Pm v u w u' [z [Ez Hz]] E. apply cret_ret in E. destruct E as [E _]. subst w.
    unfold max_velocity_abs. cbn [flt FloatIEEE]. destruct (ltb limit _) eqn:B; [|now exists z].
    eexists. rewrite nth_error_map, Ez. split; [reflexivity|]. cbn [fdiv fmul FloatIEEE]. apply zero_sign. apply div_zero.
    - assert (G : is_zero (b_mul np limit z)) by (apply mul_zero; [exact Fm|now apply zero_sign]).
      destruct Hz as [s ->]. destruct limit as [sl|sl|sl pl h|sl m e h]; try discriminate Fm; split; reflexivity.
    - apply leb_key in Pm. apply ltb_key in B. apply ltb_key. destruct Pm as [A1 [A2 A3]], B as [B1 [B2 B3]].
      repeat split; auto. lra.
  Qed.

  (** Where a particle is, in coordinate [k], when the swarm rests. *)
  Lemma rest_pull phi r a x : is_finite phi = true -> is_finite r = true -> (0 <= B2R r <= 1)%R ->
    partial_cmp a c = Some Eq -> partial_cmp x c = Some Eq -> is_zero (b_mul np (b_mul np phi r) (b_sub np a x)).
  Proof.
    intros Fp Fr Hr Ha Hx. apply pull_zero; auto.
    - exact (cmp_finite a c Fc Ha).
    - exact (cmp_finite x c Fc Hx).
    - exact (cmp_both a x c Fc Ha Hx).
  Qed.

  Variable np32 : nan_policy 24 128.
  Variable np64 : nan_policy 53 1024.

  Lemma zero_add (v z : F) : is_zero v -> is_zero z -> is_zero (b_add np v z).
  Proof. intros Hv Hz. apply (same_is_zero _ v Hv). now apply add_zero. Qed.
  Lemma zero_sub (v z : F) : is_zero v -> is_zero z -> is_zero (b_sub np v z).
  Proof. intros Hv Hz. apply (same_is_zero _ v Hv). now apply sub_zero. Qed.

  Lemma usable_dec (s : swarm F) p : best_usable s p \/ ~ best_usable s p.
  Proof.
    unfold best_usable, covers. destruct (best_particle s) as [b|]; [|right; intros [b [E _]]; discriminate E].
    destruct (le_dec (length (coordinates p)) (length (velocity p))) as [A|A]; [|right; intros [b' [_ [E _]]]; auto].
    destruct (le_dec (length (coordinates p)) (length (best_personal_coordinates p))) as [B|B]; [|right; intros [b' [_ [_ [E _]]]]; auto].
    destruct (le_dec (length (coordinates p)) (length (coordinates b))) as [C|C]; [left; exists b; auto|].
    right. intros [b' [E [_ [_ K]]]]. injection E as <-. auto.
  Qed.

  Lemma two_quiet (f : swarm F -> particle F -> comp rng (list F)) (form : F -> F -> F -> F -> F -> F -> F) :
    (forall s p r, fst (f s p r) = Panic <-> ~ best_usable s p) ->
    (forall s p r b, best_particle s = Some b -> covers p (velocity p) -> covers p (best_personal_coordinates p) ->
       covers p (coordinates b) -> exists y r', f s p r = (Ret y, r') /\
       forall v b' x g, nth_error (velocity p) k = Some v -> nth_error (best_personal_coordinates p) k = Some b' ->
         nth_error (coordinates p) k = Some x -> nth_error (coordinates b) k = Some g ->
         exists r1 r2, (is_finite r1 = true /\ (0 <= B2R r1 <= 1)%R) /\ (is_finite r2 = true /\ (0 <= B2R r2 <= 1)%R) /\
           nth_error y k = Some (form v b' x g r1 r2)) ->
    (forall v b x g r1 r2, is_zero v -> partial_cmp b c = Some Eq -> partial_cmp x c = Some Eq -> partial_cmp g c = Some Eq ->
       is_finite r1 = true /\ (0 <= B2R r1 <= 1)%R -> is_finite r2 = true /\ (0 <= B2R r2 <= 1)%R ->
       is_zero (form v b x g r1 r2)) ->
    quiet_calc k c f.
  Proof.
    intros HP HR HF s p r v r' [W1 W2] Hin E.
    destruct (usable_dec s p) as [[b [Hb [C1 [C2 C3]]]]|N].
    2:{ apply (HP s p r) in N. rewrite E in N. discriminate N. }
    destruct (W1 p Hin) as [[x [Ex Hx]] [[b' [Eb Hb']] [_ [z [Ez Hz]]]]].
    destruct (W2 b (or_introl Hb)) as [g [Eg Hg]].
    destruct (HR s p r b Hb C1 C2 C3) as [y [r1 [E' K]]]. rewrite E in E'. injection E' as <- _.
    destruct (K z b' x g Ez Eb Ex Eg) as [w1 [w2 [R1 [R2 Ey]]]].
    exists (form z b' x g w1 w2). split; [exact Ey|]. apply zero_sign. apply HF; auto. now apply zero_sign.
  Qed.

  Lemma unit32_range r j : let w := @unit32 F FI np32 r j in is_finite w = true /\ (0 <= B2R w <= 1)%R.
  Proof. exact (unit_range np32 (np_of32 np) r j). Qed.

  Lemma classic_quiet phi_p phi_g : is_finite phi_p = true -> is_finite phi_g = true ->
    quiet_calc k c (@classic_velocity F FI np32 phi_p phi_g).
  Proof.
    intros F1 F2. apply (two_quiet _ (fun v b x g r1 r2 => b_add np (b_add np v (b_mul np (b_mul np phi_p r1) (b_sub np b x)))
                                                   (b_mul np (b_mul np phi_g r2) (b_sub np g x)))).
    - intros. apply classic_panics.
    - intros s p r b Hb C1 C2 C3. destruct (@classic_returns F FI np32 phi_p phi_g s p r b Hb C1 C2 C3) as [y [E [_ K]]].
      exists y. eexists. split; [exact E|]. intros v b' x g H1 H2 H3 H4.
      exists (@unit32 F FI np32 r (2 * k)), (@unit32 F FI np32 r (2 * k + 1)).
      split; [apply unit32_range|]. split; [apply unit32_range|]. exact (K k v b' x g H1 H2 H3 H4).
    - intros v b x g r1 r2 Hv Hb Hx Hg [A1 A2] [B1 B2]. repeat apply zero_add; auto; now apply rest_pull.
  Qed.
  Lemma canonical_quiet phi_p phi_g xi : is_finite phi_p = true -> is_finite phi_g = true -> is_finite xi = true ->
    quiet_calc k c (@canonical_velocity F FI np32 phi_p phi_g xi).
  Proof.
    intros F1 F2 F3. apply (two_quiet _ (fun v b x g r1 r2 => b_mul np xi (b_add np (b_add np v (b_mul np (b_mul np phi_p r1) (b_sub np b x)))
                                                   (b_mul np (b_mul np phi_g r2) (b_sub np g x))))).
    - intros. apply canonical_panics.
    - intros s p r b Hb C1 C2 C3. destruct (@canonical_returns F FI np32 phi_p phi_g xi s p r b Hb C1 C2 C3) as [y [E [_ K]]].
      exists y. eexists. split; [exact E|]. intros v b' x g H1 H2 H3 H4.
      exists (@unit32 F FI np32 r (2 * k)), (@unit32 F FI np32 r (2 * k + 1)).
      split; [apply unit32_range|]. split; [apply unit32_range|]. exact (K k v b' x g H1 H2 H3 H4).
    - intros v b x g r1 r2 Hv Hb Hx Hg [A1 A2] [B1 B2]. apply mul_zero; [exact F3|]. repeat apply zero_add; auto; now apply rest_pull.
  Qed.

  Lemma zoom_quiet {U} (L : lens U rng) f : quiet_calc k c f -> quiet_calc k c (fun s p => zoom L (f s p)).
  Proof.
    intros Q s p u v u' W Hin E. unfold zoom in E. destruct (f s p (lget L u)) as [o r] eqn:Ef. injection E as -> _.
    exact (Q s p _ v r W Hin Ef).
  Qed.

  Lemma classic_zoom_quiet {U} (L : lens U rng) phi_p phi_g : is_finite phi_p = true -> is_finite phi_g = true ->
    quiet_calc k c (fun s p => zoom L (@classic_velocity F FI np32 phi_p phi_g s p)).
  Proof. intros. apply zoom_quiet. now apply classic_quiet. Qed.
  Lemma canonical_zoom_quiet {U} (L : lens U rng) phi_p phi_g xi :
    is_finite phi_p = true -> is_finite phi_g = true -> is_finite xi = true ->
    quiet_calc k c (fun s p => zoom L (@canonical_velocity F FI np32 phi_p phi_g xi s p)).
  Proof. intros. apply zoom_quiet. now apply canonical_quiet. Qed.

  Lemma inertia_quiet {U} (L : lens U rng) (HL : lens_ok L) phi_p phi_g (inertia : nat -> comp U F) :
    is_finite phi_p = true -> is_finite phi_g = true ->
    (forall i u w u', inertia i u = (Ret w, u') -> is_finite w = true) ->
    quiet_calc k c (@inertia_velocity F FI np32 U L phi_p phi_g inertia).
  Proof.
    intros F1 F2 F3 s p u v u' [W1 W2] Hin E.
    destruct (W1 p Hin) as [[x [Ex Hx]] [[b' [Eb Hb']] [_ [z [Ez Hz]]]]].
    unfold inertia_velocity in E. apply cbind_ret in E. destruct E as [b [u0 [E0 E]]]. apply cpure_ret in E0.
    destruct E0 as [E0 <-]. apply unwrap_ret in E0. pose proof E as E1. apply cbind_ret in E1. destruct E1 as [w [u1 [Ew _]]].
    assert (E2 : @inertia_velocity F FI np32 U L phi_p phi_g inertia s p u = (Ret v, u')).
    { unfold inertia_velocity, cbind at 1, cpure at 1. rewrite E0. cbn [unwrap]. exact E. }
    clear E. destruct (usable_dec s p) as [[b0 [Hb [C1 [C2 C3]]]]|N].
    2:{ apply (@inertia_panics F FI np32 U L HL phi_p phi_g inertia s p u w u1 Ew) in N. rewrite E2 in N. discriminate N. }
    destruct (W2 b0 (or_introl Hb)) as [g [Eg Hg]].
    destruct (@inertia_returns F FI np32 U L HL phi_p phi_g inertia s p u b0 w u1 Hb C1 C2 C3 Ew) as [y [E' [_ K]]].
    rewrite E2 in E'. injection E' as <- _. specialize (K k z b' x g Ez Eb Ex Eg).
    eexists. split; [exact K|]. apply zero_sign. cbn [fadd fmul fsub FloatIEEE].
    destruct (unit32_range (lget L u1) (2 * k)) as [A1 A2]. destruct (unit32_range (lget L u1) (2 * k + 1)) as [B1 B2].
    apply zero_add; [apply zero_add|]; [apply mul_zero; [exact (F3 _ _ _ _ Ew)|now apply zero_sign]| |]; now apply rest_pull.
  Qed.

  Lemma negative_quiet (q : @negative_reinforcement F) :
    Forall (fun phi => is_finite phi = true)
      [nr_phi_best_personal q; nr_phi_best_current q; nr_phi_best_global q;
       nr_phi_worst_personal q; nr_phi_worst_current q; nr_phi_worst_global q; nr_xi q] ->
    quiet_calc k c (@negative_velocity F FI np64 q).
  Proof.
    intros HF s p r v r' [W1 W2] Hin E.
    repeat match goal with H : Forall _ (_ :: _) |- _ => apply Forall_cons_iff in H; destruct H as [? H] end.
    assert (US : six_usable s p).
    { apply NNPP. intros N. apply (@negative_panics F FI np64 q s p r) in N. rewrite E in N. discriminate N. }
    destruct US as [bg [wg [bc [wc [Hbg [Hwg [Hbc [Hwc [C1 [C2 [C3 [C4 [C5 [C6 C7]]]]]]]]]]]]]].
    destruct (@negative_returns F FI np64 q s p r bg wg bc wc Hbg Hwg Hbc Hwc C1 C2 C3 C4 C5 C6 C7) as [y [E' [_ K]]].
    rewrite E in E'. injection E' as <- _.
    destruct (W1 p Hin) as [[x [Ex Hx]] [[b' [Eb Hb']] [[w' [Ew Hw']] [z [Ez Hz]]]]]. apply zero_sign in Hz.
    destruct (W2 bg (or_introl Hbg)) as [g [Eg Hg]]. destruct (W2 wg (or_intror Hwg)) as [g' [Eg' Hg']].
    assert (IB : In bc (particles s)) by (destruct Hbc as [j [Hj _]]; now apply nth_error_In in Hj).
    assert (IW : In wc (particles s)) by (destruct Hwc as [j [Hj _]]; now apply nth_error_In in Hj).
    destruct (proj1 (W1 bc IB)) as [d [Ed Hd]]. destruct (proj1 (W1 wc IW)) as [d' [Ed' Hd']].
    specialize (K k z x b' d g w' d' g' Ez Ex Eb Ed Eg Ew Ed' Eg'). cbn zeta in K.
    eexists. split; [exact K|]. apply zero_sign. cbn [fadd fmul fsub FloatIEEE].
    assert (UR : forall j, is_finite (@unit64 F FI np64 r j) = true /\ (0 <= B2R (@unit64 F FI np64 r j) <= 1)%R)
      by (intros j; apply (unit_range np64)).
    apply mul_zero; [assumption|]. repeat first [apply zero_sub | apply zero_add]; auto;
      apply rest_pull; auto; apply UR.
  Qed.
  Lemma negative_zoom_quiet {U} (L : lens U rng) (q : @negative_reinforcement F) :
    Forall (fun phi => is_finite phi = true)
      [nr_phi_best_personal q; nr_phi_best_current q; nr_phi_best_global q;
       nr_phi_worst_personal q; nr_phi_worst_current q; nr_phi_worst_global q; nr_xi q] ->
    quiet_calc k c (fun s p => zoom L (@negative_velocity F FI np64 q s p)).
  Proof. intros. apply zoom_quiet. now apply negative_quiet. Qed.
End Still.

(** ** A swarm of one particle *)
Section Lone.
  Context {prec emax : Z} {Hp : Prec_gt_0 prec} {He : Prec_lt_emax prec emax}.
  Variable np : nan_policy prec emax.
  Notation F := (bfloat prec emax).
  Notation FI := (FloatIEEE np).

  Lemma point_of (y x : list F) : length y = length x -> Forall (fun a => is_finite a = true) x ->
    (forall k c, nth_error x k = Some c -> at_number k c y) -> same_point y x.
  Proof.
    intros L Fx H. apply Forall2_nth'; [exact L|]. intros k a c Ha Hc.
    destruct (H k c Hc) as [a' [Ea Hca]]. rewrite Ha in Ea. injection Ea as <-.
    assert (Fc : is_finite c = true) by (rewrite Forall_forall in Fx; apply Fx; eapply nth_error_In; eauto).
    split; [exact (cmp_finite a c Fc Hca)|]. auto.
  Qed.
  Lemma of_point (y x : list F) k c : same_point y x -> nth_error x k = Some c -> at_number k c y.
  Proof.
    intros H Hc. destruct (nth_in_bounds y k) as [a Ha].
    { rewrite (Forall2_length _ _ _ H). apply nth_error_Some. congruence. }
    exists a. split; [exact Ha|]. exact (proj2 (proj2 (same_point_nth y x k a c H Ha Hc))).
  Qed.
  Lemma point_refl (x : list F) : Forall (fun a => is_finite a = true) x -> same_point x x.
  Proof.
    intros Fx. apply point_of; auto. intros k c Hc. exists c. split; [exact Hc|].
    apply same_cmp; [rewrite Forall_forall in Fx; apply Fx; eapply nth_error_In; eauto|apply same_refl].
  Qed.

  (** All particles start at the same point. *)
  Lemma crowd {U} goal stop coords calc limits loggers box n (x : list F) xs fuel s u u1 o u' t :
    coords u = (Ret xs, u1) -> Forall (eq x) xs -> in_box box x ->
    (forall k c, is_finite c = true -> quiet_calc k c calc) ->
    Forall (fun f => forall k, k < length x -> quiet_velocity k f) limits ->
    @pso_find_min U F FI
      (PsoConfig goal stop coords (cret (@zero_velocities F FI (length x) n)) calc limits
         [fun x => cpure (@move_to_boundary F FI box x)] loggers) fuel s u = (o, u', t) ->
    forall y w, evaluated t y w -> same_point y x.
  Proof.
    intros HC HX HB HQ HL H y w Hy.
    set (cfg := PsoConfig goal stop coords (cret (@zero_velocities F FI (length x) n)) calc limits
         [fun x => cpure (@move_to_boundary F FI box x)] loggers) in *.
    assert (Fx : Forall (fun a => is_finite a = true) x).
    { clear - HB. induction HB as [|a i x box [A _] _ IH]; constructor; auto. }
    set (P := fun y => same_point y x). set (V := fun v : list F => forall k, k < length x -> still k v).
    assert (FN : forall k c, nth_error x k = Some c -> is_finite c = true).
    { intros k c Hc. rewrite Forall_forall in Fx. apply Fx. eapply nth_error_In; eauto. }
    assert (LT : forall k c, nth_error x k = Some c -> k < length x).
    { intros k c Hc. apply nth_error_Some. congruence. }
    assert (K1 : forall s p u v u', within P V s -> In p (particles s) -> pso_calc cfg s p u = (Ret v, u') -> V v).
    { intros s0 p u0 v u2 [W1 W2] Hin E k Hk. destruct (nth_in_bounds x k Hk) as [c Hc].
      apply (HQ k c (FN k c Hc) s0 p u0 v u2); auto. split.
      - intros q Hq. destruct (W1 q Hq) as [A1 [A2 [A3 A4]]].
        exact (conj (of_point _ x k c A1 Hc) (conj (of_point _ x k c A2 Hc) (conj (of_point _ x k c A3 Hc) (A4 k Hk)))).
      - intros b Hb. exact (of_point _ x k c (W2 b Hb) Hc). }
    assert (K2 : forall f v u w u', In f (pso_post_velocity cfg) -> V v -> f v u = (Ret w, u') -> V w).
    { intros f v u0 w0 u2 Hf Hv E k Hk. rewrite Forall_forall in HL. exact (HL f Hf k Hk v u0 w0 u2 (Hv k Hk) E). }
    assert (K3 : forall f a u b u', In f (pso_post_move cfg) -> P a -> f a u = (Ret b, u') -> P b).
    { intros f a u0 b u2 [<-|[]] Ha E. pose proof E as E'. apply cpure_ret in E'. destruct E' as [E' _].
      apply point_of; [|exact Fx|].
      - rewrite (@move_to_boundary_length F FI box a b E'). exact (Forall2_length _ _ _ Ha).
      - intros k c Hc. destruct (nth_in_bounds box k) as [[lo hi] Hbk].
        { rewrite <- (Forall2_length _ _ _ HB). exact (LT k c Hc). }
        assert (HI : leb lo c = true /\ leb c hi = true).
        { clear - HB Hc Hbk. revert k Hc Hbk. induction HB as [|d i x box [_ A] _ IH]; intros [|k] Hc Hbk; try discriminate Hc.
          - injection Hc as <-. injection Hbk as ->. exact A.
          - exact (IH k Hc Hbk). }
        exact (move_quiet np k c (FN k c Hc) box lo hi Hbk (proj1 HI) (proj2 HI) a u0 b u2 (of_point a x k c Ha Hc) E). }
    assert (K4 : forall a v, P a -> V v -> P (@pointwise_sum F FI a v)).
    { intros a v Ha Hv. pose proof (Forall2_length _ _ _ Ha) as La. apply point_of; [|exact Fx|].
      - unfold pointwise_sum. rewrite map_length, combine_length. rewrite La. apply Nat.min_l.
        destruct (le_lt_dec (length x) (length v)) as [A|A]; [exact A|]. exfalso.
        destruct (Hv (length v) A) as [z [Ez _]]. assert (length v < length v) by (apply nth_error_Some; congruence). lia.
      - intros k c Hc. apply sum_at; [exact (FN k c Hc)|apply (of_point _ x); auto|apply Hv; exact (LT k c Hc)]. }
    pose proof (@w_find U F FI cfg P P V V K1 (chain_keeps PPostVelocity V _ K2) (chain_keeps PPostMove P _ K3)
      K4 fuel s u) as G.
    assert (G1 : forall xs u1, pso_coordinates cfg u = (Ret xs, u1) -> Forall P xs).
    { intros ys u2 E. cbn [pso_coordinates cfg] in E. rewrite HC in E. injection E as <- _. eapply Forall_impl; [|exact HX].
      intros a <-. now apply point_refl. }
    assert (G2 : forall u vs u', pso_velocities cfg u = (Ret vs, u') -> Forall V vs).
    { intros u0 vs u2 E. apply cret_ret in E. destruct E as [<- _]. apply Forall_forall. intros v Hv k Hk.
      apply repeat_spec in Hv. subst v. exists (Binary.B754_zero false). split; [|now exists false].
      clear - Hk. revert k Hk. induction (length x) as [|m IH]; intros k Hk; [lia|].
      destruct k as [|k]; [reflexivity|]. cbn [repeat nth_error]. apply IH. lia. }
    specialize (G G1 G2 [] u (conj (Forall_nil _) eq_refl)). rewrite H in G.
    assert (A : Forall (fine P V) t) by (destruct o as [[r s']| |]; cbn [app snd] in G; [exact (proj1 G)|exact G|exact G]).
    rewrite Forall_forall in A. exact (proj1 (A _ Hy)).
  Qed.
  Lemma lone_particle {U} goal stop coords calc limits loggers box n (x : list F) fuel s u u1 o u' t :
    coords u = (Ret [x], u1) -> in_box box x ->
    (forall k c, is_finite c = true -> quiet_calc k c calc) ->
    Forall (fun f => forall k, k < length x -> quiet_velocity k f) limits ->
    @pso_find_min U F FI
      (PsoConfig goal stop coords (cret (@zero_velocities F FI (length x) n)) calc limits
         [fun x => cpure (@move_to_boundary F FI box x)] loggers) fuel s u = (o, u', t) ->
    forall y w, evaluated t y w -> same_point y x.
  Proof. intros HC. apply (crowd goal stop coords calc limits loggers box n x [x] fuel s u u1 o u' t HC). constructor; [reflexivity|constructor]. Qed.
End Lone.
