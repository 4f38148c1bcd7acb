(** * The components of the particle swarm fit together *)

From Coq Require Import List Arith ZArith Bool Lia Reals.
From Flocq Require Import Core IEEE754.BinarySingleNaN IEEE754.Binary.
From Verif Require Import Base Logic FloatModel Rng GaModel GaComponents PsoModel PsoComponents StopModel SpecGa
  SpecPso SpecRun SpecBox SpecVel SpecRand SpecTotal SpecStandard FloatFacts TotalFacts PsoFacts PsoRuns PsoProofs PsoTotal
  BoxFacts PostFacts VelFacts CalcFacts StopProofs LoopFacts ArithFacts CreateFacts.
Import ListNotations.

Section StopAnswers.
  Context {U T : Type}.
  Variable J : U -> Prop.
  Lemma max_always k q : always J (max_answers k q) (@max_iterations U T k q).
  Proof.
    intros u Hu. eexists _, _. split; [reflexivity|]. split; auto. unfold max_answers. apply Nat.leb_le.
  Qed.
  Lemma max_stops_by k : stops_by k (@max_answers T k).
  Proof. intros q H K. apply K in H. discriminate. Qed.
  Lemma any_always t k q : always J (any_answers t k q) (@composite_any U T [threshold t; max_iterations k] q).
  Proof.
    intros u Hu. cbn [composite_any]. unfold cbind, threshold at 1, cret at 1.
    destruct (as_best q) as [[x v]|] eqn:Eb.
    - destruct (leb v t) eqn:El.
      + exists true, u. split; [reflexivity|]. split; auto. split; auto. intros _. right. eauto.
      + unfold max_iterations, cret. destruct (k <=? as_iter q) eqn:Ek; simpl; eexists _, _;
          (split; [reflexivity|]); (split; [|auto]); unfold any_answers.
        * apply Nat.leb_le in Ek. tauto.
        * apply Nat.leb_gt in Ek. split; [discriminate|]. intros [K|[x' [v' [E L]]]]; [lia|]. congruence.
    - unfold max_iterations, cret. destruct (k <=? as_iter q) eqn:Ek; simpl; eexists _, _;
        (split; [reflexivity|]); (split; [|auto]); unfold any_answers.
      + apply Nat.leb_le in Ek. tauto.
      + apply Nat.leb_gt in Ek. split; [discriminate|]. intros [K|[x' [v' [E L]]]]; [lia|]. congruence.
  Qed.
  Lemma any_stops_by t k : stops_by k (@any_answers T t k).
  Proof. intros q H K. assert (false = true) by (apply K; auto). discriminate. Qed.
End StopAnswers.

Lemma logging_any {U T} (ok : alg_state T -> Prop) I (ls : list (logger U T)) :
  logging_fits (fun _ => True) I ls -> logging_fits ok I ls.
Proof. intros [A B C D]. constructor; auto. Qed.
(** Loggers that work in any phase. *)
Lemma plain_logging {U T} (ok : alg_state T -> Prop) (J : nat -> U -> Prop) (ls : list (logger U T)) :
  (forall l k q, In l ls -> ok q -> returns (J (as_iter q)) (told_by k l q)) ->
  logging_fits ok (fun _ => J) ls.
Proof.
  intros H. constructor; auto.
  intros q u Hq Hu. revert u Hu. induction ls as [|l ls IH]; intros u Hu; cbn [tell_all]; [eexists; split; [reflexivity|auto]|].
  destruct (H l LResume q (or_introl eq_refl) Hq u Hu) as [[] [u1 [E [_ Hu1]]]]. unfold cbind. rewrite E.
  apply IH; auto. intros l' k' q' Hl'. apply H. simpl. auto.
Qed.

Section Fits.
  Context {T : Type} {FT : FloatTrait T} {U : Type} (I : U -> Prop).
  Implicit Types (s : swarm T) (p : particle T).

  Lemma dim_covers d p (v : list T) : particle_dim d p -> dim d v -> covers p v.
  Proof. intros [H _] Hv. unfold covers, dim in *. lia. Qed.

  Lemma nonempty_best d s p : swarm_dim d s -> In p (particles s) -> exists b, best_particle s = Some b /\ particle_dim d b.
  Proof.
    intros [D1 [D2 [D3 [D4 D5]]]] Hp. destruct (best_particle s) as [b|] eqn:Eb; eauto.
    rewrite (proj2 D4 eq_refl) in Hp. destruct Hp.
  Qed.
  Lemma nonempty_worst d s p : swarm_dim d s -> In p (particles s) -> exists b, worst_particle s = Some b /\ particle_dim d b.
  Proof.
    intros [D1 [D2 [D3 [D4 D5]]]] Hp. destruct (worst_particle s) as [b|] eqn:Eb; eauto.
    rewrite (proj2 D5 eq_refl) in Hp. destruct Hp.
  Qed.
  Lemma in_particles d s p : swarm_dim d s -> In p (particles s) -> particle_dim d p.
  Proof. intros [D1 _]. rewrite Forall_forall in D1. auto. Qed.

  Lemma zoom_always (L : lens U rng) {A} (c : comp rng A) (Q : A -> Prop) :
    (forall r u, I u -> I (lput L r u)) ->
    (forall r, exists a r', c r = (Ret a, r') /\ Q a) -> always I Q (zoom L c).
  Proof.
    intros HI H u Hu. destruct (H (lget L u)) as [a [r' [E Qa]]]. exists a, (lput L r' u).
    unfold zoom. rewrite E. auto.
  Qed.
End Fits.

Section Standard.
  Context {prec emax : Z} {Hp : Prec_gt_0 prec} {He : Prec_lt_emax prec emax}.
  Variables (np : nan_policy prec emax) (np32 : nan_policy 24 128) (np64 : nan_policy 53 1024).
  Context {SA : Sampler (bfloat prec emax)} {U : Type}.
  Variable L : lens U rng.
  Hypothesis HL : lens_ok L.
  Notation F := (bfloat prec emax).
  #[local] Hint Extern 0 (FloatTrait (bfloat prec emax)) => exact (FloatIEEE np) : typeclass_instances.

  Section Kept.
  Variable J : U -> Prop.
  Hypothesis HJ : forall r u, J u -> J (lput L r u).
  
  Lemma standard_calc_fits d calc s (p : particle F) :
    standard_calc np np32 np64 L calc -> swarm_dim d s -> In p (particles s) ->
    always J (dim d) (calc s p).
  Proof.
    intros Hc Hs Hi. pose proof (in_particles d s p Hs Hi) as Dp.
    destruct (nonempty_best d s p Hs Hi) as [b [Eb Db]].
    destruct (nonempty_worst d s p Hs Hi) as [w [Ew Dw]].
    pose proof Dp as [P1 [P2 [P3 P4]]].
    destruct Hc as [phi_p phi_g|phi_p phi_g xi|k|phi_p phi_g weight].
    - apply zoom_always; [auto|]. intros r.
      destruct (classic_returns np32 phi_p phi_g s p r b Eb) as [y [E [Ly _]]];
        try (eapply dim_covers; eauto; fail).
      { eapply dim_covers; [exact Dp|apply Db]. }
      eexists _, _. split; [exact E|]. unfold dim in *. congruence.
    - apply zoom_always; [auto|]. intros r.
      destruct (canonical_returns np32 phi_p phi_g xi s p r b Eb) as [y [E [Ly _]]];
        try (eapply dim_covers; eauto; fail).
      { eapply dim_covers; [exact Dp|apply Db]. }
      eexists _, _. split; [exact E|]. unfold dim in *. congruence.
    - apply zoom_always; [auto|]. intros r.
      pose proof (find_best_spec (particles s)) as F1. pose proof (find_worst_spec (particles s)) as F2.
      destruct (particles s) as [|q l] eqn:El; [destruct Hi|]. rewrite <- El in *.
      destruct F1 as [bc [_ F1]], F2 as [wc [_ F2]].
      assert (Dbc : particle_dim d bc) by (eapply in_particles; eauto; eapply first_least_in; eauto).
      assert (Dwc : particle_dim d wc)
        by (eapply in_particles; eauto; apply last_greatest_greatest in F2; apply F2).
      destruct (negative_returns np64 k s p r b w bc wc Eb Ew F1 F2) as [y [E [Ly _]]];
        try (eapply dim_covers; eauto; fail);
        try (eapply dim_covers; [exact Dp|]; first [apply Db|apply Dw|apply Dbc|apply Dwc]).
      eexists _, _. split; [exact E|]. unfold dim in *. congruence.
    - intros u Hu.
      destruct (inertia_returns np32 L HL phi_p phi_g (fun t => cret (weight t)) s p u b
                  (weight (sw_iteration s)) u Eb) as [y [E [Ly _]]];
        try (eapply dim_covers; eauto; fail); auto.
      { eapply dim_covers; [exact Dp|apply Db]. }
      eexists _, _. split; [exact E|]. unfold dim in *. split; [congruence|auto].
  Qed.

  Lemma standard_post_velocity_fits d f (v : list F) :
    @standard_post_velocity _ _ _ _ np U d f -> dim d v -> always J (dim d) (f v).
  Proof.
    unfold dim. intros Hf Hv u Hu. destruct Hf as [limit|limits Hl].
    - eexists _, _. split; [reflexivity|]. split; auto. rewrite <- Hv. apply (max_abs_length np).
    - destruct (max_velocity_dimensions limits v) as [y| |] eqn:E.
      + exists y, u. split; auto. split; auto.
        destruct (max_dim_spec np limits v y E) as [_ [K _]]. congruence.
      + exfalso. apply (max_dim_panic np) in E. congruence.
      + exfalso. unfold max_velocity_dimensions in E. destruct (oassert _) eqn:E1; try discriminate.
        destruct (_ =? _); discriminate.
  Qed.

  Lemma boundary_total (intervals : list (F * F)) x : length x = length intervals ->
    exists y, move_to_boundary intervals x = Ret y.
  Proof. intros H. rewrite move_to_boundary_eq; eauto. Qed.

  Lemma standard_post_move_fits d f (x : list F) :
    @standard_post_move _ _ _ _ np np32 SA U L d f -> dim d x -> always J (dim d) (f x).
  Proof.
    unfold dim. intros Hf Hx. destruct Hf as [intervals Hl|intervals p rt Hl Hn].
    - intros u Hu. destruct (boundary_total intervals x) as [y E]; [congruence|].
      exists y, u. cbv beta; unfold cpure. rewrite E. split; auto. split; auto.
      apply move_to_boundary_length in E. congruence.
    - apply zoom_always; [auto|]. intros r.
      destruct (teleport_move np np32 intervals p rt x r Hn) as [_ [A B]].
      destruct (ltb (@drawn_excl f32 (FloatIEEE np32) _ (b_of_Z 0) (b_of_Z 1) r 0) p) eqn:Ed.
      + destruct B as [y [E [Ly _]]]; [congruence|auto|]. rewrite E. eexists _, _. split; [reflexivity|]. congruence.
      + rewrite A; [|congruence|auto]. eexists _, _. split; [reflexivity|]. auto.
  Qed.

  Lemma zero_fits d n : always J (fun vs => length vs = n /\ Forall (dim d) vs)
    (cret (@zero_velocities F (FloatIEEE np) d n)).
  Proof.
    intros u Hu. eexists _, _. split; [reflexivity|]. split; [|exact Hu].
    destruct (@zero_velocities_spec F (FloatIEEE np) d n) as [A B]. split; auto.
    apply Forall_forall. intros v Hv. apply B in Hv. apply Hv.
  Qed.

  End Kept.

  (** Everything but the initializers of one run. *)
  Variable I : phase -> nat -> U -> Prop.
  Hypothesis HI : lasting L I.
  Lemma standard_fits answers d n goal stop coords vels calc post_velocity post_move loggers :
    (forall ph i x, dim d x -> returns (I ph i) (goal x)) ->
    (forall q, always (I Running (as_iter q)) (answers q) (stop q)) ->
    always (I Resting 0) (fun xs => length xs = n /\ Forall (dim d) xs) coords ->
    always (I Resting 0) (fun xs => length xs = n /\ Forall (dim d) xs) vels ->
    standard_calc np np32 np64 L calc ->
    Forall (@standard_post_velocity _ _ _ _ np U d) post_velocity ->
    Forall (@standard_post_move _ _ _ _ np np32 SA U L d) post_move ->
    logging_fits (fun _ => True) I loggers ->
    pso_fits I answers d n (PsoConfig goal stop coords vels calc post_velocity post_move loggers).
  Proof.
    intros H1 H2 H3 H4 H5 H6 H7 H8. rewrite Forall_forall in H6, H7. destruct HI as [Ha Hr]. constructor; simpl; auto.
    - intros s _. exact (H2 (swarm_view s)).
    - intros s p Hs Hi. eapply standard_calc_fits; eauto.
    - intros i f v Hf Hv. apply standard_post_velocity_fits; auto.
    - intros ph i f x Hf Hx. apply standard_post_move_fits; auto.
    - eapply logging_any, H8.
  Qed.

  Lemma standard_run d n answers goal stop k coords vels calc post_velocity earlier box loggers fuel s u :
    good_box box -> length box = d ->
    (forall ph i x, dim d x -> returns (I ph i) (goal x)) ->
    (forall q, always (I Running (as_iter q)) (answers q) (stop q)) -> stops_by k answers ->
    always (I Resting 0) (fun xs => length xs = n /\ Forall (dim d) xs) coords ->
    always (I Resting 0) (fun xs => length xs = n /\ Forall (dim d) xs) vels ->
    standard_calc np np32 np64 L calc ->
    Forall (@standard_post_velocity _ _ _ _ np U d) post_velocity ->
    Forall (@standard_post_move _ _ _ _ np np32 SA U L d) earlier ->
    logging_fits (fun _ => True) I loggers ->
    k < fuel -> I Resting 0 u ->
    let cfg := PsoConfig goal stop coords vels calc post_velocity
                 (earlier ++ [fun x => cpure (@move_to_boundary F (FloatIEEE np) box x)]) loggers in
    exists r s' u' t, @pso_find_min U F (FloatIEEE np) cfg fuel s u = (Ret (r, s'), u', t) /\
      sw_iteration s' <= k /\ answers (swarm_view s') true /\ length (particles s') = n /\ (r = None <-> n = 0) /\
      (forall x v, r = Some (x, v) -> in_box box x /\ evaluated t x v) /\ I Running (sw_iteration s') u'.
  Proof.
    intros Hb Lb H1 H2 Hby H3 H4 H5 H6 H7 H8 Hk Hu cfg.
    assert (Hfit : pso_fits I answers d n cfg).
    { apply standard_fits; auto.
      apply Forall_app. split; auto. constructor; [|constructor]. now apply std_boundary. }
    destruct (@pso_find_returns U F (FloatIEEE np) I answers d n cfg k fuel s u Hfit Hby Hk Hu)
      as [r [s' [u' [t [E [A [B [C [D [G K0]]]]]]]]]].
    exists r, s', u', t. split; auto.
    split; auto. split; auto. split; auto. split; auto. split; [|exact K0]. intros x v Hr. split.
    - set (ok := fun c : pso_config U F => c = cfg).
      assert (Hok : forall c, ok c -> exists earlier,
        pso_post_move c = earlier ++ [fun x => cpure (@move_to_boundary F (FloatIEEE np) box x)])
        by (intros c ->; exists earlier; reflexivity).
      destruct (pso_in_box np box ok swarm_new [] cfg fuel u (Ret (r, s')) u' t Hb Hok
        (pso_reach_new ok) eq_refl (or_introl E)) as [_ [_ K]].
      destruct (K r s' eq_refl) as [_ K2]. eapply K2; eauto.
    - subst r. exact (proj1 (@pso_result_evaluated U F (FloatIEEE np) (fun _ => True) swarm_new [] cfg fuel u x v s' u' t
                    (pso_reach_new _)) E).
  Qed.

  Lemma standard_next (ok : pso_config U F -> Prop) answers d n (cfg : pso_config U F) box k fuel s h u :
    good_box box ->
    (forall c, ok c -> exists earlier,
       pso_post_move c = earlier ++ [fun x => cpure (@move_to_boundary F (FloatIEEE np) box x)]) ->
    @pso_reach U F (FloatIEEE np) ok s h -> ok cfg -> swarm_dim d s ->
    @pso_fits F U I answers d n cfg -> stops_by k answers -> k - sw_iteration s < fuel -> I Resting (sw_iteration s) u ->
    exists r s' u' t, @pso_next_iterations U F (FloatIEEE np) cfg fuel s u = (Ret (r, s'), u', t) /\
      (sw_iteration s <= k -> sw_iteration s' <= k) /\ answers (swarm_view s') true /\
      swarm_dim d s' /\ length (particles s') = length (particles s) /\ (r = None <-> particles s = []) /\
      (forall x v, r = Some (x, v) -> in_box box x /\ evaluated (h ++ t) x v) /\ I Running (sw_iteration s') u'.
  Proof.
    intros Hb Hok Hr Hc Hs Hfit Hby Hk Hu.
    destruct (@pso_next_returns U F (FloatIEEE np) I answers d n cfg k fuel s u Hfit Hby Hk Hu Hs)
      as [r [s' [u' [t [E [A [B [C [D [G K0]]]]]]]]]].
    exists r, s', u', t. split; auto. split; auto. split; auto. split; auto. split; auto. split; auto.
    split; [|exact K0]. intros x v Er. split.
    - destruct (pso_in_box np box ok s h cfg fuel u (Ret (r, s')) u' t Hb Hok Hr Hc (or_intror E)) as [_ [_ K]].
      destruct (K r s' eq_refl) as [_ K2]. eapply K2; eauto.
    - subst r. exact (proj2 (@pso_result_evaluated U F (FloatIEEE np) ok s h cfg fuel u x v s' u' t Hr) E).
  Qed.
End Standard.

(** ** f64 and f32 *)
Section Docs.
  Context {U : Type}.
  Variable L : lens U rng.
  Hypothesis HL : lens_ok L.
  Variable I : phase -> nat -> U -> Prop.
  Hypothesis HI : lasting L I.
  Variables (np32 : nan_policy 24 128) (np64 : nan_policy 53 1024).

  Lemma ltb_leb {prec emax} (x y : bfloat prec emax) : ltb x y = true -> leb x y = true.
  Proof. intros H. apply ltb_key in H. apply leb_key. destruct H as [A [B C]]. split; [auto|]. split; [auto|]. now apply Rlt_le. Qed.
  Lemma good_intervals_box64 box : good_intervals64 np64 box -> good_box box.
  Proof.
    intros H. apply Forall_forall. intros [lo hi] Hi. destruct (H lo hi Hi) as [A B].
    destruct (sub_finite np64 _ _ B). simpl. auto using ltb_leb.
  Qed.
  Lemma good_intervals_box32 box : good_intervals32 box -> good_box box.
  Proof.
    intros H. apply Forall_forall. intros [lo hi] Hi. destruct (H lo hi Hi) as [A [B C]].
    simpl. auto using ltb_leb.
  Qed.
  Lemma random_fits64 intervals n : good_intervals64 np64 intervals ->
    always (I Resting 0) (fun vs => length vs = n /\ Forall (dim (length intervals)) vs)
      (zoom L (@random_vectors f64 NumGene64 np64 intervals n)).
  Proof.
    intros H. apply zoom_always; [apply HI|]. intros r. destruct (random_vectors_f64 np64 intervals n r H) as [vs [E [A B]]].
    eexists _, _. split; [exact E|]. split; auto. apply Forall_forall. intros v Hv.
    apply In_nth_error in Hv. destruct Hv as [j Hj]. apply (B j v Hj).
  Qed.
  Lemma random_fits32 intervals n : good_intervals32 intervals ->
    always (I Resting 0) (fun vs => length vs = n /\ Forall (dim (length intervals)) vs)
      (zoom L (@random_vectors f32 (NumGene32 np64 np32) np64 intervals n)).
  Proof.
    intros H. apply zoom_always; [apply HI|]. intros r. destruct (random_vectors_f32 np64 np32 intervals n r H) as [vs [E [A B]]].
    eexists _, _. split; [exact E|]. split; auto. apply Forall_forall. intros v Hv.
    apply In_nth_error in Hv. destruct Hv as [j Hj]. apply (B j v Hj).
  Qed.

  Lemma standard_fits64 box n answers goal stop vels calc post_velocity earlier loggers :
    good_intervals64 np64 box ->
    (forall ph i x, dim (length box) x -> returns (I ph i) (goal x)) ->
    (forall q, always (I Running (as_iter q)) (answers q) (stop q)) ->
    standard_velocities64 np64 L (length box) n vels ->
    standard_calc np64 np32 np64 L calc ->
    Forall (@standard_post_velocity _ _ _ _ np64 U (length box)) post_velocity ->
    Forall (@standard_post_move _ _ _ _ np64 np32 _ U L (length box)) earlier ->
    logging_fits (fun _ => True) I loggers ->
    pso_fits I answers (length box) n
      (PsoConfig goal stop (zoom L (@random_vectors f64 NumGene64 np64 box n)) vels calc
           post_velocity (earlier ++ [fun x => cpure (@move_to_boundary f64 (FloatIEEE np64) box x)]) loggers).
  Proof.
    intros Hb Hg Hs Hv Hc Hpv Hpm Hl.
    apply (@standard_fits 53 1024 _ _ np64 np32 np64 _ U L HL I HI answers (length box) n); auto.
    - now apply random_fits64.
    - destruct Hv as [|iv Li Hi]; [now apply zero_fits|]. rewrite <- Li. now apply random_fits64.
    - apply Forall_app. split; auto. constructor; [|constructor]. now apply std_boundary.
  Qed.
  Lemma standard64 box n k answers goal stop vels calc post_velocity earlier loggers fuel s u :
    good_intervals64 np64 box ->
    (forall ph i x, dim (length box) x -> returns (I ph i) (goal x)) ->
    (forall q, always (I Running (as_iter q)) (answers q) (stop q)) -> stops_by k answers ->
    standard_velocities64 np64 L (length box) n vels ->
    standard_calc np64 np32 np64 L calc ->
    Forall (@standard_post_velocity _ _ _ _ np64 U (length box)) post_velocity ->
    Forall (@standard_post_move _ _ _ _ np64 np32 _ U L (length box)) earlier ->
    logging_fits (fun _ => True) I loggers ->
    k < fuel -> I Resting 0 u ->
    exists r s' u' t,
      @pso_find_min U f64 (FloatIEEE np64)
        (PsoConfig goal stop (zoom L (@random_vectors f64 NumGene64 np64 box n)) vels calc post_velocity
           (earlier ++ [fun x => cpure (@move_to_boundary f64 (FloatIEEE np64) box x)]) loggers) fuel s u
        = (Ret (r, s'), u', t) /\
      sw_iteration s' <= k /\ answers (swarm_view s') true /\ length (particles s') = n /\ (r = None <-> n = 0) /\
      (forall x v, r = Some (x, v) -> in_box box x /\ evaluated t x v) /\ I Running (sw_iteration s') u'.
  Proof.
    intros Hb Hg Hs Hby Hv Hc Hpv Hpm Hl Hk Hu.
    apply (@standard_run 53 1024 _ _ np64 np32 np64 _ U L HL I HI (length box) n); auto.
    - now apply good_intervals_box64.
    - now apply random_fits64.
    - destruct Hv as [|iv Li Hi]; [now apply zero_fits|]. rewrite <- Li. now apply random_fits64.
  Qed.
  Lemma standard_fits32 box n answers goal stop vels calc post_velocity earlier loggers :
    good_intervals32 box ->
    (forall ph i x, dim (length box) x -> returns (I ph i) (goal x)) ->
    (forall q, always (I Running (as_iter q)) (answers q) (stop q)) ->
    standard_velocities32 np64 np32 L (length box) n vels ->
    standard_calc np32 np32 np64 L calc ->
    Forall (@standard_post_velocity _ _ _ _ np32 U (length box)) post_velocity ->
    Forall (@standard_post_move _ _ _ _ np32 np32 _ U L (length box)) earlier ->
    logging_fits (fun _ => True) I loggers ->
    pso_fits I answers (length box) n
      (PsoConfig goal stop (zoom L (@random_vectors f32 (NumGene32 np64 np32) np64 box n)) vels calc
           post_velocity (earlier ++ [fun x => cpure (@move_to_boundary f32 (FloatIEEE np32) box x)]) loggers).
  Proof.
    intros Hb Hg Hs Hv Hc Hpv Hpm Hl.
    apply (@standard_fits 24 128 _ _ np32 np32 np64 _ U L HL I HI answers (length box) n); auto.
    - now apply random_fits32.
    - destruct Hv as [|iv Li Hi]; [now apply zero_fits|]. rewrite <- Li. now apply random_fits32.
    - apply Forall_app. split; auto. constructor; [|constructor]. now apply std_boundary.
  Qed.
  Lemma standard32 box n k answers goal stop vels calc post_velocity earlier loggers fuel s u :
    good_intervals32 box ->
    (forall ph i x, dim (length box) x -> returns (I ph i) (goal x)) ->
    (forall q, always (I Running (as_iter q)) (answers q) (stop q)) -> stops_by k answers ->
    standard_velocities32 np64 np32 L (length box) n vels ->
    standard_calc np32 np32 np64 L calc ->
    Forall (@standard_post_velocity _ _ _ _ np32 U (length box)) post_velocity ->
    Forall (@standard_post_move _ _ _ _ np32 np32 _ U L (length box)) earlier ->
    logging_fits (fun _ => True) I loggers ->
    k < fuel -> I Resting 0 u ->
    exists r s' u' t,
      @pso_find_min U f32 (FloatIEEE np32)
        (PsoConfig goal stop (zoom L (@random_vectors f32 (NumGene32 np64 np32) np64 box n)) vels calc
           post_velocity (earlier ++ [fun x => cpure (@move_to_boundary f32 (FloatIEEE np32) box x)]) loggers) fuel s u
        = (Ret (r, s'), u', t) /\
      sw_iteration s' <= k /\ answers (swarm_view s') true /\ length (particles s') = n /\ (r = None <-> n = 0) /\
      (forall x v, r = Some (x, v) -> in_box box x /\ evaluated t x v) /\ I Running (sw_iteration s') u'.
  Proof.
    intros Hb Hg Hs Hby Hv Hc Hpv Hpm Hl Hk Hu.
    apply (@standard_run 24 128 _ _ np32 np32 np64 _ U L HL I HI (length box) n); auto.
    - now apply good_intervals_box32.
    - now apply random_fits32.
    - destruct Hv as [|iv Li Hi]; [now apply zero_fits|]. rewrite <- Li. now apply random_fits32.
  Qed.
End Docs.
