(** * Possible velocities and possible runs: proofs *)

From Coq Require Import List Arith ZArith Bool Lia Reals Lra.
From Flocq Require Import Core IEEE754.BinarySingleNaN IEEE754.Binary.
From Verif Require Import Base Logic FloatModel Rng FloatFacts GaModel GaComponents PsoModel PsoComponents
  SpecGa SpecPso SpecBits SpecBox SpecRand SpecVel SpecStandard SpecPossible RandFacts PairFacts CreateFacts ArithFacts
  PostFacts CalcFacts BoxFacts PsoProofs PossibleFacts.
Import ListNotations.

(** ** Prescribed draws *)
Lemma shift_prepend zs r : shift (length zs) (prepend zs r) = r.
Proof. induction zs as [|z zs IH]; [reflexivity|]. exact IH. Qed.
Lemma prepend_nth zs r k z : nth_error zs k = Some z -> prepend zs r k = z.
Proof. revert k. induction zs as [|y zs IH]; intros [|k] H; try discriminate H; [now injection H|]. now apply IH. Qed.

(** Raw numbers for the first [n] elements of a sequence of floats. *)
Lemma raw_sequence {T} {SA : Sampler T} {Sur : Surjective SA} (rs : nat -> T) n :
  exists zs, length zs = n /\ forall r k, k < n -> fraw (prepend zs r k) = rs k.
Proof.
  assert (G : exists zs, length zs = n /\ forall k z, nth_error zs k = Some z -> fraw z = rs k).
  { induction n as [|n IH]; [exists []; split; [reflexivity|]; intros [|k] z H; discriminate H|].
    destruct IH as [zs [L H]]. destruct (raw_of (rs n)) as [z E]. exists (zs ++ [z]).
    split; [rewrite app_length; simpl; lia|]. intros k z' K.
    destruct (Nat.lt_ge_cases k n) as [C|C].
    - rewrite nth_error_app1 in K by lia. now apply H.
    - rewrite nth_error_app2 in K by lia. destruct (k - length zs) as [|j] eqn:D; [|destruct j; discriminate K].
      injection K as <-. now replace k with n by lia. }
  destruct G as [zs [L H]]. exists zs. split; [exact L|]. intros r k Hk.
  destruct (nth_error zs k) as [z|] eqn:E; [|apply nth_error_None in E; lia].
  rewrite (prepend_nth zs r k z E). now apply H.
Qed.

Lemma same_elements {A} (l l' : list A) : (forall k, nth_error l k = nth_error l' k) -> l = l'.
Proof.
  revert l'. induction l as [|a l IH]; intros [|b l'] H; [reflexivity|discriminate (H 0)|discriminate (H 0)|].
  injection (H 0) as ->. f_equal. apply IH. intros k. exact (H (S k)).
Qed.

Section Units.
  Context {T : Type} {FT : FloatTrait T}.
  Lemma units32 np32 (rs : nat -> f32) n : (forall k, unit_number (rs k)) ->
    exists zs, length zs = n /\ forall r k, k < n -> unit32 (T := T) np32 (prepend zs r) k = fof_f32 (rs k).
  Proof.
    intros H. destruct (raw_sequence rs n) as [zs [L E]]. exists zs. split; [exact L|]. intros r k Hk.
    unfold unit32, drawn_incl. rewrite (E r k Hk). cbn [fle FloatIEEE]. destruct (H k) as [H1 H2]. rewrite H1, H2. cbn [andb].
    now destruct (ffinite _).
  Qed.
  Lemma units64 np64 (rs : nat -> f64) n : (forall k, unit_number (rs k)) ->
    exists zs, length zs = n /\ forall r k, k < n -> unit64 (T := T) np64 (prepend zs r) k = fof_f64 (rs k).
  Proof.
    intros H. destruct (raw_sequence rs n) as [zs [L E]]. exists zs. split; [exact L|]. intros r k Hk.
    unfold unit64, drawn_incl. rewrite (E r k Hk). cbn [fle FloatIEEE]. destruct (H k) as [H1 H2]. rewrite H1, H2. cbn [andb].
    now destruct (ffinite _).
  Qed.

  (** A list whose elements are determined does not depend on the later draws. *)
  Lemma determined (m : comp rng (list T)) zs d (P : nat -> T -> Prop) :
    (forall k w w', k < d -> P k w -> P k w' -> w = w') ->
    (forall r, exists y, m (prepend zs r) = (Ret y, r) /\ length y = d /\ forall k w, nth_error y k = Some w -> P k w) ->
    exists y, possible m y /\ length y = d /\ forall k w, nth_error y k = Some w -> P k w.
  Proof.
    intros F H. destruct (H (fun _ => 0%Z)) as [y [_ [L K]]]. exists y. split; [|split; assumption].
    exists zs. intros r. destruct (H r) as [y' [E [L' K']]]. rewrite E. f_equal. f_equal.
    apply same_elements. intros k. destruct (Nat.lt_ge_cases k d) as [C|C].
    - destruct (nth_error y' k) as [w'|] eqn:E1; [|apply nth_error_None in E1; lia].
      destruct (nth_error y k) as [w|] eqn:E2; [|apply nth_error_None in E2; lia].
      f_equal. apply (F k); auto.
    - rewrite (proj2 (nth_error_None y' k)), (proj2 (nth_error_None y k)) by lia. reflexivity.
  Qed.
End Units.

(** ** Velocities *)
Lemma covered {T} (l : list T) k d : k < d -> d <= length l -> exists x, nth_error l k = Some x.
Proof. intros H1 H2. destruct (nth_error l k) as [x|] eqn:E; [eauto|]. apply nth_error_None in E. lia. Qed.

Section Velocity.
  Context {T : Type} {FT : FloatTrait T}.
  Variable np32 : nan_policy 24 128.

  (** The three calculators with two draws per coordinate. *)
  Lemma two_possible (m : comp rng (list T)) (form : T -> T -> T -> T -> T -> T -> T) p (b : particle T) (rs : nat -> f32) :
    covers p (velocity p) -> covers p (best_personal_coordinates p) -> covers p (coordinates b) ->
    (forall r, exists y, m r = (Ret y, shift (2 * length (coordinates p)) r) /\ length y = length (coordinates p) /\
       forall k v b' x g, nth_error (velocity p) k = Some v -> nth_error (best_personal_coordinates p) k = Some b' ->
         nth_error (coordinates p) k = Some x -> nth_error (coordinates b) k = Some g ->
         nth_error y k = Some (form v b' x g (unit32 np32 r (2 * k)) (unit32 np32 r (2 * k + 1)))) ->
    (forall k, unit_number (rs k)) ->
    exists y, possible m y /\ length y = length (coordinates p) /\
       forall k v b' x g, nth_error (velocity p) k = Some v -> nth_error (best_personal_coordinates p) k = Some b' ->
         nth_error (coordinates p) k = Some x -> nth_error (coordinates b) k = Some g ->
         nth_error y k = Some (form v b' x g (fof_f32 (rs (2 * k))) (fof_f32 (rs (2 * k + 1)))).
  Proof.
    intros C1 C2 C3 H U. unfold covers in *. set (d := length (coordinates p)) in *.
    destruct (units32 (T := T) np32 rs (2 * d) U) as [zs [L E]].
    destruct (determined m zs d (fun k w => forall v b' x g, nth_error (velocity p) k = Some v ->
         nth_error (best_personal_coordinates p) k = Some b' ->
         nth_error (coordinates p) k = Some x -> nth_error (coordinates b) k = Some g ->
         w = form v b' x g (fof_f32 (rs (2 * k))) (fof_f32 (rs (2 * k + 1))))) as [y [Y1 [Y2 Y3]]].
    - intros k w w' Hk P1 P2.
      destruct (covered _ k d Hk C1) as [v Ev]. destruct (covered _ k d Hk C2) as [b' Eb].
      destruct (covered _ k d Hk (le_n _)) as [x Ex]. destruct (covered _ k d Hk C3) as [g Eg].
      rewrite (P1 v b' x g), (P2 v b' x g); auto.
    - intros r. destruct (H (prepend zs r)) as [y [Y1 [Y2 Y3]]]. exists y.
      rewrite Y1. rewrite <- L at 1. rewrite shift_prepend. split; [reflexivity|]. split; [exact Y2|].
      intros k w Hw v b' x g E1 E2 E3 E4. rewrite (Y3 k v b' x g E1 E2 E3 E4) in Hw. injection Hw as <-.
      assert (k < d). { apply nth_error_Some. now rewrite E3. }
      now rewrite !E by lia.
    - exists y. split; [exact Y1|]. split; [exact Y2|]. intros k v b' x g E1 E2 E3 E4.
      assert (K : k < d). { apply nth_error_Some. now rewrite E3. }
      destruct (nth_error y k) as [w|] eqn:W; [|apply nth_error_None in W; lia].
      f_equal. now apply (Y3 k w W).
  Qed.

  Lemma classic_possible (phi_p phi_g : T) s p b (rs : nat -> f32) : best_particle s = Some b ->
    covers p (velocity p) -> covers p (best_personal_coordinates p) -> covers p (coordinates b) ->
    (forall k, unit_number (rs k)) ->
    exists y, possible (classic_velocity np32 phi_p phi_g s p) y /\ length y = length (coordinates p) /\
      forall k v b' x g, nth_error (velocity p) k = Some v -> nth_error (best_personal_coordinates p) k = Some b' ->
        nth_error (coordinates p) k = Some x -> nth_error (coordinates b) k = Some g ->
        nth_error y k = Some (fadd (fadd v (fmul (fmul phi_p (fof_f32 (rs (2 * k)))) (fsub b' x)))
                                   (fmul (fmul phi_g (fof_f32 (rs (2 * k + 1)))) (fsub g x))).
  Proof.
    intros E C1 C2 C3 U.
    apply (two_possible _ (fun v b' x g rp rg => fadd (fadd v (fmul (fmul phi_p rp) (fsub b' x))) (fmul (fmul phi_g rg) (fsub g x))));
      auto. intros r. now apply classic_returns.
  Qed.
  Lemma canonical_possible (phi_p phi_g xi : T) s p b (rs : nat -> f32) : best_particle s = Some b ->
    covers p (velocity p) -> covers p (best_personal_coordinates p) -> covers p (coordinates b) ->
    (forall k, unit_number (rs k)) ->
    exists y, possible (canonical_velocity np32 phi_p phi_g xi s p) y /\ length y = length (coordinates p) /\
      forall k v b' x g, nth_error (velocity p) k = Some v -> nth_error (best_personal_coordinates p) k = Some b' ->
        nth_error (coordinates p) k = Some x -> nth_error (coordinates b) k = Some g ->
        nth_error y k = Some (fmul xi (fadd (fadd v (fmul (fmul phi_p (fof_f32 (rs (2 * k)))) (fsub b' x)))
                                            (fmul (fmul phi_g (fof_f32 (rs (2 * k + 1)))) (fsub g x)))).
  Proof.
    intros E C1 C2 C3 U.
    apply (two_possible _ (fun v b' x g rp rg => fmul xi (fadd (fadd v (fmul (fmul phi_p rp) (fsub b' x))) (fmul (fmul phi_g rg) (fsub g x)))));
      auto. intros r. now apply canonical_returns.
  Qed.
  Lemma inertia_possible (phi_p phi_g : T) (weight : nat -> T) s p b (rs : nat -> f32) : best_particle s = Some b ->
    covers p (velocity p) -> covers p (best_personal_coordinates p) -> covers p (coordinates b) ->
    (forall k, unit_number (rs k)) ->
    exists y, possible (inertia_velocity np32 lens_id phi_p phi_g (fun t => cret (weight t)) s p) y /\
      length y = length (coordinates p) /\
      forall k v b' x g, nth_error (velocity p) k = Some v -> nth_error (best_personal_coordinates p) k = Some b' ->
        nth_error (coordinates p) k = Some x -> nth_error (coordinates b) k = Some g ->
        nth_error y k = Some (fadd (fadd (fmul (weight (sw_iteration s)) v) (fmul (fmul phi_p (fof_f32 (rs (2 * k)))) (fsub b' x)))
                                   (fmul (fmul phi_g (fof_f32 (rs (2 * k + 1)))) (fsub g x))).
  Proof.
    intros E C1 C2 C3 U.
    apply (two_possible _ (fun v b' x g rp rg => fadd (fadd (fmul (weight (sw_iteration s)) v) (fmul (fmul phi_p rp) (fsub b' x)))
      (fmul (fmul phi_g rg) (fsub g x)))); auto.
    intros r. apply (inertia_returns np32 (@lens_id rng) ltac:(constructor; reflexivity) phi_p phi_g (fun t => cret (weight t))
      s p r b (weight (sw_iteration s)) r); auto.
  Qed.
End Velocity.

(** ** Runs of the swarm *)
Section Run.
  Context {U T : Type} {FT : FloatTrait T}.
  Variable cfg : pso_config U T.

  Lemma moves_keep (x : list T) (l : list (list T -> comp U (list T))) : (forall f, In f l -> forall u, exists u', f x u = (Ret x, u')) ->
    forall u, exists u' (t : list (pso_event T)), mfold (fun y f => call_comp (PPostMove y) (f y)) l x u = (Ret x, u', t).
  Proof.
    induction l as [|f l IH]; intros H u; cbn [mfold]; [eexists; eexists; reflexivity|].
    destruct (H f (or_introl eq_refl) u) as [u1 E]. destruct (IH (fun g Hg => H g (or_intror Hg)) u1) as [u2 [t2 E2]].
    unfold mbind at 1. unfold call_comp at 1, mbind at 1 2, call, emit, mret. rewrite E. rewrite E2. eexists. eexists. reflexivity.
  Qed.

  (** When the first particle starts at [x], which the post moves leave alone, [x] is evaluated. *)
  Lemma first_evaluated x rest f fuel s u r s' u' t :
    fst (pso_coordinates cfg u) = Ret (x :: rest) ->
    (forall g, In g (pso_post_move cfg) -> forall u, exists u', g x u = (Ret x, u')) ->
    (forall u, exists u', pso_goal cfg x u = (Ret f, u')) ->
    pso_find_min cfg fuel s u = (Ret (r, s'), u', t) -> evaluated t x f.
  Proof.
    intros HC HM HG H. unfold pso_find_min in H. apply mbind_ret in H.
    destruct H as [s1 [u1 [t1 [t2 [R [_ ->]]]]]]. apply in_or_app. left. clear t2.
    unfold renew_swarm in R. apply mbind_ret in R. destruct R as [cs [ua [ta [tb [C [R ->]]]]]].
    assert (cs = x :: rest).
    { unfold call_comp in C. apply mbind_ret in C. destruct C as [c [u0 [t0 [t3 [C [C2 _]]]]]].
      unfold call in C. destruct (pso_coordinates cfg u) as [o uc]. cbn [fst] in HC. subst o. injection C as -> _ _.
      apply mbind_ret in C2. destruct C2 as [? [? [? [? [_ [C2 _]]]]]]. apply mret_ret in C2. now destruct C2. }
    subst cs. apply in_or_app. right. clear C.
    apply mbind_ret in R. destruct R as [vs [ub [tc [td [_ [R ->]]]]]]. apply in_or_app. right.
    apply mbind_ret in R. destruct R as [? [uc [te [tf [A [R ->]]]]]]. apply in_or_app. right.
    unfold pure, oassert in A. destruct (Nat.eqb_spec (length (x :: rest)) (length vs)) as [LE|LE]; [clear A|discriminate A].
    apply mbind_ret in R. destruct R as [cs' [ud [tg [th [Mv [R ->]]]]]]. apply in_or_app. right.
    cbn [mmapM] in Mv. apply mbind_ret in Mv. destruct Mv as [x' [ue [ti [tj [Mx [Mv _]]]]]].
    destruct (moves_keep x (pso_post_move cfg) HM uc) as [um [tm Em]].
    unfold run_post_move in Mx. rewrite Em in Mx. injection Mx as <- _ _.
    apply mbind_ret in Mv. destruct Mv as [rest' [uf [tk [tl [_ [Mv _]]]]]]. apply mret_ret in Mv. destruct Mv as [<- _].
    destruct vs as [|v vs]; [discriminate LE|].
    apply mbind_ret in R. destruct R as [ps [ug [tn [to [R [_ ->]]]]]]. apply in_or_app. left.
    cbn [combine mmapM] in R. apply mbind_ret in R. destruct R as [p0 [uh [tp [tq [R [_ ->]]]]]]. apply in_or_app. left.
    cbn [fst snd] in R. apply mbind_ret in R. destruct R as [y [ui [tr [ts [R [_ ->]]]]]]. apply in_or_app. left.
    unfold call_goal, mbind, emit, call, mret in R. destruct (HG ud) as [uj E]. rewrite E in R. injection R as <- _ <-.
    right. left. reflexivity.
  Qed.
End Run.

Lemma boundary_keeps {prec emax} {Hp : Prec_gt_0 prec} {He : Prec_lt_emax prec emax} (np : nan_policy prec emax)
  box (x : list (bfloat prec emax)) : in_box box x -> @move_to_boundary _ (FloatIEEE np) box x = Ret x.
Proof.
  intros H. assert (L : length x = length box) by (eapply Forall2_length; exact H).
  rewrite move_to_boundary_eq by exact L. f_equal.
  clear L. induction H as [|a i x box [F [H1 H2]] _ IH]; [reflexivity|]. cbn [combine map fst snd]. f_equal; [|exact IH].
  unfold clamp_coordinate. cbn [ffinite flt FloatIEEE]. rewrite F. cbn [negb].
  assert (N : forall u v : bfloat prec emax, leb u v = true -> ltb v u = false).
  { intros u v K. apply leb_key in K. destruct (ltb v u) eqn:E; [|reflexivity]. apply ltb_key in E. exfalso. intuition lra. }
  rewrite (N _ _ H1). now rewrite (N _ _ H2).
Qed.

Section Swarm.
  Context {prec emax : Z} {Hp : Prec_gt_0 prec} {He : Prec_lt_emax prec emax}.
  Variable np : nan_policy prec emax.
  Notation F := (bfloat prec emax).
  Context {U : Type} (L : lens U rng).

  Lemma swarm_can_find coords box n goal stop vels calc post_velocity loggers (x : list F) f :
    possible coords (repeat x (S n)) -> in_box box x ->
    (forall u, exists u', goal x u = (Ret f, u')) -> is_finite f = true ->
    exists zs, forall rest u fuel s y v s' u' t,
      lget L u = prepend zs rest ->
      @pso_find_min U F (FloatIEEE np)
        (PsoConfig goal stop (zoom L coords) vels calc post_velocity
           [fun x => cpure (@move_to_boundary F (FloatIEEE np) box x)] loggers) fuel s u
      = (Ret (Some (y, v), s'), u', t) ->
      is_finite v = true /\ leb v f = true.
  Proof.
    intros [zs C] B G Ff. exists zs. intros rest u fuel s y v s' u' t E H.
    set (cfg := PsoConfig goal stop (zoom L coords) vels calc post_velocity
           [fun x => cpure (@move_to_boundary F (FloatIEEE np) box x)] loggers) in *.
    assert (V : evaluated t x f).
    { apply (@first_evaluated U F (FloatIEEE np) cfg x (repeat x n) f fuel s u (Some (y, v)) s' u' t).
      - cbn [pso_coordinates cfg]. unfold zoom. rewrite E, C. reflexivity.
      - intros g [<-|[]] w. exists w. unfold cpure. now rewrite boundary_keeps.
      - exact G.
      - exact H. }
    (* the state the run starts from does not matter *)
    assert (A : @pso_find_min U F (FloatIEEE np) cfg fuel swarm_new u = (Ret (Some (y, v), s'), u', t)).
    { rewrite <- H. reflexivity. }
    destruct (@pso_least_value U F (FloatIEEE np) (fun _ => True) swarm_new [] cfg fuel u y v s' u' t) as [K _].
    { constructor. }
    exact (K A x f V Ff).
  Qed.
End Swarm.

Lemma can_find64 {U} (L : lens U rng) np64 box n goal stop vels calc post_velocity loggers (x : list f64) f :
  good_intervals64 np64 box -> 0 < n -> in_box box x ->
  (forall u, exists u', goal x u = (Ret f, u')) -> is_finite f = true ->
  exists zs, forall rest u fuel s y v s' u' t,
    lget L u = prepend zs rest ->
    @pso_find_min U f64 (FloatIEEE np64)
      (PsoConfig goal stop (zoom L (@random_vectors f64 NumGene64 np64 box n)) vels calc post_velocity
         [fun x => cpure (@move_to_boundary f64 (FloatIEEE np64) box x)] loggers) fuel s u
    = (Ret (Some (y, v), s'), u', t) ->
    is_finite v = true /\ leb v f = true.
Proof.
  intros HB HN HX HG Ff. destruct n as [|n]; [lia|].
  apply (swarm_can_find np64 L _ box n goal stop vels calc post_velocity loggers x f); auto.
  apply possible_vectors.
  - intros lo hi Hin. apply (HB lo hi Hin).
  - now rewrite repeat_length.
  - apply Forall_forall. intros y Hy. apply repeat_spec in Hy. subst y.
    assert (K : forall i, In i box -> is_finite (fst i) = true /\ is_finite (snd i) = true).
    { intros [lo hi] Hin. destruct (HB lo hi Hin) as [_ W]. destruct (sub_finite np64 hi lo W). auto. }
    clear HB HG. induction HX as [|a i x box [F [H1 H2]] _ IH]; constructor.
    + apply gene64; auto; apply K; now left.
    + apply IH. intros j Hj. apply K. now right.
Qed.
Lemma can_find32 {U} (L : lens U rng) np64 np32 box n goal stop vels calc post_velocity loggers (x : list f32) f :
  good_intervals32 box -> 0 < n -> in_box box x ->
  (forall u, exists u', goal x u = (Ret f, u')) -> is_finite f = true ->
  exists zs, forall rest u fuel s y v s' u' t,
    lget L u = prepend zs rest ->
    @pso_find_min U f32 (FloatIEEE np32)
      (PsoConfig goal stop (zoom L (@random_vectors f32 (NumGene32 np64 np32) np64 box n)) vels calc post_velocity
         [fun x => cpure (@move_to_boundary f32 (FloatIEEE np32) box x)] loggers) fuel s u
    = (Ret (Some (y, v), s'), u', t) ->
    is_finite v = true /\ leb v f = true.
Proof.
  intros HB HN HX HG Ff. destruct n as [|n]; [lia|].
  apply (swarm_can_find np32 L _ box n goal stop vels calc post_velocity loggers x f); auto.
  apply possible_vectors.
  - intros lo hi Hin. apply (HB lo hi Hin).
  - now rewrite repeat_length.
  - apply Forall_forall. intros y Hy. apply repeat_spec in Hy. subst y.
    assert (K : forall i, In i box -> is_finite (fst i) = true /\ is_finite (snd i) = true).
    { intros [lo hi] Hin. destruct (HB lo hi Hin) as [_ W]. exact W. }
    clear HB HG. induction HX as [|a i x box [F [H1 H2]] _ IH]; constructor.
    + apply gene32; auto; apply K; now left.
    + apply IH. intros j Hj. apply K. now right.
Qed.

(** ** Creation, in the vocabulary of the statements *)
Lemma creator64_possible np size box c vs : @random_creator_new f64 NumGene64 size box = Ret c ->
  good_intervals64 np box -> length vs = size -> Forall (in_box box) vs ->
  possible (@random_create f64 NumGene64 np c) vs.
Proof.
  intros N HB HL HV. apply (possible_creator np size box c vs N HL). eapply Forall_impl; [|exact HV].
  intros x HX.
  assert (K : forall i, In i box -> is_finite (fst i) = true /\ is_finite (snd i) = true).
  { intros [lo hi] Hin. destruct (HB lo hi Hin) as [_ W]. destruct (sub_finite np hi lo W). auto. }
  clear N HB HV. induction HX as [|a i x box [F [H1 H2]] _ IH]; constructor.
  - apply gene64; auto; apply K; now left.
  - apply IH. intros j Hj. apply K. now right.
Qed.
Lemma creator32_possible np64 np32 size box c vs : @random_creator_new f32 (NumGene32 np64 np32) size box = Ret c ->
  good_intervals32 box -> length vs = size -> Forall (in_box box) vs ->
  possible (@random_create f32 (NumGene32 np64 np32) np64 c) vs.
Proof.
  intros N HB HL HV. apply (possible_creator np64 size box c vs N HL). eapply Forall_impl; [|exact HV].
  intros x HX.
  assert (K : forall i, In i box -> is_finite (fst i) = true /\ is_finite (snd i) = true).
  { intros [lo hi] Hin. destruct (HB lo hi Hin) as [_ W]. exact W. }
  clear N HB HV. induction HX as [|a i x box [F [H1 H2]] _ IH]; constructor.
  - apply gene32; auto; apply K; now left.
  - apply IH. intros j Hj. apply K. now right.
Qed.
Lemma creator_int_possible np mn mx size box c vs : @random_creator_new Z (NumGeneInt mn mx) size box = Ret c ->
  (forall lo hi, In (lo, hi) box -> (mn <= lo /\ hi <= mx /\ Z.abs lo <= 2 ^ 53 /\ Z.abs hi <= 2 ^ 53)%Z) ->
  length vs = size -> Forall (fun x => Forall2 (fun g i => (fst i <= g <= snd i)%Z) x box) vs ->
  possible (@random_create Z (NumGeneInt mn mx) np c) vs.
Proof.
  intros N HB HL HV. apply (possible_creator np size box c vs N HL). eapply Forall_impl; [|exact HV].
  intros x HX. clear N HV. induction HX as [|a [lo hi] x box H _ IH]; constructor.
  - cbn [fst snd] in H. destruct (HB lo hi (or_introl eq_refl)) as [B1 [B2 [B3 B4]]].
    apply gene_int; cbn [fst snd]; lia.
  - apply IH. intros a' b' Hin. apply HB. now right.
Qed.
Lemma vectors64_possible np box n vs : good_intervals64 np box -> length vs = n -> Forall (in_box box) vs ->
  possible (@random_vectors f64 NumGene64 np box n) vs.
Proof.
  intros HB HL HV. apply possible_vectors; [intros lo hi Hin; apply (HB lo hi Hin)|exact HL|].
  eapply Forall_impl; [|exact HV]. intros x HX.
  assert (K : forall i, In i box -> is_finite (fst i) = true /\ is_finite (snd i) = true).
  { intros [lo hi] Hin. destruct (HB lo hi Hin) as [_ W]. destruct (sub_finite np hi lo W). auto. }
  clear HB HV. induction HX as [|a i x box [F [H1 H2]] _ IH]; constructor.
  - apply gene64; auto; apply K; now left.
  - apply IH. intros j Hj. apply K. now right.
Qed.
Lemma vectors32_possible np64 np32 box n vs : good_intervals32 box -> length vs = n -> Forall (in_box box) vs ->
  possible (@random_vectors f32 (NumGene32 np64 np32) np64 box n) vs.
Proof.
  intros HB HL HV. apply possible_vectors; [intros lo hi Hin; apply (HB lo hi Hin)|exact HL|].
  eapply Forall_impl; [|exact HV]. intros x HX.
  assert (K : forall i, In i box -> is_finite (fst i) = true /\ is_finite (snd i) = true).
  { intros [lo hi] Hin. destruct (HB lo hi Hin) as [_ W]. exact W. }
  clear HB HV. induction HX as [|a i x box [F [H1 H2]] _ IH]; constructor.
  - apply gene32; auto; apply K; now left.
  - apply IH. intros j Hj. apply K. now right.
Qed.
