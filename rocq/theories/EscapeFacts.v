(** * A teleporting swarm can leave every state: proofs *)

From Coq Require Import List Arith ZArith Bool Lia.
From Flocq Require Import Core IEEE754.BinarySingleNaN IEEE754.Binary.
From Verif Require Import Base Logic FloatModel Rng FloatFacts GaModel GaComponents PsoModel PsoComponents
  SpecGa SpecPso SpecRun SpecBits SpecBox SpecRand SpecVel SpecStandard SpecPossible RandFacts ArithFacts
  PostFacts CalcFacts BoxFacts PsoProofs StopProofs StopRuns GaMore PossibleFacts PossibleRuns.
Import ListNotations.

Section Next.
  Context {U T : Type} {FT : FloatTrait T}.
  Variable cfg : pso_config U T.
  Context {G : Type} (get : U -> G).
  Hypothesis HL : forall l k s, In l (pso_loggers cfg) -> keeps get (told_by k l s).
  Hypothesis HS : forall s, keeps get (pso_stop cfg s).

  (** When the first particle can move to [x], [x] is evaluated in the next iteration. *)
  Lemma next_evaluated (D : G -> Prop) p rest x f fuel s u r s' u' t :
    particles s = p :: rest -> D (get u) ->
    (forall u, D (get u) -> exists v0 u1 v1 u2 t2 u3 t3, pso_calc cfg s p u = (Ret v0, u1) /\
      mfold (fun v post_velocity => call_comp (PPostVelocity v) (post_velocity v)) (pso_post_velocity cfg) v0 u1
        = (Ret v1, u2, t2 : list (pso_event T)) /\
      run_post_move cfg (pointwise_sum (coordinates p) v1) u2 = (Ret x, u3, t3)) ->
    (forall u, exists u', pso_goal cfg x u = (Ret f, u')) ->
    pso_next_iterations cfg fuel s u = (Ret (r, s'), u', t) -> sw_iteration s < sw_iteration s' -> evaluated t x f.
  Proof.
    intros HP Hu HD HG H HI. unfold pso_next_iterations in H. apply mbind_ret in H.
    destruct H as [[] [u1 [t1 [t2 [E1 [H ->]]]]]].
    pose proof (mkeeps_loggers (X := pso_call T) get swarm_view LResume (pso_loggers cfg) s HL u) as [K1 _].
    rewrite E1 in K1. cbn [fst snd] in K1. apply in_or_app. right. clear E1 t1.
    apply mbind_ret in H. destruct H as [s1 [u2 [t3 [t4 [H [E2 ->]]]]]]. apply in_or_app. left.
    assert (s1 = s').
    { apply mbind_ret in E2. destruct E2 as [? [? [? [? [_ [E2 _]]]]]]. apply mret_ret in E2. destruct E2 as [E2 _]. now injection E2. }
    subst s1. clear E2 t4.
    destruct fuel as [|fuel]; cbn [pso_loop] in H; [discriminate H|].
    apply mbind_ret in H. destruct H as [b [u3 [t5 [t6 [E3 [H ->]]]]]]. apply in_or_app. right.
    assert (K2 : get u3 = get u1).
    { unfold call_stop, mbind, call, emit, mret in E3. specialize (HS (swarm_view s) u1).
      destruct (pso_stop cfg (swarm_view s) u1) as [[b'| |] w]; try discriminate E3.
      injection E3 as _ <- _. exact HS. }
    destruct b.
    { apply mret_ret in H. destruct H as [-> _]. lia. }
    apply mbind_ret in H. destruct H as [s2 [u4 [t7 [t8 [H [_ ->]]]]]]. apply in_or_app. left. clear t8.
    unfold pso_iteration in H. apply mbind_ret in H. destruct H as [s3 [u5 [t9 [ta [H [_ ->]]]]]]. apply in_or_app. left. clear ta.
    rewrite HP in H. cbn [length seq mfold] in H. apply mbind_ret in H.
    destruct H as [s4 [u6 [tb [tc [H [_ ->]]]]]]. apply in_or_app. left. clear tc.
    unfold pso_particle in H. rewrite HP in H. apply mbind_ret in H. destruct H as [q [u7 [td [te [Q [H ->]]]]]].
    injection Q as <- <- <-. cbn [app].
    apply mbind_ret in H. destruct H as [[] [u8 [tf [tg [Q [H ->]]]]]]. apply emit_ret in Q. destruct Q as [<- _].
    apply in_or_app. right. clear tf.
    assert (Du : D (get u3)) by now rewrite K2, K1.
    destruct (HD u3 Du) as [v0 [w1 [v1 [w2 [tv [w3 [tm [C1 [C2 C3]]]]]]]]].
    apply mbind_ret in H. destruct H as [v0' [u9 [th [ti [Q [H ->]]]]]].
    unfold call_comp, mbind, call, emit, mret in Q. rewrite C1 in Q. injection Q as <- <- _.
    apply in_or_app. right. clear th.
    apply mbind_ret in H. destruct H as [v1' [ua [tj [tk [Q [H ->]]]]]]. rewrite C2 in Q. injection Q as <- <- _.
    apply in_or_app. right. clear tj.
    apply mbind_ret in H. destruct H as [x' [ub [tl [tn [Q [H ->]]]]]].
    unfold set_velocity in Q. cbn [coordinates velocity] in Q. fold (pointwise_sum (coordinates p) v1) in Q.
    rewrite C3 in Q. injection Q as <- <- _.
    apply in_or_app. right. clear tl.
    apply mbind_ret in H. destruct H as [y [uc [to [tp [Q [_ ->]]]]]]. apply in_or_app. left.
    unfold call_goal, mbind, emit, call, mret in Q. destruct (HG w3) as [uj E]. rewrite E in Q. injection Q as <- _ <-.
    right. left. reflexivity.
  Qed.

  Lemma pure_limits (limits : list (list T -> outcome (list T))) d :
    Forall (fun f => forall v, length v = d -> exists w, f v = Ret w /\ length w = d) limits ->
    forall v, length v = d -> exists w, length w = d /\ forall u, exists t,
      mfold (fun v post_velocity => call_comp (PPostVelocity v) (post_velocity v))
        (map (fun f v => @cpure U _ (f v)) limits) v u = (Ret w, u, t : list (pso_event T)).
  Proof.
    induction 1 as [|f l Hf _ IH]; intros v L; cbn [map mfold]; [exists v; split; [exact L|]; intros u; exists []; reflexivity|].
    destruct (Hf v L) as [w [Ew Lw]]. destruct (IH w Lw) as [w' [L' E']].
    exists w'. split; [exact L'|]. intros u. destruct (E' u) as [t' E'']. eexists.
    unfold mbind at 1. unfold call_comp at 1, mbind at 1 2, call, emit, mret. unfold cpure at 1.
    rewrite Ew. rewrite E''. reflexivity.
  Qed.
End Next.

Section Escape.
  Context {prec emax : Z} {Hp : Prec_gt_0 prec} {He : Prec_lt_emax prec emax}.
  Variable np : nan_policy prec emax.
  Notation F := (bfloat prec emax).
  Notation FI := (FloatIEEE np).
  Context {SA : Sampler F} {Sur : @Surjective F SA}.
  Variable np32 : nan_policy 24 128.

  Lemma swarm_escapes {U} (L : lens U rng) ok (s : swarm F) h (HR : pso_reach (U := U) (FT := FI) ok s h) p rest
    (calc : swarm F -> particle F -> comp rng (list F)) v0
    limits box probability rt goal stop coords vels loggers x f :
    lens_ok L -> particles s = p :: rest -> length (coordinates p) = length box ->
    possible (calc s p) v0 -> length v0 = length box ->
    Forall (fun f => forall v, length v = length box -> exists w, f v = Ret w /\ length w = length box) limits ->
    @random_teleport_new F FI box probability = Ret rt -> ltb (b_of_Z 0) probability = true -> in_box box x ->
    (forall u, exists u', goal x u = (Ret f, u')) -> is_finite f = true ->
    (forall s, keeps (lget L) (stop s)) -> (forall l k s, In l loggers -> keeps (lget L) (told_by k l s)) ->
    exists zs, forall later u fuel y v s' u' t,
      lget L u = prepend zs later ->
      @pso_next_iterations U F FI
        (PsoConfig goal stop coords vels (fun s p => zoom L (calc s p)) (map (fun f v => cpure (f v)) limits)
           [fun x => zoom L (@random_teleport_post_move F FI SA np32 rt x);
            fun x => cpure (@move_to_boundary F FI box x)] loggers) fuel s u
      = (Ret (Some (y, v), s'), u', t) ->
      sw_iteration s < sw_iteration s' ->
      evaluated t x f /\ is_finite v = true /\ leb v f = true.
  Proof.
    intros HL HP Lp [zc Hc] Lv HF HT P0 HB HG Ff HS HLo.
    destruct (pure_limits (U := U) limits (length box) HF v0 Lv) as [w [Lw Hw]].
    set (a := pointwise_sum (FT := FI) (coordinates p) w).
    assert (La : length a = length box) by (unfold a, pointwise_sum; rewrite map_length, combine_length; lia).
    destruct (@teleport_possible F FI SA Sur np32 box probability rt a x HT La) as [TP _].
    destruct TP as [zt Ht].
    { exact P0. }
    { clear - HB. induction HB as [|g i x box [_ H] _ IH]; constructor; auto. }
    exists (zc ++ zt). intros later u fuel y v s' u' t Eu H HI.
    set (cfg := PsoConfig goal stop coords vels (fun s p => zoom L (calc s p)) (map (fun f v => cpure (f v)) limits)
           [fun x => zoom L (@random_teleport_post_move F FI SA np32 rt x);
            fun x => cpure (@move_to_boundary F FI box x)] loggers) in *.
    assert (V : evaluated t x f).
    { apply (@next_evaluated U F FI cfg rng (lget L) HLo HS (fun r => r = prepend zc (prepend zt later)) p rest x f fuel s u
        (Some (y, v)) s' u' t HP); auto.
      - rewrite Eu. clear. induction zc as [|z zc IH]; [reflexivity|]. cbn [app prepend]. now rewrite IH.
      - intros u0 E0.
        set (u1 := lput L (prepend zt later) u0). set (u2 := lput L later u1).
        destruct (Hw u1) as [t2 E2].
        exists v0, u1, w, u1, t2, u2. eexists. split; [|split].
        + cbn [pso_calc cfg]. unfold zoom. rewrite E0, Hc. reflexivity.
        + exact E2.
        + fold a. unfold run_post_move. cbn [pso_post_move cfg mfold].
          unfold mbind at 1. unfold call_comp at 1, mbind at 1 2, call, emit, mret.
          unfold zoom. unfold u1 at 1. rewrite (lens_get_put L HL), Ht. fold u2.
          unfold mbind at 1. unfold call_comp at 1, mbind at 1 2, call, emit, mret, cpure. rewrite boundary_keeps by exact HB.
          reflexivity. }
    split; [exact V|].
    destruct (@pso_least_value U F FI ok s h cfg fuel u y v s' u' t HR) as [_ K].
    apply (K H x f); [|exact Ff]. apply in_or_app. now right.
  Qed.
End Escape.

(** ** NegativeReinforcement, with prescribed draws *)
Lemma negative_possible {T} {FT : FloatTrait T} np64 (q : @negative_reinforcement T) s p bg wg bc wc (rs : nat -> f64) :
  best_particle s = Some bg -> worst_particle s = Some wg ->
  first_least value (particles s) bc -> last_greatest value (particles s) wc ->
  covers p (velocity p) -> covers p (best_personal_coordinates p) -> covers p (worst_personal_coordinates p) ->
  covers p (coordinates bg) -> covers p (coordinates wg) -> covers p (coordinates bc) -> covers p (coordinates wc) ->
  (forall k, unit_number (rs k)) ->
  exists y, possible (negative_velocity np64 q s p) y /\ length y = length (coordinates p) /\
    forall i v x bpi bci bgi wpi wci wgi,
      nth_error (velocity p) i = Some v -> nth_error (coordinates p) i = Some x ->
      nth_error (best_personal_coordinates p) i = Some bpi -> nth_error (coordinates bc) i = Some bci ->
      nth_error (coordinates bg) i = Some bgi -> nth_error (worst_personal_coordinates p) i = Some wpi ->
      nth_error (coordinates wc) i = Some wci -> nth_error (coordinates wg) i = Some wgi ->
      let u := fun k => fof_f64 (rs k) in
      nth_error y i = Some
        (fmul (nr_xi q)
          (fsub (fsub (fsub
            (fadd (fadd (fadd v
              (fmul (fmul (nr_phi_best_personal q) (u (6 * i + 2))) (fsub bpi x)))
              (fmul (fmul (nr_phi_best_current q) (u (6 * i + 1))) (fsub bci x)))
              (fmul (fmul (nr_phi_best_global q) (u (6 * i))) (fsub bgi x)))
            (fmul (fmul (nr_phi_worst_personal q) (u (6 * i + 5))) (fsub wpi x)))
            (fmul (fmul (nr_phi_worst_current q) (u (6 * i + 4))) (fsub wci x)))
            (fmul (fmul (nr_phi_worst_global q) (u (6 * i + 3))) (fsub wgi x)))).
Proof.
  intros Hb Hw Hbc Hwc C1 C2 C3 C4 C5 C6 C7 U. set (d := length (coordinates p)).
  destruct (units64 (T := T) np64 rs (6 * d) U) as [zs [L E]].
  set (form := fun (u : nat -> T) i v x bpi bci bgi wpi wci wgi =>
       (fmul (nr_xi q)
          (fsub (fsub (fsub
            (fadd (fadd (fadd v
              (fmul (fmul (nr_phi_best_personal q) (u (6 * i + 2))) (fsub bpi x)))
              (fmul (fmul (nr_phi_best_current q) (u (6 * i + 1))) (fsub bci x)))
              (fmul (fmul (nr_phi_best_global q) (u (6 * i))) (fsub bgi x)))
            (fmul (fmul (nr_phi_worst_personal q) (u (6 * i + 5))) (fsub wpi x)))
            (fmul (fmul (nr_phi_worst_current q) (u (6 * i + 4))) (fsub wci x)))
            (fmul (fmul (nr_phi_worst_global q) (u (6 * i + 3))) (fsub wgi x))))).
  destruct (determined (negative_velocity np64 q s p) zs d
    (fun i w => forall v x bpi bci bgi wpi wci wgi,
      nth_error (velocity p) i = Some v -> nth_error (coordinates p) i = Some x ->
      nth_error (best_personal_coordinates p) i = Some bpi -> nth_error (coordinates bc) i = Some bci ->
      nth_error (coordinates bg) i = Some bgi -> nth_error (worst_personal_coordinates p) i = Some wpi ->
      nth_error (coordinates wc) i = Some wci -> nth_error (coordinates wg) i = Some wgi ->
      w = form (fun k => fof_f64 (rs k)) i v x bpi bci bgi wpi wci wgi)) as [y [Y1 [Y2 Y3]]].
  - intros k w w' Hk P1 P2.
    destruct (covered _ k d Hk C1) as [v Ev]. destruct (covered _ k d Hk (le_n _)) as [x Ex].
    destruct (covered _ k d Hk C2) as [a1 E1]. destruct (covered _ k d Hk C3) as [a2 E2].
    destruct (covered _ k d Hk C4) as [a3 E3]. destruct (covered _ k d Hk C5) as [a4 E4].
    destruct (covered _ k d Hk C6) as [a5 E5]. destruct (covered _ k d Hk C7) as [a6 E6].
    rewrite (P1 v x a1 a5 a3 a2 a6 a4), (P2 v x a1 a5 a3 a2 a6 a4); auto.
  - intros r. destruct (negative_returns np64 q s p (prepend zs r) bg wg bc wc Hb Hw Hbc Hwc C1 C2 C3 C4 C5 C6 C7) as [y [Y1 [Y2 Y3]]].
    exists y. rewrite Y1. fold d. rewrite <- L at 1. rewrite shift_prepend. split; [reflexivity|]. split; [exact Y2|].
    intros i w Hw' v x bpi bci bgi wpi wci wgi E1 E2 E3 E4 E5 E6 E7 E8.
    pose proof (Y3 i v x bpi bci bgi wpi wci wgi E1 E2 E3 E4 E5 E6 E7 E8) as K. cbv zeta in K. rewrite K in Hw'. injection Hw' as <-.
    assert (i < d). { apply nth_error_Some. now rewrite E2. }
    unfold form. now rewrite !E by lia.
  - exists y. split; [exact Y1|]. split; [exact Y2|].
    intros i v x bpi bci bgi wpi wci wgi E1 E2 E3 E4 E5 E6 E7 E8 u.
    assert (K : i < d). { apply nth_error_Some. now rewrite E2. }
    destruct (nth_error y i) as [w|] eqn:W; [|apply nth_error_None in W; lia].
    f_equal. now apply (Y3 i w W v x bpi bci bgi wpi wci wgi).
Qed.

(** ** Genetic runs: the first individual may start at the wanted point *)
Lemma genetic_can_find {U T} (L : lens U rng) (create : comp rng (list T)) (cfg : ga_config U T) n x f :
  ga_creator cfg = zoom L create -> possible create (repeat x (S n)) ->
  Forall keeps_best (ga_selections cfg) ->
  (forall u, exists u', ga_goal cfg x u = (Ret f, u')) -> is_finite f = true ->
  exists zs, forall rest u fuel p y v p' u' t,
    lget L u = prepend zs rest ->
    ga_find_min cfg fuel p u = (Ret (Some (y, v), p'), u', t) -> evaluated t x f /\ leb v f = true.
Proof.
  intros HC [zs Hz] HK HG Ff. exists zs. intros rest u fuel p y v p' u' t Eu H.
  assert (V : evaluated t x f).
  { unfold ga_find_min in H. apply mbind_ret in H. destruct H as [cs [u1 [t1 [t2 [C [H ->]]]]]].
    assert (cs = repeat x (S n)).
    { unfold call_comp, mbind, call, emit, mret in C. rewrite HC in C. unfold zoom in C. rewrite Eu, Hz in C. now injection C. }
    subst cs. apply in_or_app. right. clear C t1.
    apply mbind_ret in H. destruct H as [p1 [u2 [t3 [t4 [H [_ ->]]]]]]. apply in_or_app. left. clear t4.
    unfold pop_append in H. cbn [repeat mfold] in H. apply mbind_ret in H. destruct H as [p2 [u3 [t5 [t6 [H [_ ->]]]]]].
    apply in_or_app. left. unfold pop_push in H. apply mbind_ret in H. destruct H as [w [u4 [t7 [t8 [H [_ ->]]]]]].
    apply in_or_app. left. unfold call_goal, mbind, emit, call, mret in H. destruct (HG u1) as [uj E]. rewrite E in H. injection H as <- _ <-.
    right. left. reflexivity. }
  split; [exact V|]. exact (find_min_least cfg fuel p u y v p' u' t HK H x f V Ff).
Qed.

Lemma genetic_can_find64 {U} (L : lens U rng) np size box c (cfg : ga_config U (list f64)) x f :
  @random_creator_new f64 NumGene64 size box = Ret c -> good_intervals64 np box -> 0 < size -> in_box box x ->
  ga_creator cfg = zoom L (@random_create f64 NumGene64 np c) ->
  Forall keeps_best (ga_selections cfg) ->
  (forall u, exists u', ga_goal cfg x u = (Ret f, u')) -> is_finite f = true ->
  exists zs, forall rest u fuel p y v p' u' t,
    lget L u = prepend zs rest ->
    ga_find_min cfg fuel p u = (Ret (Some (y, v), p'), u', t) -> evaluated t x f /\ leb v f = true.
Proof.
  intros N HB HS HX HC. destruct size as [|n]; [lia|].
  apply (genetic_can_find L (@random_create f64 NumGene64 np c) cfg n x f HC).
  apply (creator64_possible np (S n) box c _ N HB); [apply repeat_length|].
  apply Forall_forall. intros y Hy. apply repeat_spec in Hy. now subst y.
Qed.
Lemma genetic_can_find32 {U} (L : lens U rng) np64 np32 size box c (cfg : ga_config U (list f32)) x f :
  @random_creator_new f32 (NumGene32 np64 np32) size box = Ret c -> good_intervals32 box -> 0 < size -> in_box box x ->
  ga_creator cfg = zoom L (@random_create f32 (NumGene32 np64 np32) np64 c) ->
  Forall keeps_best (ga_selections cfg) ->
  (forall u, exists u', ga_goal cfg x u = (Ret f, u')) -> is_finite f = true ->
  exists zs, forall rest u fuel p y v p' u' t,
    lget L u = prepend zs rest ->
    ga_find_min cfg fuel p u = (Ret (Some (y, v), p'), u', t) -> evaluated t x f /\ leb v f = true.
Proof.
  intros N HB HS HX HC. destruct size as [|n]; [lia|].
  apply (genetic_can_find L (@random_create f32 (NumGene32 np64 np32) np64 c) cfg n x f HC).
  apply (creator32_possible np64 np32 (S n) box c _ N HB); [apply repeat_length|].
  apply Forall_forall. intros y Hy. apply repeat_spec in Hy. now subst y.
Qed.
