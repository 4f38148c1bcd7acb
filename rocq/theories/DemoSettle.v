(** * Concrete runs for the examples about goals that settle *)

From Coq Require Import List Arith ZArith Bool Lia Reals Lra.
From Flocq Require Import Core IEEE754.BinarySingleNaN IEEE754.Binary.
From Verif Require Import Base Logic FloatModel FloatFacts ArithFacts GaModel GaComponents PsoModel StopModel
  SpecGa SpecPso SpecRun SpecStop SpecSettle LoopFacts GaFacts GaTheorems GaMore GaStandard SelProofs PsoComponents SettleFacts PsoRuns DemoGa DemoFloats DemoPso DemoStop.
Import ListNotations.

(** ** A LimitPopulation(2) that lets the better individual go

    The population swings between (9, 2) and (9, 9): the children of (9, 2) are 9 and
    9, and the selection keeps two nines; the children of (9, 9) are 10 and 2. *)
Section Seesaw.
  Variables (a b c : f64).
  Definition seesaw_goal (z : Z) : f64 := if (z =? 9)%Z then a else if (z =? 2)%Z then b else c.
  Variable np64 : nan_policy 53 1024.
  Variables (dbg : bool) (m : nat) (delta : f64).
  Definition seesaw : ga_config gnc Z :=
    ga_new (goal_from_function seesaw_goal) (goal_not_change np64 dbg m delta)
      (cret [9; 2]%Z) (fun p => cret [[0; 1]])
      (fun parents => cret (if existsb (Z.eqb 2) parents then [9; 9]%Z else [10; 2]%Z)) (fun x => cret x)
      [fun p => cpure (limit_population 2 p)] [].
  Hypothesis cmp :
    ltb a b = false /\ ltb b a = true /\ ltb a a = false /\ ltb b b = false /\
    ltb a c = true /\ ltb c a = false /\ ltb b c = true /\ ltb c b = false /\
    is_nan a = false /\ is_nan b = false /\ is_nan c = false /\
    partial_cmp a b = Some Gt /\ partial_cmp b a = Some Lt /\ partial_cmp a a = Some Eq /\
    partial_cmp b b = Some Eq.
  Hypothesis far :
    differ np64 delta a f64_MAX = true /\ differ np64 delta a b = true /\ differ np64 delta b a = true.

  Definition nine : individual Z := Individual 9%Z a true.
  Definition two : individual Z := Individual 2%Z b true.
  Definition down i best worst := Population [nine; two] best worst i.
  Definition level i best worst := Population [nine; nine] best worst i.
  Ltac seesaw_run :=
    destruct cmp as [H1 [H2 [H3 [H4 [H5 [H6 [H7 [H8 [H9 [H10 [H11 [H12 [H13 [H14 H15]]]]]]]]]]]]]];
    unfold down, level;
    cbv -[ltb is_nan partial_cmp Nat.add b_of_Z];
    repeat (rewrite ?H1, ?H2, ?H3, ?H4, ?H5, ?H6, ?H7, ?H8, ?H9, ?H10, ?H11, ?H12, ?H13, ?H14, ?H15;
            cbv -[ltb is_nan partial_cmp Nat.add b_of_Z]); eexists; reflexivity.
  Lemma seesaw_up i x y u : exists t, ga_iteration seesaw (down i x y) u = (Ret (level (i + 1) (Some nine) (Some nine)), u, t).
  Proof. seesaw_run. Qed.
  Lemma seesaw_down i x y u : exists t, ga_iteration seesaw (level i x y) u = (Ret (down (i + 1) (Some two) (Some nine)), u, t).
  Proof. seesaw_run. Qed.
  Lemma far_goes_on (s : alg_state Z) x v g : as_best s = Some (x, v) -> differ np64 delta v (old_goal g) = true ->
    goal_not_change np64 dbg m delta s g = (Ret false, Gnc v (as_iter s)).
  Proof.
    intros E F. unfold goal_not_change. rewrite E. cbv zeta. unfold differ in F. rewrite F. cbn [change_iter].
    unfold usize_sub. rewrite Z.leb_refl, Z.sub_diag. simpl.
    replace (Z.of_nat m <? 0)%Z with false by (symmetry; apply Z.ltb_ge; lia). reflexivity.
  Qed.
  Lemma seesaw_loop fuel : forall i w g,
    (differ np64 delta a (old_goal g) = true ->
       fst (fst (gloop pop_view (ga_iteration seesaw) (ga_stop seesaw) fuel (level i (Some nine) w) g)) = NoFuel) /\
    (differ np64 delta b (old_goal g) = true ->
       fst (fst (gloop pop_view (ga_iteration seesaw) (ga_stop seesaw) fuel (down i (Some two) w) g)) = NoFuel).
  Proof.
    destruct far as [_ [F1 F2]].
    induction fuel as [|fuel IH]; intros i w g; [split; reflexivity|].
    split; intros F; cbn [gloop]; unfold call_stop, mbind, call, emit; cbn [ga_stop seesaw ga_new].
    - rewrite (far_goes_on _ 9%Z a) by (auto; reflexivity). cbn [mret app].
      destruct (seesaw_down i (Some nine) w (Gnc a (as_iter (pop_view (level i (Some nine) w))))) as [t ->].
      destruct (IH (i + 1) (Some nine) (Gnc a (as_iter (pop_view (level i (Some nine) w))))) as [_ K].
      specialize (K F2).
      match goal with |- context [gloop ?v ?s ?st fuel ?p ?u] =>
        change (fst (fst (gloop v s st fuel p u)) = NoFuel) in K; destruct (gloop v s st fuel p u) as [[o3 u3] t3] end.
      simpl in K. subst. reflexivity.
    - rewrite (far_goes_on _ 2%Z b) by (auto; reflexivity). cbn [mret app].
      destruct (seesaw_up i (Some two) w (Gnc b (as_iter (pop_view (down i (Some two) w))))) as [t ->].
      destruct (IH (i + 1) (Some nine) (Gnc b (as_iter (pop_view (down i (Some two) w))))) as [K _].
      specialize (K F1).
      match goal with |- context [gloop ?v ?s ?st fuel ?p ?u] =>
        change (fst (fst (gloop v s st fuel p u)) = NoFuel) in K; destruct (gloop v s st fuel p u) as [[o3 u3] t3] end.
      simpl in K. subst. reflexivity.
  Qed.
  Lemma seesaw_never fuel p : fst (fst (ga_find_min seesaw fuel p gnc_new)) = NoFuel.
  Proof.
    rewrite ga_find_gfind. unfold gfind, gnext.
    assert (I : exists t, ga_init seesaw p gnc_new = (Ret (down 0 None None), gnc_new, t)) by (eexists; reflexivity).
    destruct I as [t0 I]. unfold mbind at 1. rewrite I.
    assert (K : fst (fst (gloop pop_view (ga_iteration seesaw) (ga_stop seesaw) fuel (down 0 None None) gnc_new)) = NoFuel).
    { destruct fuel as [|fuel]; [reflexivity|]. cbn [gloop]. unfold call_stop, mbind, call, emit.
      change (ga_stop seesaw (pop_view (down 0 None None)) gnc_new) with (@Ret bool false, gnc_new). cbn [mret app].
      destruct (seesaw_up 0 None None gnc_new) as [t1 ->].
      destruct (seesaw_loop fuel (0 + 1) (Some nine) gnc_new) as [K _]. specialize (K (proj1 far)).
      match goal with |- context [gloop ?v ?s ?st fuel ?p ?u] =>
        change (fst (fst (gloop v s st fuel p u)) = NoFuel) in K; destruct (gloop v s st fuel p u) as [[o3 u3] t3] end.
      simpl in K. subst. reflexivity. }
    destruct (gloop pop_view (ga_iteration seesaw) (ga_stop seesaw) fuel (down 0 None None) gnc_new) as [[o u] t] eqn:E.
    simpl in K. subst o.
    change (ga_loggers seesaw) with (@nil (logger gnc Z)). unfold mbind at 1.
    change (call_loggers pop_view LStart [] (down 0 None None) gnc_new) with (@Ret unit tt, gnc_new, @nil (ga_event Z)).
    cbn [app]. unfold mbind at 1.
    change (call_loggers pop_view LResume [] (down 0 None None) gnc_new) with (@Ret unit tt, gnc_new, @nil (ga_event Z)).
    cbn [app]. unfold mbind at 1. rewrite E. reflexivity.
  Qed.
End Seesaw.

(** The comparisons hold of the floats 9, 2 and 10. *)
Lemma seesaw_compares :
  ltb (fl 9) (fl 2) = false /\ ltb (fl 2) (fl 9) = true /\ ltb (fl 9) (fl 9) = false /\ ltb (fl 2) (fl 2) = false /\
  ltb (fl 9) (fl 10) = true /\ ltb (fl 10) (fl 9) = false /\ ltb (fl 2) (fl 10) = true /\ ltb (fl 10) (fl 2) = false /\
  is_nan (fl 9) = false /\ is_nan (fl 2) = false /\ is_nan (fl 10) = false /\
  partial_cmp (fl 9) (fl 2) = Some Gt /\ partial_cmp (fl 2) (fl 9) = Some Lt /\
  partial_cmp (fl 9) (fl 9) = Some Eq /\ partial_cmp (fl 2) (fl 2) = Some Eq.
Proof. repeat split; vm_compute; reflexivity. Qed.
Lemma seesaw_far np64 :
  differ np64 (fl 1) (fl 9) f64_MAX = true /\ differ np64 (fl 1) (fl 9) (fl 2) = true /\
  differ np64 (fl 1) (fl 2) (fl 9) = true.
Proof. repeat split; vm_compute; reflexivity. Qed.

Lemma seesaw_values z : leb (fl 2) (seesaw_goal (fl 9) (fl 2) (fl 10) z) = true /\
  leb (seesaw_goal (fl 9) (fl 2) (fl 10) z) (fl 10) = true.
Proof. unfold seesaw_goal. destruct (z =? 9)%Z; [|destruct (z =? 2)%Z]; split; vm_compute; reflexivity. Qed.
Definition seesaw_floats np64 dbg m : ga_config gnc Z := seesaw (fl 9) (fl 2) (fl 10) np64 dbg m (fl 1).

Lemma fl_exact z : (Z.abs z <= 2 ^ 53)%Z -> is_finite (fl z) = true /\ Binary.B2R 53 1024 (fl z) = IZR z.
Proof. intros H. apply (of_Z_exact (prec := 53) (emax := 1024)). exact H. Qed.
Lemma fl_steps lo hi d n : (Z.abs lo <= 2 ^ 53)%Z -> (Z.abs hi <= 2 ^ 53)%Z -> (Z.abs d <= 2 ^ 53)%Z -> (0 < d)%Z ->
  (hi - lo <= Z.of_nat n * d)%Z -> steps_between (fl lo) (fl hi) (fl d) n.
Proof.
  intros H1 H2 H3 H4 H5. destruct (fl_exact lo H1) as [F1 E1], (fl_exact hi H2) as [F2 E2], (fl_exact d H3) as [F3 E3].
  split; auto. split; auto. split; auto. split.
  - apply ltb_key. destruct (fl_exact 0) as [F0 E0]; [lia|].
    split; [now apply finite_not_nan|]. split; [now apply finite_not_nan|].
    rewrite (key_finite _ F3), E3. change (b_of_Z 0) with (fl 0). rewrite (key_finite _ F0), E0. now apply IZR_lt.
  - rewrite E1, E2, E3, INR_IZR_INZ, <- minus_IZR, <- mult_IZR. now apply IZR_le.
Qed.

Lemma seesaw_endless np64 dbg m :
  exists cfg : ga_config gnc Z,
    ga_selections cfg = [fun p => cpure (limit_population 2 p)] /\
    Forall selection_copies (ga_selections cfg) /\ ga_keeps (lget lens_id) cfg /\ ga_ends cfg /\
    ga_stop cfg = goal_not_change np64 dbg m (fl 1) /\ no_later lens_id (goal_not_change np64 dbg m (fl 1)) (ga_stop cfg) /\
    steps_between (fl 2) (fl 10) (fl 1) 8 /\
    (forall w xs w', ga_creator cfg w = (Ret xs, w') -> xs <> []) /\
    forall fuel p, exists u' t, ga_find_min cfg fuel p gnc_new = (NoFuel, u', t) /\ values_between (fl 2) (fl 10) t.
Proof.
  exists (seesaw_floats np64 dbg m). split; [reflexivity|]. split.
  { constructor; [|constructor]. apply kills_copies, limit_population_kills. }
  split.
  { repeat split; try (intros; intros u; reflexivity).
    - intros f p [<-|[]] u. unfold cpure. destruct (limit_population 2 p); reflexivity.
    - intros f p xs [].
    - intros lg k s []. }
  split.
  { repeat split; try (intros; intros u; discriminate).
    - intros f p [<-|[]] u. destruct (limit_population_spec 2 p) as [l' [E _]]. unfold cpure. rewrite E. discriminate.
    - intros f p xs [].
    - intros lg k s []. }
  split; [reflexivity|]. split.
  { intros s u u' H. exact H. }
  split; [apply fl_steps; cbv; congruence|]. split.
  { intros w xs w' H. inversion H. discriminate. }
  intros fuel p.
  pose proof (seesaw_never (fl 9) (fl 2) (fl 10) np64 dbg m (fl 1) seesaw_compares (seesaw_far np64) fuel p) as N.
  unfold seesaw_floats.
  destruct (ga_find_min (seesaw (fl 9) (fl 2) (fl 10) np64 dbg m (fl 1)) fuel p gnc_new) as [[o u'] t] eqn:E.
  simpl in N. subst o. exists u', t. split; auto. intros x v Hx.
  apply find_min_genuine in E. rewrite Forall_forall in E. destruct (E _ Hx) as [w [w' Hw]].
  cbn [seesaw ga_goal ga_new] in Hw. unfold goal_from_function in Hw. inversion Hw; subst. apply seesaw_values.
Qed.

(** ** A genetic algorithm that settles: 9, 7, 5, 3, 1, 1, 1 *)
Definition settling : ga_config gnc Z :=
  ga_new (goal_from_function fl) (composite_any [max_iterations 100; goal_not_change np64_default true 2 (fl 1)])
    (cret [9%Z]) (fun p => cret [[length (individuals p) - 1; length (individuals p) - 1]])
    (fun parents => cret [Z.max 1 (hd 0 parents - 2)]%Z) (fun x => cret x)
    [fun p => cret (kill_fitness_nan p)] [].
Definition settling_run := ga_find_min settling 40 demo_start gnc_new.
Lemma settling_ended : ended (fst (fst settling_run)) = Some 7.
Proof. vm_compute. reflexivity. Qed.
Lemma settling_values : forallb (fun xv : Z * f64 => leb (fl 1) (snd xv) && leb (snd xv) (fl 9)) (answers (snd settling_run)) = true.
Proof. vm_compute. reflexivity. Qed.

(** ** A swarm that settles *)
Definition landing : pso_config gnc f64 :=
  PsoConfig (goal_from_function swarm_goal) (fun s => zoom lens_id (goal_not_change np64_default true 2 (fl 4) s))
    (cret [[three64]; [ten64]]) (cret [[one64]; [one64]]) (fun s p => cret [minus_two64])
    [] [fun x => cpure (move_to_boundary [(minus_two64, ten64)] x)] [].
Definition landing_run := pso_find_min landing 90 flock_start gnc_new.
Lemma landing_run_eq : landing_run = pso_find_min landing 90 flock_start gnc_new.
Proof. reflexivity. Qed.
Definition landed (o : outcome (option (list f64 * f64) * swarm f64)) : option nat :=
  match o with Ret r => Some (sw_iteration (snd r)) | _ => None end.
Lemma landing_ended : landed (fst (fst landing_run)) = Some 4.
Proof. vm_compute. reflexivity. Qed.
Lemma landing_values :
  forallb (fun xv : list f64 * f64 => leb (fl 1) (snd xv) && leb (snd xv) (fl 101)) (answers (snd landing_run)) = true.
Proof. vm_compute. reflexivity. Qed.

Lemma all_between {T S X} lo hi (t : list (event T S X)) :
  forallb (fun xv : T * f64 => leb lo (snd xv) && leb (snd xv) hi) (answers t) = true -> values_between lo hi t.
Proof.
  intros H x v Hx. rewrite forallb_forall in H. apply answers_evaluated in Hx.
  specialize (H _ Hx). simpl in H. now apply andb_prop.
Qed.
Lemma settling_case :
  Forall selection_copies (ga_selections settling) /\ Forall keeps_best (ga_selections settling) /\
  ga_keeps (lget lens_id) settling /\ ga_ends settling /\ (forall a, ends (ga_stop settling a)) /\
  no_later lens_id (goal_not_change np64_default true 2 (fl 1)) (ga_stop settling) /\
  (forall w xs w', ga_creator settling w = (Ret xs, w') -> xs <> []) /\ steps_between (fl 1) (fl 9) (fl 1) 8 /\
  exists r p' u' t, ga_find_min settling 40 demo_start gnc_new = (Ret (r, p'), u', t) /\
    values_between (fl 1) (fl 9) t /\ iteration p' = 7.
Proof.
  split. { constructor; [apply kill_fitness_nan_copies|constructor]. }
  split. { constructor; [apply kill_fitness_nan_keeps_best|constructor]. }
  split.
  { repeat split; try (intros; intros u; reflexivity).
    - intros f p [<-|[]] u. reflexivity.
    - intros f p xs [].
    - intros lg k s []. }
  split.
  { repeat split; try (intros; intros u; discriminate).
    - intros f p [<-|[]] u. discriminate.
    - intros f p xs [].
    - intros lg k s []. }
  split.
  { intros a u. cbn [settling ga_stop ga_new composite_any]. unfold cbind, max_iterations, cret.
    destruct (100 <=? as_iter a); [discriminate|]. unfold goal_not_change.
    destruct (as_best a) as [[x v]|]; [|discriminate]. cbv zeta. unfold usize_sub.
    destruct (_ <=? _)%Z; cbn; try discriminate. destruct (_ <? _)%Z; discriminate. }
  split.
  { cbn [settling ga_stop ga_new]. apply (any_no_later lens_id (goal_not_change np64_default true 2 (fl 1)) [max_iterations 100] _ []).
    - intros s u u' H. exact H.
    - intros d [<-|[]] s u. reflexivity. }
  split. { intros w xs w' H. inversion H. discriminate. }
  split; [apply fl_steps; cbv; congruence|].
  destruct (ended_some settling_run 7 settling_ended) as [r [p' [u' [t [E I]]]]].
  exists r, p', u', t. split; [exact E|]. split; auto.
  apply all_between. replace t with (snd settling_run) by (now rewrite E). exact settling_values.
Qed.
Lemma ofold_ends {A B} (f : A -> B -> outcome A) xs : (forall a x, f a x <> NoFuel) -> forall a, ofold f xs a <> NoFuel.
Proof.
  intros H. induction xs as [|x xs IH]; intros a; simpl; [discriminate|]. specialize (H a x).
  destruct (f a x); simpl; try congruence; auto.
Qed.
Lemma boundary_ends box (x : list f64) (u : gnc) : fst (cpure (move_to_boundary box x) u) <> NoFuel.
Proof.
  unfold cpure, move_to_boundary, oassert. cbn [fst]. destruct (length x =? length box); [|discriminate]. cbn [obind].
  apply ofold_ends. intros a i. unfold index. destruct (nth_error a i); [|discriminate].
  destruct (nth_error box i); [|discriminate]. apply update_end.
Qed.
Lemma landing_case :
  pso_keeps (lget lens_id) landing /\ pso_ends landing /\ (forall a, ends (pso_stop landing a)) /\
  no_later lens_id (goal_not_change np64_default true 2 (fl 4)) (pso_stop landing) /\
  (forall w xs w', pso_coordinates landing w = (Ret xs, w') -> xs <> []) /\ steps_between (fl 1) (fl 101) (fl 4) 25 /\
  exists r s' u' t, pso_find_min landing 90 flock_start gnc_new = (Ret (r, s'), u', t) /\
    values_between (fl 1) (fl 101) t /\ sw_iteration s' = 4.
Proof.
  split.
  { repeat split; try (intros; intros u; reflexivity).
    - intros f p [].
    - intros f x [<-|[]] u. unfold cpure. destruct (move_to_boundary _ _); reflexivity.
    - intros lg k s []. }
  split.
  { repeat split; try (intros; intros u; discriminate).
    - intros f p [].
    - intros f x [<-|[]] u. unfold cpure.
      apply boundary_ends.
    - intros lg k s []. }
  split.
  { intros a u. cbn [landing pso_stop]. unfold zoom, goal_not_change.
    destruct (as_best a) as [[x v]|]; [|discriminate]. cbv zeta. unfold usize_sub.
    destruct (_ <=? _)%Z; cbn; discriminate. }
  split.
  { intros s u u' H. cbn [landing pso_stop] in H. unfold zoom in H.
    destruct (goal_not_change np64_default true 2 (fl 4) s (lget lens_id u)) as [o g]. inversion H; subst. reflexivity. }
  split. { intros w xs w' H. inversion H. discriminate. }
  split; [apply fl_steps; cbv; congruence|].
  rewrite <- landing_run_eq. generalize landing_ended landing_values.
  destruct landing_run as [[[[r s']| |] u'] t]; intros L V; try discriminate L. injection L as I.
  exists r, s', u', t. split; [reflexivity|]. split; [|exact I]. apply all_between. exact V.
Qed.

(** Paused after one iteration (MaxIterations), then run on with GoalNotChange. *)
Definition paused := pso_find_min (pso_set_stop_checker landing (max_iterations 1)) 5 flock_start gnc_new.
Lemma paused_eq : paused = pso_find_min (pso_set_stop_checker landing (max_iterations 1)) 5 flock_start gnc_new.
Proof. reflexivity. Qed.
Definition paused_swarm : swarm f64 := match fst (fst paused) with Ret r => snd r | _ => flock_start end.
Definition resumed_run := pso_next_iterations landing 90 paused_swarm (snd (fst paused)).
Lemma resumed_run_eq : resumed_run = pso_next_iterations landing 90 paused_swarm (snd (fst paused)).
Proof. reflexivity. Qed.
Lemma paused_ended : landed (fst (fst paused)) = Some 1 /\ change_iter (snd (fst paused)) = 0.
Proof. split; vm_compute; reflexivity. Qed.
Lemma resumed_ended : landed (fst (fst resumed_run)) = Some 4.
Proof. vm_compute. reflexivity. Qed.
Lemma resumed_values :
  forallb (fun xv : list f64 * f64 => leb (fl 1) (snd xv) && leb (snd xv) (fl 101))
    (answers (snd paused ++ snd resumed_run)) = true.
Proof. vm_compute. reflexivity. Qed.
Lemma paused_answers : (length (answers (snd paused)) =? 0) = false.
Proof. vm_compute. reflexivity. Qed.
Lemma resumed_case : exists s h u,
  pso_reach (fun _ : pso_config gnc f64 => True) s h /\ (exists x v, evaluated h x v) /\ sw_iteration s = 1 /\
  change_iter (lget lens_id u) = 0 /\
  exists r s' u' t, pso_next_iterations landing 90 s u = (Ret (r, s'), u', t) /\
    values_between (fl 1) (fl 101) (h ++ t) /\ sw_iteration s' = 4.
Proof.
  exists paused_swarm, (snd paused), (snd (fst paused)).
  assert (P : exists r, pso_find_min (pso_set_stop_checker landing (max_iterations 1)) 5 flock_start gnc_new
    = (Ret (r, paused_swarm), snd (fst paused), snd paused) /\ sw_iteration paused_swarm = 1).
  { rewrite <- paused_eq. unfold paused_swarm. generalize (proj1 paused_ended).
    destruct paused as [[[[r s']| |] u'] t]; intros L; try discriminate. injection L as I.
    exists r. split; [reflexivity|exact I]. }
  destruct P as [r [P I]].
  split; [exact (pso_reach_find _ _ _ _ flock_start _ _ _ _ _ Logic.I (pso_reach_new _) P)|].
  split.
  { generalize paused_answers. destruct (answers (snd paused)) as [|[x v] l] eqn:E; [discriminate|]. intros _.
    exists x, v. refine (proj1 (answers_evaluated (snd paused) x v) _). rewrite E. now left. }
  split; [exact I|]. split; [cbn [lget lens_id]; exact (proj2 paused_ended)|].
  rewrite <- resumed_run_eq. generalize resumed_ended resumed_values.
  destruct resumed_run as [[[[r1 s']| |] u'] t]; intros L V; try discriminate L. injection L as I'.
  exists r1, s', u', t. split; [reflexivity|]. split; [|exact I']. apply all_between. exact V.
Qed.
