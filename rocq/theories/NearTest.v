(** * Low values reported by the programs are found only near the documented minimum *)

From Coq Require Import List Arith ZArith Bool Lia Reals Lra Psatz String.
From Flocq Require Import Core IEEE754.BinarySingleNaN IEEE754.Binary.
From Verif Require Import Base FloatModel FloatFacts ArithFacts Rng GaModel PsoModel StopModel LogModel TestFuncModel ExampleModel StatProgramModel
  SpecReal SpecMean SpecSpeed SpecBox SpecTest SpecExample SpecStat SpecStatProgram SpecAccuracy SpecNear
  StatFacts TestFacts RangeFacts ExampleFacts ExampleRuns ExampleAsserts StatProgramFacts StatProgramRuns RastriginTest AccFacts AccTest NearFacts.
Import ListNotations.
Local Open Scope R_scope.

(** ** From accuracy to distance *)
Lemma nth_map {A B} (f : A -> B) l i a : nth_error l i = Some a -> nth_error (map f l) i = Some (f a).
Proof. intros H. rewrite nth_error_map, H. reflexivity. Qed.
Lemma six_digits (v f k : R) : 0 <= k -> Rabs (v - f) <= f / 10 ^ 6 + 1 / 10 ^ 40 -> v <= k² -> f <= (k + k / 10 ^ 6 + 1 / 10 ^ 19)².
Proof.
  intros K H V. apply Rabs_le_inv in H.
  assert (E : (k + k / 10 ^ 6 + 1 / 10 ^ 19)² = k² * (1 + 2 / 10 ^ 6 + 1 / 10 ^ 12) + k * (2 * (1 + 1 / 10 ^ 6) / 10 ^ 19) + 1 / 10 ^ 38)
    by (unfold Rsqr; field).
  rewrite E. pose proof (Rle_0_sqr k). lra.
Qed.
Lemma paraboloid_low x v k : right_to_six paraboloid_real x v -> 0 <= k -> R64 v <= k² -> all_near (k + k / 10 ^ 6 + 1 / 10 ^ 19) staircase x.
Proof.
  intros H K V i a Hi. apply (paraboloid_near (map R32 x) i (R32 a)); [now apply nth_map|lra|].
  exact (six_digits _ _ k K H V).
Qed.
Lemma rosenbrock_low x v k : List.length x = 3%nat -> root_right rosenbrock_real x v -> 0 <= k <= 1 / 10 -> R64 v <= k² ->
  all_near (23 / 10 * (k + 1 / 10 ^ 5)) (everywhere 1) x.
Proof.
  intros L H K V i a Hi. unfold everywhere. apply (rosenbrock_near (map R32 x) i (R32 a)); [now rewrite map_length|now apply nth_map|lra|].
  unfold root_right in H. set (f := rosenbrock_real (map R32 x)) in *.
  assert (F0 : 0 <= f).
  { unfold f, rosenbrock_real. apply sum_nonneg. rewrite Forall_map, Forall_forall. intros b _. apply pair_pos. }
  assert (A : sqrt (R64 v) <= k).
  { destruct (Rle_or_lt (R64 v) 0) as [N|P]; [rewrite sqrt_neg_0 by exact N; lra|].
    rewrite <- (sqrt_Rsqr k) by lra. apply sqrt_le_1_alt. exact V. }
  pose proof (sqrt_pos f) as S0. apply Rabs_le_inv in H. rewrite <- (Rsqr_sqrt f F0). apply Rsqr_incr_1; lra.
Qed.
Lemma rastrigin_low x v e s : off_by e rastrigin_doc x v -> 0 <= s <= 1 / 2 -> R64 v <= s² - e -> all_near (s / 9) (everywhere 0) x.
Proof.
  intros H S V i a Hi. unfold everywhere. rewrite Rminus_0_r. apply (rastrigin_near (map R32 x)); [apply in_map, (nth_error_In _ _ Hi)|exact S|].
  unfold off_by in H. apply Rabs_le_inv in H. lra.
Qed.
Lemma schwefel_low x v e s : Forall (within 500) x -> off_by e schwefel_doc x v -> 0 <= s <= 1 -> R64 v <= s² - e ->
  all_near (313 / 100 * s + 1 / 10 ^ 4) (everywhere schwefel_answer) x.
Proof.
  intros B H S V i a Hi. unfold everywhere. apply (schwefel_near (map R32 x)); [apply in_map, (nth_error_In _ _ Hi)| |exact S|].
  - apply (within_all 500). exact B.
  - unfold off_by in H. apply Rabs_le_inv in H. lra.
Qed.

(** ** The boxes of the programs *)
Section Boxes.
  Variables (np32 : nan_policy 24 128) (np64 : nan_policy 53 1024).
  Context {LM : Libm f32}.
  Notation parab := (fun x => Ret (@paraboloid f32 (FloatIEEE np32) (ToF64_32 np64) x)).
  Notation schwef := (fun x => Ret (@schwefel f32 (FloatIEEE np32) LM (ToF64_32 np64) x)).
  Notation rastr := (fun x => Ret (@rastrigin f32 (FloatIEEE np32) LM (ToF64_32 np64) x)).
  Notation rosen := (@rosenbrock f32 (FloatIEEE np32) (ToF64_32 np64)).
  Lemma paraboloid_box_low x v k : solves parab (int_cube 5 (-100) 100) x v -> 0 <= k -> R64 v <= k² ->
    all_near (k + k / 10 ^ 6 + 1 / 10 ^ 19) staircase x.
  Proof. intros S. apply (paraboloid_low x v). apply (paraboloid_true np32 np64). exact S. Qed.
  Lemma rosenbrock_box_low x v k : solves rosen (int_cube 3 (-2) 2) x v -> 0 <= k <= 1 / 10 -> R64 v <= k² ->
    all_near (23 / 10 * (k + 1 / 10 ^ 5)) (everywhere 1) x.
  Proof.
    intros S. apply (rosenbrock_low x v); [exact (cube_length 3 _ _ x (proj1 S))|]. apply (rosenbrock_true np32 np64). exact S.
  Qed.
  Lemma rastrigin_box_low d e x v s : trig_near cos (1 / 10 ^ 6) 48 (@fcos f32 LM) ->
    (d = 3%nat /\ e = 1 / 2000 \/ d = 30%nat /\ e = 1 / 100) ->
    solves rastr (cube d (decimal32 (-512) 2) (decimal32 512 2)) x v -> 0 <= s <= 1 / 2 -> R64 v <= s² - e ->
    all_near (s / 9) (everywhere 0) x.
  Proof. intros C D S. apply (rastrigin_low x v e). apply (rastrigin_true np32 np64 d); assumption. Qed.
  Lemma schwefel_box_low d e x v s : trig_near sin (1 / 10 ^ 6) 500 (@fsin f32 LM) ->
    (d = 3%nat /\ e = 1 / 200 \/ d = 5%nat /\ e = 1 / 100 \/ d = 15%nat /\ e = 1 / 25) ->
    solves schwef (int_cube d (-500) 500) x v -> 0 <= s <= 1 -> R64 v <= s² - e ->
    all_near (313 / 100 * s + 1 / 10 ^ 4) (everywhere schwefel_answer) x.
  Proof.
    intros C D S. apply (schwefel_low x v e); [|apply (schwefel_true np32 np64 d); assumption].
    exact (proj2 (cube_within d _ _ 500 x (within_int32 (-500) 500 ltac:(lia)) (within_int32 500 500 ltac:(lia)) (proj1 S))).
  Qed.

  (** ** Runs that count as successful *)
  Lemma float_near (x a d : f32) (p k l : R) : is_finite x = true -> is_finite a = true -> is_finite d = true ->
    Rabs (R32 x - p) <= k -> Rabs (R32 a - p) <= l -> k + l <= R32 d -> leb (b_abs (b_sub np32 x a)) d = true.
  Proof.
    intros Fx Fa Fd H1 H2 H. destruct (distance_key np32 x a Fx Fa) as [N _]. destruct (close_le np32 x a d Fx Fa Fd) as (_ & C & _).
    assert (D : distance x a <= R32 d).
    { unfold distance. apply Rabs_le_inv in H1. apply Rabs_le_inv in H2. apply Rabs_le. lra. }
    apply C in D. apply ltb_false in D; [|now apply finite_not_nan|exact N].
    apply leb_key. split; [exact N|]. split; [now apply finite_not_nan|exact D].
  Qed.
  Lemma run_near (a d : f32) (p k l : R) (r : stat_run) b : is_finite a = true -> is_finite d = true ->
    Forall (within b) (fst (sr_point r)) -> all_near k (everywhere p) (fst (sr_point r)) ->
    Rabs (R32 a - p) <= l -> k + l <= R32 d -> near np32 a d r = true.
  Proof.
    intros Fa Fd B H L K. unfold near. apply forallb_forall. intros x Hx.
    destruct (In_nth_error _ _ Hx) as [i Hi]. rewrite Forall_forall in B.
    apply (float_near x a d p k l); auto; [apply (B x Hx)|exact (H i x Hi)].
  Qed.
  Lemma leb_real (v k : f64) : leb v k = true -> is_finite v = true -> is_finite k = true -> R64 v <= R64 k.
  Proof. intros H Fv Fk. apply leb_key in H. destruct H as (_ & _ & H). rewrite !key_finite in H by assumption. exact H. Qed.
  Lemma schwefel_success rs calls r : trig_near sin (1 / 10 ^ 6) 500 (@fsin f32 LM) ->
    good_run schwef (int_cube 3 (-500) 500) rs calls r -> low (decimal64 9 2) r = true ->
    near np32 (decimal32 4209687 4) (b_of_Z 1) r = true.
  Proof.
    intros C (S & _) L. unfold low in L. apply leb_real in L; [|exact (proj2 (proj2 S))|vm_compute; reflexivity].
    assert (K : R64 (decimal64 9 2) <= 901 / 10 ^ 4).
    { rewrite (B2R_of_FF (decimal64 9 2) 6485183463413514 (-56)) by (vm_compute; reflexivity).
      change (bpow radix2 (-56)) with (/ IZR (2 ^ 56)). simpl Z.pow. lra. }
    apply (run_near _ _ schwefel_answer (313 / 100 * (31 / 100) + 1 / 10 ^ 4) (1 / 10 ^ 4) r 500).
    - vm_compute; reflexivity.
    - vm_compute; reflexivity.
    - exact (proj2 (cube_within 3 _ _ 500 _ (within_int32 (-500) 500 ltac:(lia)) (within_int32 500 500 ltac:(lia)) (proj1 S))).
    - apply (schwefel_box_low 3 (1 / 200) _ _ (31 / 100) C ltac:(auto) S); [lra|unfold Rsqr; lra].
    - assert (E : Binary.B2FF 24 128 (decimal32 4209687 4) = Binary.F754_finite false 13794302 (-15)) by (vm_compute; reflexivity).
      rewrite <- Binary.FF2R_B2FF, E. unfold Binary.FF2R, F2R. cbn [Fnum Fexp cond_Zopp]. unfold schwefel_answer.
      change (bpow radix2 (-15)) with (/ IZR (2 ^ 15)). simpl Z.pow. apply Rabs_le. lra.
    - destruct (of_Z_exact (prec := 24) (emax := 128) 1 ltac:(lia)) as [_ E]. rewrite E. lra.
  Qed.
  Lemma rosenbrock_success rs calls r : good_run rosen (int_cube 3 (-2) 2) rs calls r -> low (decimal64 1 5) r = true ->
    near np32 (b_of_Z 1) (decimal32 1 2) r = true.
  Proof.
    intros (S & _) L. unfold low in L. apply leb_real in L; [|exact (proj2 (proj2 S))|vm_compute; reflexivity].
    assert (K : R64 (decimal64 1 5) <= 10001 / 10 ^ 9).
    { rewrite (B2R_of_FF (decimal64 1 5) 5902958103587057 (-69)) by (vm_compute; reflexivity).
      change (bpow radix2 (-69)) with (/ IZR (2 ^ 69)). simpl Z.pow. lra. }
    apply (run_near _ _ 1 (23 / 10 * (317 / 10 ^ 5 + 1 / 10 ^ 5)) 0 r 2).
    - vm_compute; reflexivity.
    - vm_compute; reflexivity.
    - exact (proj2 (cube_within 3 _ _ 2 _ (within_int32 (-2) 2 ltac:(lia)) (within_int32 2 2 ltac:(lia)) (proj1 S))).
    - apply (rosenbrock_box_low _ _ (317 / 10 ^ 5) S); [lra|unfold Rsqr; lra].
    - destruct (of_Z_exact (prec := 24) (emax := 128) 1 ltac:(lia)) as [_ E]. rewrite E, Rminus_diag_eq, Rabs_R0 by reflexivity. lra.
    - assert (E : Binary.B2FF 24 128 (decimal32 1 2) = Binary.F754_finite false 10737418 (-30)) by (vm_compute; reflexivity).
      rewrite <- Binary.FF2R_B2FF, E. unfold Binary.FF2R, F2R. cbn [Fnum Fexp cond_Zopp].
      change (bpow radix2 (-30)) with (/ IZR (2 ^ 30)). simpl Z.pow. lra.
  Qed.
  Lemma rastrigin_success rs calls r : trig_near cos (1 / 10 ^ 6) 48 (@fcos f32 LM) ->
    good_run rastr (cube 3 (decimal32 (-512) 2) (decimal32 512 2)) rs calls r -> low (decimal64 2 1) r = true ->
    near np32 (b_of_Z 0) (decimal32 1 1) r = true.
  Proof.
    intros C (S & _) L. unfold low in L. apply leb_real in L; [|exact (proj2 (proj2 S))|vm_compute; reflexivity].
    assert (K : R64 (decimal64 2 1) <= 2001 / 10 ^ 4).
    { rewrite (B2R_of_FF (decimal64 2 1) 7205759403792794 (-55)) by (vm_compute; reflexivity).
      change (bpow radix2 (-55)) with (/ IZR (2 ^ 55)). simpl Z.pow. lra. }
    apply (run_near _ _ 0 (1 / 2 / 9) 0 r 6).
    - vm_compute; reflexivity.
    - vm_compute; reflexivity.
    - exact (proj2 (cube_within 3 _ _ 6 _ (within_decimal (-512) ltac:(auto)) (within_decimal 512 ltac:(auto)) (proj1 S))).
    - apply (rastrigin_box_low 3 (1 / 2000) _ _ (1 / 2) C ltac:(auto) S); [lra|unfold Rsqr; lra].
    - destruct (of_Z_exact (prec := 24) (emax := 128) 0 ltac:(lia)) as [_ E]. rewrite E, Rminus_diag_eq, Rabs_R0 by reflexivity. lra.
    - assert (E : Binary.B2FF 24 128 (decimal32 1 1) = Binary.F754_finite false 13421773 (-27)) by (vm_compute; reflexivity).
      rewrite <- Binary.FF2R_B2FF, E. unfold Binary.FF2R, F2R. cbn [Fnum Fexp cond_Zopp].
      change (bpow radix2 (-27)) with (/ IZR (2 ^ 27)). simpl Z.pow. lra.
  Qed.

  Lemma filter_le {A} (f g : A -> bool) l : (forall a, In a l -> f a = true -> g a = true) ->
    (List.length (filter f l) <= List.length (filter g l) <= List.length l)%nat.
  Proof.
    induction l as [|a l IH]; intros H; [cbn; lia|]. specialize (IH (fun b Hb => H b (or_intror Hb))).
    cbn [filter]. pose proof (H a (or_introl eq_refl)) as Ha.
    destruct (f a) eqn:Fa; [rewrite Ha by reflexivity; cbn; lia|]. destruct (g a); cbn; lia.
  Qed.
  Lemma low_solutions k runs n : List.length (filter (solution_low k) (combine (seq n (List.length runs)) (map (fun r => Some (sr_point r)) runs))) =
    List.length (filter (low k) runs).
  Proof.
    revert n. induction runs as [|r runs IH]; intros n; [reflexivity|]. cbn [List.length seq map combine filter].
    specialize (IH (S n)). unfold solution_low at 1, low at 1. cbn [snd]. destruct (leb (snd (sr_point r)) k); cbn [List.length]; now rewrite IH.
  Qed.
  Lemma report_counts answer delta k runs rp : (forall r, In r runs -> low k r = true -> near np32 answer delta r = true) ->
    reports np32 np64 answer delta runs rp -> counts_low np64 k rp.
  Proof.
    intros H (N & So & _ & E & _). exists (List.length (filter (near np32 answer delta) runs)). rewrite N, So, low_solutions.
    split; [|exact E]. apply filter_le. exact H.
  Qed.
  Lemma good_concat (good : stat_run -> Prop) m per arrivals : Forall (fun runs => List.length runs = m /\ Forall good runs) per ->
    forall r, In r (List.concat (map (fun i => nth i per []) arrivals)) -> good r.
  Proof.
    intros P r Hr. apply in_concat in Hr. destruct Hr as (l & Hl & Hr). apply in_map_iff in Hl. destruct Hl as (i & <- & _).
    destruct (Nat.lt_ge_cases i (List.length per)) as [L|L].
    - rewrite Forall_forall in P. destruct (P _ (nth_In per [] L)) as [_ G]. rewrite Forall_forall in G. exact (G r Hr).
    - rewrite nth_overflow in Hr by exact L. destruct Hr.
  Qed.
  Lemma all_count answer delta total good main k : reports_all np32 np64 answer delta total good main ->
    (forall r, good r -> low k r = true -> near np32 answer delta r = true) -> always_counts_low np64 k total main.
  Proof.
    intros R G streams arrivals rp L P H. destruct (R streams L) as (per & _ & Q & T). destruct (T arrivals P) as (rp' & H' & Rp).
    rewrite H in H'. apply ret_inj in H'. subst rp'. refine (report_counts answer delta k _ rp _ Rp).
    intros r Hr. apply G. exact (good_concat good _ per arrivals Q r Hr).
  Qed.
  Lemma ended_count answer delta total good main k : reports_ended np32 np64 answer delta total good main ->
    (forall r, good r -> low k r = true -> near np32 answer delta r = true) -> always_counts_low np64 k total main.
  Proof.
    intros R G streams arrivals rp L P H. destruct (R streams L) as (per & _ & T). destruct (T arrivals P) as [H'|(rp' & H' & Rp & Q)];
      rewrite H in H'; [discriminate H'|]. apply ret_inj in H'. subst rp'. refine (report_counts answer delta k _ rp _ Rp).
    intros r Hr. apply G. exact (good_concat good _ per arrivals Q r Hr).
  Qed.
  Lemma genetic_schwefel_count dbg fuel : trig_near sin (1 / 10 ^ 6) 500 (@fsin f32 LM) -> (3000 < fuel)%nat ->
    always_counts_low np64 (decimal64 9 2) 1000 (genetic_schwefel_statistics np32 np64 dbg fuel).
  Proof.
    intros C F. apply (all_count _ _ _ _ _ _ (@genetic_schwefel_reports np32 np64 LM dbg fuel (proj1 C) F)).
    intros r. apply (schwefel_success _ _ r C).
  Qed.
  Lemma genetic_rosenbrock_count dbg fuel : always_counts_low np64 (decimal64 1 5) 100 (genetic_rosenbrock_statistics np32 np64 dbg fuel).
  Proof.
    apply (ended_count _ _ _ _ _ _ (@genetic_rosenbrock_reports np32 np64 LM dbg fuel)). intros r. apply (rosenbrock_success _ _ r).
  Qed.
  Lemma particleswarm_schwefel_count fuel : trig_near sin (1 / 10 ^ 6) 500 (@fsin f32 LM) -> (3000 < fuel)%nat ->
    always_counts_low np64 (decimal64 9 2) 1000 (particleswarm_schwefel_statistics np32 np64 fuel).
  Proof.
    intros C F. apply (all_count _ _ _ _ _ _ (@particleswarm_schwefel_reports np32 np64 LM true fuel (proj1 C) F)).
    intros r. apply (schwefel_success _ _ r C).
  Qed.
  Lemma particleswarm_rosenbrock_count dbg : exists B, forall fuel, (B < fuel)%nat ->
    always_counts_low np64 (decimal64 1 5) 1000 (particleswarm_rosenbrock_statistics np32 np64 dbg fuel).
  Proof.
    destruct (@particleswarm_rosenbrock_reports np32 np64 dbg) as [B HB]. exists B. intros fuel F.
    apply (all_count _ _ _ _ _ _ (HB fuel F)). intros r. apply (rosenbrock_success _ _ r).
  Qed.
  Lemma particleswarm_full_count dbg fuel : trig_near sin (1 / 10 ^ 6) 500 (@fsin f32 LM) -> (1000 < fuel)%nat ->
    always_counts_low np64 (decimal64 9 2) 1000 (particleswarm_schwefel_statistics_full np32 np64 dbg fuel).
  Proof.
    intros C F. apply (all_count _ _ _ _ _ _ (@particleswarm_full_reports np32 np64 LM dbg fuel (proj1 C) F)).
    intros r. apply (schwefel_success _ _ r C).
  Qed.
  Lemma schwefel_inertia_count dbg fuel : trig_near sin (1 / 10 ^ 6) 500 (@fsin f32 LM) -> (400 < fuel)%nat ->
    always_counts_low np64 (decimal64 9 2) 1000 (particleswarm_schwefel_statistics_inertia np32 np64 dbg fuel).
  Proof.
    intros C F. apply (all_count _ _ _ _ _ _ (@schwefel_inertia_reports np32 np64 LM dbg fuel (proj1 C) F)).
    intros r. apply (schwefel_success _ _ r C).
  Qed.
  Lemma rastrigin_inertia_count dbg fuel : trig_near cos (1 / 10 ^ 6) 48 (@fcos f32 LM) -> (400 < fuel)%nat ->
    always_counts_low np64 (decimal64 2 1) 1000 (particleswarm_rastrigin_statistics_inertia np32 np64 dbg fuel).
  Proof.
    intros C F. apply (all_count _ _ _ _ _ _ (@rastrigin_inertia_reports np32 np64 LM dbg fuel (proj1 C) F)).
    intros r. apply (rastrigin_success _ _ r C).
  Qed.
  (** A swarm that stops before the last iteration has found the answer. *)
  Lemma early_success calls r : trig_near sin (1 / 10 ^ 6) 500 (@fsin f32 LM) ->
    good_run schwef (int_cube 3 (-500) 500) [Below (decimal64 1 8); After 3000] calls r ->
    (List.length (sr_row r) < 3000)%nat -> near np32 (decimal32 4209687 4) (b_of_Z 1) r = true.
  Proof.
    intros C G L. apply (schwefel_success _ calls r C G). destruct G as (S & St & _).
    inversion St as [x l H E|x l H E]; subst; cbn in H.
    - unfold low. apply leb_key in H. destruct H as (N1 & N2 & H). apply leb_key. split; [exact N1|]. split; [vm_compute; reflexivity|].
      eapply Rle_trans; [exact H|]. rewrite !key_finite by (vm_compute; reflexivity).
      assert (Q : leb (decimal64 1 8) (decimal64 9 2) = true) by (vm_compute; reflexivity).
      apply leb_real in Q; [exact Q|vm_compute; reflexivity|vm_compute; reflexivity].
    - inversion H as [y m H' E'|y m H' E']; subst; cbn in H'; [lia|inversion H'].
  Qed.
End Boxes.

(** ** What the example programs report *)
Section Programs.
  Context {W : Type}.
  Variables (write : string -> comp W bool) (now : comp W Z).
  Variable fmt : formatter f32.
  Variables (np32 : nan_policy 24 128) (np64 : nan_policy 53 1024).
  Context {LM : Libm f32}.
  Variable dbg : bool.
  Hypothesis Hwrite : accepts write.
  Hypothesis Hnow : ticks now.
  Lemma genetic_paraboloid_low fuel r (w : W) x v s' u' t : (3000 < fuel)%nat -> ga_main (@genetic_paraboloid W write now fmt np32 np64 LM dbg) fuel r w = (Ret (Some (x, v), s'), u', t) -> forall k, 0 <= k -> R64 v <= k² -> all_near (k + k / 10 ^ 6 + 1 / 10 ^ 19) staircase x.
  Proof.
    intros Hf H. destruct (genetic_paraboloid_ends write now fmt np32 np64 dbg Hwrite Hnow fuel r w) as (x' & v' & p & u1 & t1 & E & S & _); [exact Hf|].
    pose proof (same_point _ _ _ _ _ _ _ _ _ _ (eq_trans (eq_sym E) H)) as [-> ->]. intros k. exact (paraboloid_box_low np32 np64 _ _ k S).
  Qed.
  Lemma genetic_rastrigin_low fuel r (w : W) x v s' u' t : trig_near cos (1 / 10 ^ 6) 48 (@fcos f32 LM) -> (3000 < fuel)%nat -> ga_main (@genetic_rastrigin W write now fmt np32 np64 LM dbg) fuel r w = (Ret (Some (x, v), s'), u', t) -> forall s, 0 <= s <= 1 / 2 -> R64 v <= s² - 1 / 100 -> all_near (s / 9) (everywhere 0) x.
  Proof.
    intros C Hf H. destruct (genetic_rastrigin_ends write now fmt np32 np64 dbg Hwrite Hnow fuel r w) as (x' & v' & p & u1 & t1 & E & S & _); [exact (proj1 C)|exact Hf|].
    pose proof (same_point _ _ _ _ _ _ _ _ _ _ (eq_trans (eq_sym E) H)) as [-> ->]. intros s. exact (rastrigin_box_low np32 np64 30 (1 / 100) _ _ s C ltac:(auto) S).
  Qed.
  Lemma genetic_schwefel_low fuel r (w : W) x v s' u' t : trig_near sin (1 / 10 ^ 6) 500 (@fsin f32 LM) -> (3000 < fuel)%nat -> ga_main (@genetic_schwefel W write now fmt np32 np64 LM dbg) fuel r w = (Ret (Some (x, v), s'), u', t) -> forall s, 0 <= s <= 1 -> R64 v <= s² - 1 / 25 -> all_near (313 / 100 * s + 1 / 10 ^ 4) (everywhere schwefel_answer) x.
  Proof.
    intros C Hf H. destruct (genetic_schwefel_ends write now fmt np32 np64 dbg Hwrite Hnow fuel r w) as (x' & v' & p & u1 & t1 & E & S & _); [exact (proj1 C)|exact Hf|].
    pose proof (same_point _ _ _ _ _ _ _ _ _ _ (eq_trans (eq_sym E) H)) as [-> ->]. intros s. exact (schwefel_box_low np32 np64 15 (1 / 25) _ _ s C ltac:(auto) S).
  Qed.
  Lemma genetic_rosenbrock_low fuel r (w : W) x v s' u' t : ga_main (@genetic_rosenbrock W write now fmt np32 np64 LM dbg) fuel r w = (Ret (Some (x, v), s'), u', t) -> forall k, 0 <= k <= 1 / 10 -> R64 v <= k² -> all_near (23 / 10 * (k + 1 / 10 ^ 5)) (everywhere 1) x.
  Proof.
    intros H. destruct (genetic_rosenbrock_runs write now fmt np32 np64 dbg Hwrite Hnow fuel r w) as [_ K].
    destruct (K _ _ _ _ H) as (x' & v' & E & S & _). injection E as <- <-. intros k. exact (rosenbrock_box_low np32 np64 _ _ k S).
  Qed.
  Lemma particleswarm_paraboloid_low fuel r (w : W) x v s' u' t : (3000 < fuel)%nat -> pso_main np32 (@particleswarm_paraboloid W write now fmt np32 np64 dbg) fuel r w = (Ret (Some (x, v), s'), u', t) -> forall k, 0 <= k -> R64 v <= k² -> all_near (k + k / 10 ^ 6 + 1 / 10 ^ 19) staircase x.
  Proof.
    intros Hf H. destruct (particleswarm_paraboloid_ends write now fmt np32 np64 dbg Hwrite Hnow fuel r w) as (x' & v' & p & u1 & t1 & E & S & _); [exact Hf|].
    pose proof (same_point _ _ _ _ _ _ _ _ _ _ (eq_trans (eq_sym E) H)) as [-> ->]. intros k. exact (paraboloid_box_low np32 np64 _ _ k S).
  Qed.
  Lemma particleswarm_rastrigin_low fuel r (w : W) x v s' u' t : trig_near cos (1 / 10 ^ 6) 48 (@fcos f32 LM) -> (3000 < fuel)%nat -> pso_main np32 (@particleswarm_rastrigin W write now fmt np32 np64 LM dbg) fuel r w = (Ret (Some (x, v), s'), u', t) -> forall s, 0 <= s <= 1 / 2 -> R64 v <= s² - 1 / 2000 -> all_near (s / 9) (everywhere 0) x.
  Proof.
    intros C Hf H. destruct (particleswarm_rastrigin_ends write now fmt np32 np64 dbg Hwrite Hnow fuel r w) as (x' & v' & p & u1 & t1 & E & S & _); [exact (proj1 C)|exact Hf|].
    pose proof (same_point _ _ _ _ _ _ _ _ _ _ (eq_trans (eq_sym E) H)) as [-> ->]. intros s. exact (rastrigin_box_low np32 np64 3 (1 / 2000) _ _ s C ltac:(auto) S).
  Qed.
  Lemma particleswarm_schwefel_low fuel r (w : W) x v s' u' t : trig_near sin (1 / 10 ^ 6) 500 (@fsin f32 LM) -> (3000 < fuel)%nat -> pso_main np32 (@particleswarm_schwefel W write now fmt np32 np64 LM dbg) fuel r w = (Ret (Some (x, v), s'), u', t) -> forall s, 0 <= s <= 1 -> R64 v <= s² - 1 / 200 -> all_near (313 / 100 * s + 1 / 10 ^ 4) (everywhere schwefel_answer) x.
  Proof.
    intros C Hf H. destruct (particleswarm_schwefel_ends write now fmt np32 np64 dbg Hwrite Hnow fuel r w) as (x' & v' & p & u1 & t1 & E & S & _); [exact (proj1 C)|exact Hf|].
    pose proof (same_point _ _ _ _ _ _ _ _ _ _ (eq_trans (eq_sym E) H)) as [-> ->]. intros s. exact (schwefel_box_low np32 np64 3 (1 / 200) _ _ s C ltac:(auto) S).
  Qed.
  Lemma particleswarm_rosenbrock_low fuel r (w : W) x v s' u' t : (3000 < fuel)%nat -> pso_main np32 (@particleswarm_rosenbrock W write now fmt np32 np64 dbg) fuel r w = (Ret (Some (x, v), s'), u', t) -> forall k, 0 <= k <= 1 / 10 -> R64 v <= k² -> all_near (23 / 10 * (k + 1 / 10 ^ 5)) (everywhere 1) x.
  Proof.
    intros Hf H. destruct (particleswarm_rosenbrock_ends write now fmt np32 np64 dbg Hwrite Hnow fuel r w) as (x' & v' & p & u1 & t1 & E & S & _); [exact Hf|].
    pose proof (same_point _ _ _ _ _ _ _ _ _ _ (eq_trans (eq_sym E) H)) as [-> ->]. intros k. exact (rosenbrock_box_low np32 np64 _ _ k S).
  Qed.
End Programs.
