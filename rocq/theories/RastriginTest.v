(** * The Rastrigin function in f32 and f64, and the assertions of the test *)

From Coq Require Import List Arith ZArith Bool Lia Reals Lra.
From Flocq Require Import Core IEEE754.BinarySingleNaN IEEE754.Binary.
From Verif Require Import Base FloatModel GaModel TestFuncModel ExampleModel FloatFacts ArithFacts SatFacts SpecStat SpecReal SpecTest
  SpecBox SpecExample StatFacts CreateFacts TestFacts RangeFacts ExampleRuns ExampleAsserts AssertFacts RastriginFacts GaStandard PostFacts.
Import ListNotations.
Local Open Scope nat_scope.

Lemma wave_64_value (np : nan_policy 53 1024) :
  (628 / 100 <= Binary.B2R 53 1024 (b_mul np (b_of_Z 2) (@fof_f64 f64 (FloatIEEE np) pi_const)) <= 63 / 10)%R.
Proof.
  rewrite (B2R_of_FF _ 7074237752028433 (-50)) by (vm_compute; reflexivity).
  change (bpow radix2 (-50)) with (/ IZR (2 ^ 50))%R; simpl Z.pow; lra.
Qed.
Lemma wave_32_value (np : nan_policy 24 128) :
  (628 / 100 <= Binary.B2R 24 128 (b_mul np (b_of_Z 2) (@fof_f64 f32 (FloatIEEE np) pi_const)) <= 63 / 10)%R.
Proof.
  assert (E : Binary.B2FF 24 128 (b_mul np (b_of_Z 2) (@fof_f64 f32 (FloatIEEE np) pi_const)) =
              Binary.F754_finite false 13176795 (-21)) by (vm_compute; reflexivity).
  rewrite <- Binary.FF2R_B2FF, E. unfold Binary.FF2R, F2R. cbn [Fnum Fexp cond_Zopp].
  change (bpow radix2 (-21)) with (/ IZR (2 ^ 21))%R. simpl Z.pow; lra.
Qed.
Lemma small_value : is_finite (decimal64 78125 7) = true /\ Binary.B2R 53 1024 (decimal64 78125 7) = (1 / 128)%R.
Proof.
  split; [vm_compute; reflexivity|].
  rewrite (B2R_of_FF _ 4503599627370496 (-59)) by (vm_compute; reflexivity).
  change (bpow radix2 (-59)) with (/ IZR (2 ^ 59))%R; simpl Z.pow; lra.
Qed.
Lemma not_far {A} (f : A -> R) c l : ~ Exists (fun v => c <= f v)%R l -> Forall (fun v => f v < c)%R l.
Proof.
  intros H. apply Forall_forall. intros v Hv. apply Rnot_le_lt. intros C. apply H. apply Exists_exists. eauto.
Qed.

Lemma rastrigin_64_near (np : nan_policy 53 1024) (LM : Libm f64) (x : list f64) : cos_bounded fcos -> cos_near fcos ->
  (10240 * Z.of_nat (length x) <= 2 ^ 53)%Z ->
  Forall (fun v => is_finite v = true /\ (Rabs (Binary.B2R 53 1024 v) <= bpow radix2 1020)%R) x ->
  ltb (@rastrigin f64 (FloatIEEE np) LM ToF64_64 x) (decimal64 78125 7) = true ->
  Forall (fun v => Rabs (Binary.B2R 53 1024 v) < 99 / 10000)%R x.
Proof.
  intros Cb Cn L H K. apply ltb_key in K. destruct K as [_ [_ K]]. destruct small_value as [F V]. rewrite (key_finite _ F), V in K.
  apply not_far. intros E. destruct (wave_64 np) as [W1 _].
  destruct (rastrigin_far np (lit_64 np) ltac:(lia) ltac:(lia) W1 (wave_64_value np) Cb Cn x H L E) as [_ G].
  change (@rastrigin f64 (FloatIEEE np) LM ToF64_64 x) with (@rastrigin_g f64 (FloatIEEE np) LM x) in K. exact (Rlt_not_le _ _ K G).
Qed.
Lemma conv_small (np : f32 -> a_nan 53 1024) (g : f32) : is_nan g = false -> (1 / 128 <= key g)%R -> (key (fconv np g : f64) < 1 / 128)%R -> False.
Proof.
  intros N G K. destruct (inf_cases g N) as [Fg|[I|I]].
  - destruct (fconv_32_64 np g Fg) as [F' E']. rewrite (key_finite g Fg) in G.
    refine (Rlt_not_le _ _ (Rle_lt_trans _ _ _ (Req_le _ _ (eq_sym (eq_trans (key_finite _ F') E'))) K) G).
  - subst g. change (bpow radix2 1024 < 1 / 128)%R in K. pose proof (bpow_le radix2 0 1024 ltac:(lia)) as Q.
    change (bpow radix2 0) with 1%R in Q. lra.
  - subst g. change (1 / 128 <= - bpow radix2 128)%R in G. pose proof (bpow_gt_0 radix2 128). lra.
Qed.
Lemma rastrigin_32_near (np : nan_policy 24 128) (np64 : nan_policy 53 1024) (LM : Libm f32) (x : list f32) : cos_bounded fcos -> cos_near fcos ->
  (10240 * Z.of_nat (length x) <= 2 ^ 24)%Z ->
  Forall (fun v => is_finite v = true /\ (Rabs (Binary.B2R 24 128 v) <= bpow radix2 124)%R) x ->
  ltb (@rastrigin f32 (FloatIEEE np) LM (ToF64_32 np64) x) (decimal64 78125 7) = true ->
  Forall (fun v => Rabs (Binary.B2R 24 128 v) < 99 / 10000)%R x.
Proof.
  intros Cb Cn L H K. apply ltb_key in K. destruct K as [_ [_ K]]. destruct small_value as [F V]. rewrite (key_finite _ F), V in K.
  apply not_far. intros E. destruct (wave_32 np) as [W1 _].
  destruct (rastrigin_far np (lit_32 np) ltac:(lia) ltac:(lia) W1 (wave_32_value np) Cb Cn x H L E) as [N G].
  change (@rastrigin f32 (FloatIEEE np) LM (ToF64_32 np64) x) with (fconv (np_of32 np64) (@rastrigin_g f32 (FloatIEEE np) LM x) : f64) in K.
  exact (conv_small (np_of32 np64) _ N G K).
Qed.

(** ** The test *)
Lemma within_decimal z : (z = 512 \/ z = -512)%Z -> within 6 (decimal32 z 2).
Proof.
  intros Hz. split; [destruct Hz as [-> | ->]; vm_compute; reflexivity|].
  assert (E : Binary.B2FF 24 128 (decimal32 z 2) = Binary.F754_finite (z <? 0)%Z 10737418 (-21))
    by (destruct Hz as [-> | ->]; vm_compute; reflexivity).
  rewrite <- Binary.FF2R_B2FF, E. unfold Binary.FF2R, F2R. cbn [Fnum Fexp cond_Zopp].
  change (bpow radix2 (-21)) with (/ IZR (2 ^ 21))%R. simpl Z.pow.
  destruct (z <? 0)%Z; cbn [cond_Zopp]; [rewrite Rabs_left|rewrite Rabs_pos_eq]; simpl Z.opp; lra.
Qed.
Lemma below_small (v : f64) : leb v (decimal64 1 4) = true -> ltb v (decimal64 78125 7) = true /\ ltb v (decimal64 1 3) = true.
Proof.
  intros L. apply leb_key in L. destruct L as [N [_ L]].
  assert (A : ltb (decimal64 1 4) (decimal64 78125 7) = true) by (vm_compute; reflexivity).
  assert (B : ltb (decimal64 1 4) (decimal64 1 3) = true) by (vm_compute; reflexivity).
  apply ltb_key in A, B. destruct A as [_ [A1 A2]], B as [_ [B1 B2]].
  split; apply ltb_key; (split; [exact N|]); (split; [assumption|]); lra.
Qed.
Lemma hundredth : is_finite (decimal32 1 2) = true /\ (99 / 10000 < Binary.B2R 24 128 (decimal32 1 2))%R.
Proof.
  split; [vm_compute; reflexivity|].
  assert (E : Binary.B2FF 24 128 (decimal32 1 2) = Binary.F754_finite false 10737418 (-30)) by (vm_compute; reflexivity).
  rewrite <- Binary.FF2R_B2FF, E. unfold Binary.FF2R, F2R. cbn [Fnum Fexp cond_Zopp].
  change (bpow radix2 (-30)) with (/ IZR (2 ^ 30))%R. simpl Z.pow; lra.
Qed.
Lemma rastrigin_asserts_hold np32 np64 (LM : Libm f32) x v : cos_bounded (@fcos f32 LM) -> cos_near (@fcos f32 LM) ->
  solves (fun y => Ret (@rastrigin f32 (FloatIEEE np32) LM (ToF64_32 np64) y)) (cube 30 (decimal32 (-512) 2) (decimal32 512 2)) x v ->
  leb v (decimal64 1 4) = true -> genetic_rastrigin_asserts np32 (Some (x, v)) = Ret tt.
Proof.
  intros Cb Cn [Hb [Hv Fv]] Hl. injection Hv as Hv. destruct (below_small v Hl) as [L1 L2].
  assert (Lx : length x = 30) by (exact (eq_trans (in_box_length _ _ Hb) (repeat_length _ 30))).
  assert (Hx : Forall (fun a => is_finite a = true /\ (Rabs (Binary.B2R 24 128 a) <= bpow radix2 124)%R) x).
  { destruct (cube_within 30 (decimal32 (-512) 2) (decimal32 512 2) 6 x) as [_ W]; [| |exact Hb|].
    - apply within_decimal; auto.
    - apply within_decimal; auto.
    - eapply Forall_impl; [|exact W]. intros a [Fa Ba]. split; [exact Fa|].
      eapply Rle_trans; [exact Ba|]. pose proof (bpow_le radix2 3 124 ltac:(lia)) as Q. simpl (bpow radix2 3) in Q. lra. }
  rewrite <- Hv in L1. pose proof (rastrigin_32_near np32 np64 LM x Cb Cn ltac:(rewrite Lx; simpl; lia) Hx L1) as S.
  apply rastrigin_asserts_iff. exists x, v. split; [reflexivity|]. destruct hundredth as [Fh Vh]. split.
  - intros i Hi. destruct (nth_error x i) as [a|] eqn:E; [|apply nth_error_None in E; lia].
    exists a. split; [reflexivity|]. apply nth_error_In in E. rewrite Forall_forall in S, Hx. specialize (S a E). destruct (Hx a E) as [Fa _].
    destruct (sub_correct np32 a (b_of_Z 0) Fa eq_refl) as [F1 V1].
    + change (Binary.B2R 24 128 (b_of_Z 0)) with 0%R. rewrite Rminus_0_r, rnd_B2R. apply B2R_bound.
    + change (Binary.B2R 24 128 (b_of_Z 0)) with 0%R in V1. rewrite Rminus_0_r, rnd_B2R in V1.
      apply ltb_key. rewrite key_abs, (key_finite _ F1), (key_finite _ Fh), V1.
      split; [apply finite_not_nan; now rewrite finite_abs|]. split; [now apply finite_not_nan|].
      exact (Rlt_trans _ _ _ S Vh).
  - pose proof (rastrigin_32 np32 np64 LM x Cb ltac:(rewrite Lx; simpl; lia) Hx) as P. rewrite Hv in P.
    apply non_negative_key in P. destruct P as [_ P]. apply ltb_key in L2. destruct L2 as [M1 [M2 M3]].
    apply ltb_key. rewrite nan_abs, key_abs, Rabs_pos_eq by exact P. auto.
Qed.

Lemma hundred_not_nan : is_nan (decimal64 1 4) = false.
Proof. vm_compute. reflexivity. Qed.
Lemma not_below_4 (v : f64) i n k : ltb (decimal64 1 4) v = true ->
  stopped_by [Below (decimal64 1 4); Quiet n; After k] i v -> n < i \/ k <= i.
Proof.
  intros L S. apply Exists_cons in S. destruct S as [S|S].
  - simpl in S. apply leb_key in S. apply ltb_key in L. destruct S as [_ [_ S]], L as [_ [_ L]]. exfalso. lra.
  - apply Exists_cons in S. destruct S as [S|S]; [left; exact S|].
    apply Exists_cons in S. destruct S as [S|S]; [right; exact S|]. inversion S.
Qed.
Lemma test_genetic_rastrigin_passes (W : Type) (np32 : nan_policy 24 128) (np64 : nan_policy 53 1024) (LM : Libm f32) (dbg : bool) fuel r (w : W) :
  cos_bounded (@fcos f32 LM) -> cos_near (@fcos f32 LM) -> 3000 < fuel ->
  exists x v p' u' t,
    ga_main (@test_genetic_rastrigin W np32 np64 LM dbg) fuel r w = (Ret (Some (x, v), p'), u', t) /\
    (genetic_rastrigin_asserts np32 (Some (x, v)) = Ret tt \/
     ltb (decimal64 1 4) v = true /\ 200 < iteration p' <= 3000).
Proof.
  intros Cb Cn Hfu.
  destruct (@test_genetic_rastrigin_ends W discard (cret 0%Z) blank np32 np64 LM dbg discard_accepts zero_ticks fuel r w Cb Hfu)
    as [x [v [p' [u' [t [E [S [I R]]]]]]]].
  exists x, v, p', u', t. split; [exact E|].
  destruct (asserts_or_quiet (decimal64 1 4) v (genetic_rastrigin_asserts np32 (Some (x, v)) = Ret tt)) as [A|A].
  - apply S.
  - apply hundred_not_nan.
  - now apply (rastrigin_asserts_hold np32 np64 LM).
  - left. exact A.
  - right. split; [exact A|]. destruct (not_below_4 v _ _ _ A R); lia.
Qed.
