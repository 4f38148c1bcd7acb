(** * A program's components at work, for the examples of C103 *)

From Coq Require Import List Arith ZArith Bool Reals Lra Lia.
From Flocq Require Import IEEE754.Binary.
From Verif Require Import Base FloatModel Rng GaModel PsoModel StopModel TestFuncModel ExampleModel StatModel StatProgramModel
  SpecExample SpecStop SpecVel SpecReal SpecPace SpecRand SpecSettings ArithFacts SettingFacts ExampleAsserts.
Import ListNotations.

Notation np32 := np32_default.
Notation np64 := np64_default.
Notation vec := (list f32).
Definition at_start : world unit := World (fun _ => 0%Z) gnc_new None tt.

(** Asking a list of questions. *)
Fixpoint answers {U} (qs : list (comp U bool)) (u : U) : option (list bool) :=
  match qs with
  | [] => Some []
  | q :: qs' => match q u with
                | (Ret b, u1) => option_map (cons b) (answers qs' u1)
                | _ => None
                end
  end.
Lemma answers_asked {U} (qs : list (comp U bool)) : forall u bs, answers qs u = Some bs -> exists u', asked qs u bs u'.
Proof.
  induction qs as [|q qs IH]; intros u bs H; cbn [answers] in H.
  - injection H as <-. exists u. constructor.
  - destruct (q u) as [[b| |] u1] eqn:E; try discriminate. destruct (answers qs u1) as [bs'|] eqn:A; try discriminate.
    injection H as <-. destruct (IH u1 bs' A) as [u' H']. exists u'. econstructor; eauto.
Qed.
Definition same_answers (a : option (list bool)) (bs : list bool) : bool :=
  match a with Some l => if list_eq_dec bool_dec l bs then true else false | None => false end.
Lemma same_answers_eq a bs : same_answers a bs = true -> a = Some bs.
Proof. unfold same_answers. destruct a as [l|]; [|discriminate]. destruct (list_eq_dec bool_dec l bs); congruence. Qed.

(** The best value stays 5 from the first iteration on. *)
Definition quiet (i : nat) : alg_state vec := AlgState (Some ([b_of_Z 1], b_of_Z 5)) i.
Definition test_program : outcome (ga_config (world unit) vec) := test_genetic_paraboloid (LM := demo_libm32) np32 np64 true.
Lemma demo_quiet : exists cfg, test_program = Ret cfg /\
  not_decreasing (map as_iter (map quiet (seq 1 151) ++ [quiet 152])) /\
  exists u1, asked (map (ga_stop cfg) (map quiet (seq 1 151))) at_start (repeat false 151) u1 /\
    Exists (applies np64 (map quiet (seq 1 151)) (quiet 152)) [AtMost (decimal64 1 6); Steady 150 (decimal64 1 7); Iterations 5000].
Proof.
  destruct (ga_test_paraboloid_set (LM := demo_libm32) (W := unit) np32 np64 true) as [cfg [E [_ [_ St]]]]. exists cfg. split; [exact E|].
  assert (Hn : not_decreasing (map as_iter (map quiet (seq 1 151) ++ [quiet 152]))).
  { assert (K : forall n i, not_decreasing (map as_iter (map quiet (seq i n) ++ [quiet (i + n)]))).
    { induction n as [|n IH]; intros i; cbn [seq map app].
      - repeat constructor.
      - split; [|specialize (IH (S i)); now rewrite Nat.add_succ_comm in IH].
        rewrite map_app, map_map. apply Forall_app. split; [|constructor; [cbn; apply Nat.le_add_r|constructor]].
        apply Forall_map. apply Forall_forall. intros j Hj. apply in_seq in Hj. cbn [quiet as_iter]. apply Nat.lt_le_incl, Hj. }
    exact (K 151 1). }
  split; [exact Hn|].
  assert (A1 : match test_program with Ret c => same_answers (answers (map (ga_stop c) (map quiet (seq 1 151))) at_start) (repeat false 151) | _ => false end = true)
    by (vm_compute; reflexivity).
  assert (A2 : match test_program with Ret c => same_answers (answers (map (ga_stop c) (map quiet (seq 1 152))) at_start) (repeat false 151 ++ [true]) | _ => false end = true)
    by (vm_compute; reflexivity).
  change (test_program = Ret cfg) in E. rewrite E in A1, A2. apply same_answers_eq, answers_asked in A1. destruct A1 as [u1 A1].
  exists u1. split; [exact A1|].
  destruct (St (map quiet (seq 1 151)) (quiet 152) at_start u1 eq_refl Hn A1) as [b [u2 [Eb Kb]]].
  apply Kb. apply same_answers_eq in A2.
  assert (S : seq 1 152 = (seq 1 151 ++ [152])%list) by (vm_compute; reflexivity). rewrite S, !map_app in A2.
  assert (G : forall (qs : list (comp (world unit) bool)) q u u' bs b u2, asked qs u bs u' -> q u' = (Ret b, u2) -> answers (qs ++ [q]) u = Some (bs ++ [b])%list).
  { clear. induction 1 as [x|q0 qs0 x b0 v bs0 v2 Hq _ IH]; intros Hl; cbn [app answers].
    - rewrite Hl. reflexivity.
    - rewrite Hq, (IH Hl). reflexivity. }
  change (map (ga_stop cfg) (map quiet [152])) with [ga_stop cfg (quiet 152)] in A2.
  pose proof (eq_trans (eq_sym (G _ _ _ _ _ _ _ A1 Eb)) A2) as A3. clear A2. rename A3 into A2. apply (f_equal (fun o => match o with Some l => last l false | None => false end)) in A2.
  rewrite !last_last in A2. exact A2.
Qed.

(** Three draws of bit 0 after the draw of 0 percent. *)
Lemma demo_mutation : exists cfg, test_program = Ret cfg /\
  exists y u, ga_mutation cfg [b_of_Z 1] at_start = (Ret [y], u) /\ to_bits32 y = (to_bits32 (b_of_Z 1) + 1)%Z.
Proof.
  destruct (ga_test_paraboloid_set (LM := demo_libm32) (W := unit) np32 np64 true) as [cfg [E _]]. exists cfg. split; [exact E|].
  assert (A : match test_program with Ret c => match ga_mutation c [b_of_Z 1] at_start with (Ret [y], _) => (to_bits32 y =? to_bits32 (b_of_Z 1) + 1)%Z | _ => false end | _ => false end = true)
    by (vm_compute; reflexivity).
  change (test_program = Ret cfg) in E. rewrite E in A. clear E.
  destruct (ga_mutation cfg [b_of_Z 1] at_start) as [[[|y []]| |] u]; try discriminate. apply Z.eqb_eq in A. eauto.
Qed.

(** A particle that covers everything the calculators use. *)
Definition here : particle f32 := Particle [b_of_Z 1; b_of_Z 2] [b_of_Z 0; b_of_Z 1] (b_of_Z 3) [b_of_Z 1; b_of_Z 0] (b_of_Z 1) [b_of_Z 4; b_of_Z 4] (b_of_Z 9).
Definition there : particle f32 := Particle [b_of_Z 0; b_of_Z 0] [b_of_Z 0; b_of_Z 0] (b_of_Z 0) [b_of_Z 0; b_of_Z 0] (b_of_Z 0) [b_of_Z 0; b_of_Z 0] (b_of_Z 0).
Definition two : swarm f32 := Swarm [here; there] (Some there) (Some here) 3.
Definition all_ones : world unit := World (fun _ => to_bits32 (b_of_Z 1)) gnc_new None tt.
Lemma demo_velocity :
  best_particle two = Some there /\ covers here (velocity here) /\ covers here (best_personal_coordinates here) /\
  covers here (coordinates there) /\
  exists cfg, test_particleswarm_paraboloid (W := unit) np32 np64 true = Ret cfg /\
    exists y u, pso_calc cfg two here all_ones = (Ret y, u) /\
      map (fun v => ltb v (b_of_Z 0)) y = [true; true].
Proof.
  split; [reflexivity|]. split; [vm_compute; repeat constructor|]. split; [vm_compute; repeat constructor|].
  split; [vm_compute; repeat constructor|].
  destruct (pso_test_paraboloid_set (W := unit) np32 np64 true) as [cfg [E _]]. exists cfg. split; [exact E|].
  set (prog := test_particleswarm_paraboloid (W := unit) np32 np64 true) in *.
  assert (A : match prog with
      | Ret c => match pso_calc c two here all_ones with (Ret y, _) => if list_eq_dec bool_dec (map (fun v => ltb v (b_of_Z 0)) y) [true; true] then true else false | _ => false end
      | _ => false end = true) by (vm_compute; reflexivity).
  rewrite E in A. clear E. destruct (pso_calc cfg two here all_ones) as [[y| |] u]; try discriminate.
  destruct (list_eq_dec _ _ _) as [L|] in A; [|discriminate]. eauto.
Qed.

Lemma demo_fast : bounded 3 (2 ^ 20) [b_of_Z 1000; b_of_Z 0; b_of_Z 0 : f32] /\
  (700 * (1 + / 100000) <= speed [b_of_Z 1000; b_of_Z 0; b_of_Z 0 : f32])%R /\
  (speed [b_of_Z 6; b_of_Z 0; b_of_Z 0 : f32] <= 700 * (1 - / 100000))%R.
Proof.
  destruct (of_Z_exact (prec := 24) (emax := 128) 1000) as [F1 E1]; [simpl Z.abs; lia|].
  destruct (of_Z_exact (prec := 24) (emax := 128) 0) as [F0 E0]; [simpl Z.abs; lia|].
  destruct (of_Z_exact (prec := 24) (emax := 128) 6) as [F6 E6]; [simpl Z.abs; lia|].
  assert (P : (2 ^ 20 = 1048576)%R) by (simpl pow; lra).
  split; [|split].
  - split; [reflexivity|]. rewrite P. repeat constructor; auto; rewrite ?E1, ?E0, Rabs_pos_eq; lra.
  - unfold speed, length2. cbn [map fold_right]. rewrite E1, E0.
    replace (1000 * 1000 + (0 * 0 + (0 * 0 + 0)))%R with (1000 * 1000)%R by ring. rewrite sqrt_square; lra.
  - unfold speed, length2. cbn [map fold_right]. rewrite E6, E0.
    replace (6 * 6 + (0 * 0 + (0 * 0 + 0)))%R with (6 * 6)%R by ring. rewrite sqrt_square; lra.
Qed.
Lemma demo_leap : ltb (@drawn_excl f32 (FloatIEEE np32) _ (b_of_Z 0) (b_of_Z 1) (w_rng at_start) 0) (decimal32 5 2) = true /\
  leb (decimal32 5 2) (@drawn_excl f32 (FloatIEEE np32) _ (b_of_Z 0) (b_of_Z 1) (fun _ => 1056964608%Z) 0) = true.
Proof. split; [rewrite <- lit_0_05; vm_compute; reflexivity|rewrite <- lit_0_05; vm_compute; reflexivity]. Qed.
