(** * The worst of a full population never gets worse: runs and programs *)

From Coq Require Import List Arith ZArith Bool Lia Reals Lra String.
From Flocq Require Import Core IEEE754.BinarySingleNaN IEEE754.Binary.
From Verif Require Import Base Logic FloatModel Rng FloatFacts ArithFacts GaModel GaComponents StopModel LogModel TestFuncModel ExampleModel
  SpecGa SpecBox SpecRand SpecStandard SpecPossible SpecTest SpecExample SpecStat SpecWorst
  RandFacts CreateFacts PsoStandard PossibleFacts PossibleRuns GaStandard ExampleFacts ExampleRuns ExampleAsserts TestFacts RastriginTest WorstFacts.
Import ListNotations.

(** ** The first population *)
Lemma bind_first {U E A B} (m : M U E A) (k : A -> M U E B) u b u' t : mbind m k u = (Ret b, u', t) ->
  exists a u1 t1, m u = (Ret a, u1, t1) /\ incl t1 t.
Proof.
  unfold mbind. destruct (m u) as [[[a| |] u1] t1]; try discriminate. destruct (k a u1) as [[o u2] t2]. intros H. injection H as _ _ <-.
  exists a, u1, t1. split; [reflexivity|]. intros e He. apply in_or_app. now left.
Qed.
Lemma find_created {U T} (cfg : ga_config U T) fuel p u r u' t : ga_find_min cfg fuel p u = (Ret r, u', t) ->
  exists xs u1, ga_creator cfg u = (Ret xs, u1) /\ started_from t xs.
Proof.
  unfold ga_find_min. cbv zeta. intros H. destruct (bind_first _ _ _ _ _ _ H) as (xs & u1 & t1 & E & In1).
  unfold call_comp, mbind, call, emit, mret in E. destruct (ga_creator cfg u) as [[ys| |] u2]; try discriminate E.
  injection E as <- <- <-. exists ys, u2. split; [reflexivity|]. apply In1. left. reflexivity.
Qed.

Lemma greatest {T} (f : T -> outcome f64) (xs : list T) : xs <> [] -> Forall (fun x => exists v, f x = Ret v /\ is_finite v = true) xs ->
  exists x0 v0, In x0 xs /\ f x0 = Ret v0 /\ forall x v, In x xs -> f x = Ret v -> leb v v0 = true.
Proof.
  intros N F. induction F as [|x xs (v & Ev & Fv) F IH]; [congruence|].
  assert (R : forall a : f64, is_finite a = true -> leb a a = true).
  { intros a Fa. apply leb_key. split; [now apply finite_not_nan|]. split; [now apply finite_not_nan|lra]. }
  destruct xs as [|y ys].
  - exists x, v. split; [now left|]. split; [exact Ev|]. intros x' v' [<-|[]] E. rewrite Ev in E. injection E as <-. now apply R.
  - destruct IH as (x0 & v0 & I0 & E0 & M); [discriminate|].
    assert (F0 : is_finite v0 = true) by (rewrite Forall_forall in F; destruct (F x0 I0) as (v' & E' & F'); rewrite E0 in E'; injection E' as <-; exact F').
    destruct (leb v v0) eqn:C.
    + exists x0, v0. split; [now right|]. split; [exact E0|]. intros x' v' [<-|I'] E; [rewrite Ev in E; injection E as <-; exact C|]. exact (M x' v' I' E).
    + assert (C' : leb v0 v = true).
      { apply leb_key. split; [now apply finite_not_nan|]. split; [now apply finite_not_nan|].
        apply Rnot_lt_le. intros L. rewrite (proj2 (leb_key v v0)) in C; [discriminate|].
        split; [now apply finite_not_nan|]. split; [now apply finite_not_nan|lra]. }
      exists x, v. split; [now left|]. split; [exact Ev|]. intros x' v' [<-|I'] E; [rewrite Ev in E; injection E as <-; now apply R|].
      exact (leb_trans _ _ _ (M x' v' I' E) C').
Qed.

Lemma find_no_worse {U T} (cfg : ga_config U T) (f : T -> outcome f64) n : 0 < n ->
  ga_selections cfg = [fun p => cret (kill_fitness_nan p); fun p => cpure (limit_population n p)] ->
  ga_goal cfg = (fun x => cpure (f x)) ->
  forall fuel p u x v p' u' t xs u1, ga_creator cfg u = (Ret xs, u1) -> List.length xs = n ->
    Forall (fun x => exists v, f x = Ret v /\ is_finite v = true) xs ->
    ga_find_min cfg fuel p u = (Ret (Some (x, v), p'), u', t) -> no_worse_than_worst f xs v.
Proof.
  intros Hn Hs Hg fuel p u x v p' u' t xs u1 Hc L F H.
  destruct (greatest f xs) as (x0 & v0 & I0 & E0 & M); [destruct xs; [cbn in L; lia|discriminate]|exact F|].
  exists x0, v0. split; [exact I0|]. split; [exact E0|].
  destruct (worst_find cfg n v0 Hn Hs fuel p u (Ret (Some (x, v), p')) u' t) as [_ R]; [|exact H|].
  - intros xs' u1' E. rewrite Hc in E. injection E as <- _. split; [exact L|].
    rewrite Forall_forall in F |- *. intros y Hy u2 w u3 E. rewrite Hg in E. unfold cpure in E. injection E as E _.
    destruct (F y Hy) as (w' & Ew & Fw). rewrite Ew in E. injection E as <-. split; [exact Fw|]. exact (M y _ Hy Ew).
  - exact (proj2 (proj2 (R _ _ eq_refl) x v eq_refl)).
Qed.

(** ** The programs *)
Section Programs.
  Context {W : Type}.
  Variables (np32 : nan_policy 24 128) (np64 : nan_policy 53 1024).
  Context {LM : Libm f32}.
  Variable dbg : bool.
  Section General.
    Variables (lo hi : f32) (n d : nat) (f : list f32 -> outcome f64) (pairing : population (list f32) -> comp rng (list (list nat))) (prob : f64)
      (stop : stop_checker (world W) (list f32)) (loggers : list (logger (world W) (list f32))).
    Notation program := (@ga_program W np32 np64 LM dbg lo hi n d (fun x => cpure (f x)) pairing prob (Ret stop) loggers).
    Hypothesis Hlh : ltb lo hi = true.
    Hypothesis Hlo : is_finite lo = true.
    Hypothesis Hhi : is_finite hi = true.
    Hypothesis Hn : 0 < n.
    Hypothesis Hd : 0 < d.
    Hypothesis Hf : forall x, in_box (cube d lo hi) x -> exists v, f x = Ret v /\ is_finite v = true.

    Lemma good_cube : good_intervals32 (cube d lo hi).
    Proof. intros a b H. apply repeat_spec in H. injection H as -> ->. auto. Qed.
    Lemma creator_is : @random_creator_new f32 (NumGene32 np64 np32) n (cube d lo hi) = Ret (RandomCreator n (cube d lo hi)).
    Proof.
      apply new_creator; [exact Hn|destruct d; [lia|discriminate]|]. intros [a b] H. apply repeat_spec in H. injection H as -> ->. exact Hlh.
    Qed.
    Lemma program_no_worse fuel r (w : W) x v p' u' t : ga_main program fuel r w = (Ret (Some (x, v), p'), u', t) ->
      exists xs, started_from t xs /\ List.length xs = n /\ Forall (in_box (cube d lo hi)) xs /\ no_worse_than_worst f xs v.
    Proof.
      unfold ga_program, Gene32, Float32. fold (cube d lo hi). rewrite creator_is. cbn [obind ga_main]. intros H.
      destruct (find_created _ _ _ _ _ _ _ H) as (xs & u1 & Hc & Ht).
      assert (Hx : List.length xs = n /\ Forall (in_box (cube d lo hi)) xs).
      { cbn [ga_set_loggers ga_new ga_creator] in Hc. unfold zoom in Hc. cbn [lget at_rng w_rng] in Hc.
        destruct (random_creator_f32 np64 np32 n (cube d lo hi) (RandomCreator n (cube d lo hi)) r) as [vs [E [Lv Hv]]];
          [exact creator_is|intros [a b] H'; exact (proj2 (good_cube a b H'))|].
        rewrite E in Hc. injection Hc as <- _. split; [exact Lv|].
        apply Forall_forall. intros y Hy. apply In_nth_error in Hy. destruct Hy as [j Hj].
        destruct (Hv j y Hj) as [L1 L2]. apply nth_box; [apply good_intervals_box32; exact good_cube|auto|]. intros k g a b Hg Hi. apply (L2 k g a b Hg Hi). }
      exists xs. split; [exact Ht|]. split; [apply Hx|]. split; [apply Hx|].
      eapply (find_no_worse _ f n Hn) with (6 := H); [reflexivity|reflexivity|exact Hc|apply Hx|].
      eapply Forall_impl; [|exact (proj2 Hx)]. exact Hf.
    Qed.
    Lemma program_can_reach q : in_box (cube d lo hi) q -> can_reach (ga_main program) f q.
    Proof.
      intros B. destruct (@creator32_possible np64 np32 n (cube d lo hi) (RandomCreator n (cube d lo hi)) (repeat q n) creator_is good_cube (repeat_length _ _))
        as [zs Hz]; [apply Forall_forall; intros y Hy; apply repeat_spec in Hy; now subst y|].
      exists zs. intros fuel rest w x v p' u' t. destruct (Hf q B) as (vq & Eq & Fq).
      unfold ga_program, Gene32, Float32. fold (cube d lo hi). rewrite creator_is. cbn [obind ga_main]. intros H.
      assert (N : no_worse_than_worst f (repeat q n) v).
      { eapply (find_no_worse _ f n Hn) with (6 := H); [reflexivity|reflexivity| |apply repeat_length|].
        - cbn [ga_set_loggers ga_new ga_creator]. unfold zoom. cbn [lget at_rng w_rng]. rewrite Hz. reflexivity.
        - apply Forall_forall. intros y Hy. apply repeat_spec in Hy. subst y. eauto. }
      destruct N as (x0 & v0 & I0 & E0 & L). apply repeat_spec in I0. subst x0. eauto.
    Qed.
  End General.

  Variables (write : string -> comp W bool) (now : comp W Z).
  Variable fmt : formatter f32.
  Ltac fin := vm_compute; reflexivity.
  Notation parab := (fun x => Ret (@paraboloid f32 (FloatIEEE np32) (ToF64_32 np64) x)).
  Notation schwef := (fun x => Ret (@schwefel f32 (FloatIEEE np32) LM (ToF64_32 np64) x)).
  Notation rastr := (fun x => Ret (@rastrigin f32 (FloatIEEE np32) LM (ToF64_32 np64) x)).
  Notation rosen := (@rosenbrock f32 (FloatIEEE np32) (ToF64_32 np64)).
  Lemma program_improves lo hi n d f pairing prob stop loggers : ltb lo hi = true -> is_finite lo = true -> is_finite hi = true -> 0 < n -> 0 < d ->
    (forall x, in_box (cube d lo hi) x -> exists v, f x = Ret v /\ is_finite v = true) ->
    improves (ga_main (@ga_program W np32 np64 LM dbg lo hi n d (fun x => cpure (f x)) pairing prob (Ret stop) loggers)) f n (cube d lo hi).
  Proof.
    intros H1 H2 H3 H4 H5 H6. split; [intros fuel r w x v s' u' t; now apply program_no_worse|intros q; now apply program_can_reach].
  Qed.

  Lemma genetic_paraboloid_improves : improves (ga_main (@genetic_paraboloid W write now fmt np32 np64 LM dbg)) parab 200 (int_cube 5 (-100) 100).
  Proof.
    unfold genetic_paraboloid. rewrite any_cons. apply (program_improves (b_of_Z (-100)) (b_of_Z 100) 200 5 parab); [fin|fin|fin|lia|lia|apply paraboloid_box].
  Qed.
  Lemma genetic_rastrigin_improves : cos_bounded (@fcos f32 LM) ->
    improves (ga_main (@genetic_rastrigin W write now fmt np32 np64 LM dbg)) rastr 20 (cube 30 (decimal32 (-512) 2) (decimal32 512 2)).
  Proof.
    intros C. rewrite <- lit_5_12, <- lit_m5_12. unfold genetic_rastrigin. rewrite any_cons.
    apply (program_improves f32_m5_12 f32_5_12 20 30 rastr); [fin|fin|fin|lia|lia|].
    rewrite lit_5_12, lit_m5_12. intros x Hx. apply (rastrigin_box np32 np64 30); [lia|exact C|exact Hx].
  Qed.
  Lemma genetic_rosenbrock_improves : improves (ga_main (@genetic_rosenbrock W write now fmt np32 np64 LM dbg)) rosen 600 (int_cube 3 (-2) 2).
  Proof.
    unfold genetic_rosenbrock. rewrite any_cons. apply (program_improves (b_of_Z (-2)) (b_of_Z 2) 600 3 rosen); [fin|fin|fin|lia|lia|apply rosenbrock_box].
  Qed.
  Lemma genetic_schwefel_improves : cos_bounded (@fsin f32 LM) ->
    improves (ga_main (@genetic_schwefel W write now fmt np32 np64 LM dbg)) schwef 500 (int_cube 15 (-500) 500).
  Proof.
    intros C. unfold genetic_schwefel. rewrite any_cons. apply (program_improves (b_of_Z (-500)) (b_of_Z 500) 500 15 schwef); [fin|fin|fin|lia|lia|].
    intros x Hx. apply (ExampleRuns.schwefel_box np32 np64 15); [lia|exact C|exact Hx].
  Qed.
  Lemma test_genetic_paraboloid_improves : improves (ga_main (@test_genetic_paraboloid W np32 np64 LM dbg)) parab 800 (int_cube 5 (-100) 100).
  Proof.
    unfold test_genetic_paraboloid. rewrite any_cons. apply (program_improves (b_of_Z (-100)) (b_of_Z 100) 800 5 parab); [fin|fin|fin|lia|lia|apply paraboloid_box].
  Qed.
  Lemma test_genetic_rastrigin_improves : cos_bounded (@fcos f32 LM) ->
    improves (ga_main (@test_genetic_rastrigin W np32 np64 LM dbg)) rastr 20 (cube 30 (decimal32 (-512) 2) (decimal32 512 2)).
  Proof.
    intros C. rewrite <- lit_5_12, <- lit_m5_12. unfold test_genetic_rastrigin. rewrite any_cons.
    apply (program_improves f32_m5_12 f32_5_12 20 30 rastr); [fin|fin|fin|lia|lia|].
    rewrite lit_5_12, lit_m5_12. intros x Hx. apply (rastrigin_box np32 np64 30); [lia|exact C|exact Hx].
  Qed.
  Lemma test_genetic_schwefel_improves : cos_bounded (@fsin f32 LM) ->
    improves (ga_main (@test_genetic_schwefel W np32 np64 LM dbg)) schwef 800 (int_cube 5 (-500) 500).
  Proof.
    intros C. unfold test_genetic_schwefel. rewrite any_cons. apply (program_improves (b_of_Z (-500)) (b_of_Z 500) 800 5 schwef); [fin|fin|fin|lia|lia|].
    intros x Hx. apply (ExampleRuns.schwefel_box np32 np64 5); [lia|exact C|exact Hx].
  Qed.
End Programs.

(** ** The tests can pass *)
Section Tests.
  Context {W : Type}.
  Variables (np32 : nan_policy 24 128) (np64 : nan_policy 53 1024).
  Context {LM : Libm f32}.
  Variable dbg : bool.
  Lemma genetic_test_can_pass : exists zs, forall fuel rest (w : W), 5000 < fuel -> exists x v p' u' t,
    ga_main (@test_genetic_paraboloid W np32 np64 LM dbg) fuel (prepend zs rest) w = (Ret (Some (x, v), p'), u', t) /\
    genetic_paraboloid_asserts np32 (Some (x, v)) = Ret tt.
  Proof.
    assert (B : in_box (int_cube 5 (-100) 100) (map b_of_Z [1; 2; 3; 4; 5]%Z)) by (repeat constructor; vm_compute; reflexivity).
    destruct (proj2 (@test_genetic_paraboloid_improves W np32 np64 LM dbg) _ B) as [zs Hz]. exists zs. intros fuel rest w Hf.
    destruct (test_genetic_paraboloid_ends discard (cret 0%Z) blank np32 np64 dbg discard_accepts zero_ticks fuel (prepend zs rest) w Hf) as (x & v & p' & u' & t & E & S & _).
    exists x, v, p', u', t. split; [exact E|]. apply (genetic_asserts_hold np32 np64); [exact S|].
    destruct (Hz fuel rest w x v p' u' t E) as (vq & Eq & L). injection Eq as <-.
    refine (leb_trans _ _ _ L _). vm_compute. reflexivity.
  Qed.
  Lemma rastrigin_test_can_pass : cos_bounded (@fcos f32 LM) -> cos_near (@fcos f32 LM) -> cos_zero (@fcos f32 LM) ->
    exists zs, forall fuel rest (w : W), 3000 < fuel -> exists x v p' u' t,
    ga_main (@test_genetic_rastrigin W np32 np64 LM dbg) fuel (prepend zs rest) w = (Ret (Some (x, v), p'), u', t) /\
    genetic_rastrigin_asserts np32 (Some (x, v)) = Ret tt.
  Proof.
    intros C1 C2 C3.
    assert (B : in_box (cube 30 (decimal32 (-512) 2) (decimal32 512 2)) (repeat (b_of_Z 0) 30)) by (repeat constructor; vm_compute; reflexivity).
    destruct (proj2 (@test_genetic_rastrigin_improves W np32 np64 LM dbg C1) _ B) as [zs Hz]. exists zs. intros fuel rest w Hf.
    destruct (test_genetic_rastrigin_ends discard (cret 0%Z) blank np32 np64 dbg discard_accepts zero_ticks fuel (prepend zs rest) w C1 Hf) as (x & v & p' & u' & t & E & S & _).
    exists x, v, p', u', t. split; [exact E|]. apply (rastrigin_asserts_hold np32 np64 LM); [exact C1|exact C2|exact S|].
    destruct (Hz fuel rest w x v p' u' t E) as (vq & Eq & L).
    rewrite (rastrigin_32_zero np32 np64 LM (repeat (b_of_Z 0) 30) C3) in Eq.
    - injection Eq as <-. refine (leb_trans _ _ _ L _). vm_compute. reflexivity.
    - rewrite repeat_length. lia.
    - apply Forall_forall. intros a Ha. apply repeat_spec in Ha. subst a. exists false. reflexivity.
  Qed.
End Tests.
