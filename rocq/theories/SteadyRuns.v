(** * Genetic programs under unlucky draws: proofs *)

From Coq Require Import List Arith ZArith Bool Lia Reals Lra String.
From Flocq Require Import Core IEEE754.BinarySingleNaN IEEE754.Binary.
From Verif Require Import Base Logic FloatModel Rng FloatFacts ArithFacts GaModel GaComponents StopModel LogModel TestFuncModel ExampleModel
  SpecGa SpecBits SpecBox SpecRand SpecStandard SpecPossible SpecTest SpecExample SpecClosed SpecSteady
  RandFacts CreateFacts MutFacts PsoStandard PossibleFacts PossibleRuns GaStandard ExampleFacts ExampleRuns ExampleAsserts ClosedFacts SteadyFacts WorstRuns.
Import ListNotations.

(** ** Steady components *)
Section Steady.
  Context {U : Type}.
  Variable K : U -> Prop.
  Lemma steady_ret {A} (a : A) : steady K (cret a).
  Proof. intros u H. exact H. Qed.
  Lemma steady_pure {A} (o : outcome A) : steady K (cpure o).
  Proof. intros u H. exact H. Qed.
  Lemma steady_bind {A B} (m : comp U A) (k : A -> comp U B) : steady K m -> (forall a, steady K (k a)) -> steady K (cbind m k).
  Proof.
    intros Hm Hk u Hu. unfold cbind. specialize (Hm u Hu). destruct (m u) as [[a| |] u1]; cbn [snd] in Hm |- *; [now apply Hk|exact Hm|exact Hm].
  Qed.
  Lemma steady_fold {A B} (f : A -> B -> comp U A) l : (forall a b, steady K (f a b)) -> forall a, steady K (cfold f l a).
  Proof. intros H. induction l as [|b l IH]; intros a; cbn [cfold]; [apply steady_ret|]. apply steady_bind; auto. Qed.
  Lemma steady_map {A B} (f : A -> comp U B) l : (forall a, steady K (f a)) -> steady K (cmapM f l).
  Proof.
    intros H. induction l as [|a l IH]; cbn [cmapM]; [apply steady_ret|]. apply steady_bind; [apply H|]. intros b.
    apply steady_bind; [exact IH|]. intros bs. apply steady_ret.
  Qed.
  Lemma steady_replicate {A} n (m : comp U A) : steady K m -> steady K (creplicate n m).
  Proof.
    intros H. induction n as [|n IH]; cbn [creplicate]; [apply steady_ret|]. apply steady_bind; [apply H|]. intros b.
    apply steady_bind; [exact IH|]. intros bs. apply steady_ret.
  Qed.
End Steady.

Ltac steadily := repeat match goal with
  | |- steady _ (cbind _ _) => apply steady_bind; [|intros ?]
  | |- steady _ (cret _) => apply steady_ret
  | |- steady _ (cpure _) => apply steady_pure
  | |- steady _ (cfold _ _ _) => apply steady_fold; intros ? ?
  | |- steady _ (cmapM _ _) => apply steady_map; intros ?
  | |- steady _ (creplicate _ _) => apply steady_replicate
  end.

Section Unlucky.
  Variable p : f64.
  Lemma steady_draw : steady (unlucky p) draw.
  Proof. intros r H k. exact (H (S k)). Qed.
  Lemma steady_sample d : steady (unlucky p) (sample_usize d).
  Proof. unfold sample_usize. steadily. apply steady_draw. Qed.
  Lemma steady_tournament {T} t (q : population T) : steady (unlucky p) (tournament_pairs t q).
  Proof. unfold tournament_pairs, tournament_partner. steadily; apply steady_sample. Qed.
  Lemma steady_random_pairing {T} (q : population T) : steady (unlucky p) (random_pairing q).
  Proof. unfold random_pairing. steadily; apply steady_sample. Qed.
  Lemma steady_cross np32 (LM : Libm f32) dbg parents : steady (unlucky p) (@float_cross_exp f32 (FloatIEEE np32) LM _ dbg parents).
  Proof.
    unfold float_cross_exp. apply steady_bind; [apply steady_pure|intros ?]. apply steady_bind; [apply steady_pure|intros p0].
    apply steady_bind; [apply steady_pure|intros p1]. destruct (integer_decode p0) as [[m1 e1] s1]. destruct (integer_decode p1) as [[m2 e2] s2].
    steadily; first [apply steady_sample|apply steady_draw].
  Qed.
  Lemma steady_flip n g : steady (unlucky p) (bitwise_mutation32 n g).
  Proof. unfold bitwise_mutation32, flip_bits. steadily. apply steady_sample. Qed.
  Lemma steady_excl np64 d : steady (unlucky p) (@sample_excl f64 (FloatIEEE np64) _ d).
  Proof. unfold sample_excl. steadily. apply steady_draw. Qed.

  (** *** In the world of the programs *)
  Context {W : Type}.
  Definition unlucky_world (u : world W) : Prop := unlucky p (w_rng u).
  Notation K := unlucky_world.
  Lemma steady_zoom {A} (m : comp rng A) : steady (unlucky p) m -> steady K (zoom at_rng m).
  Proof. intros H u Hu. unfold zoom. specialize (H (w_rng u) Hu). cbn [lget at_rng]. destruct (m (w_rng u)) as [o r]. exact H. Qed.
  Lemma steady_gnc {A} (m : comp gnc A) : steady K (zoom at_gnc m).
  Proof. intros u Hu. unfold zoom. cbn [lget at_gnc]. destruct (m (w_gnc u)) as [o r]. exact Hu. Qed.
  Lemma steady_started {A} (m : comp (option Z) A) : steady K (zoom at_started m).
  Proof. intros u Hu. unfold zoom. cbn [lget at_started]. destruct (m (w_started u)) as [o r]. exact Hu. Qed.
  Lemma steady_rest {A} (m : comp W A) : steady K (zoom at_rest m).
  Proof. intros u Hu. unfold zoom. cbn [lget at_rest]. destruct (m (w_rest u)) as [o r]. exact Hu. Qed.

  Definition steady_logger (l : logger (world W) (list f32)) : Prop :=
    forall s, steady K (lg_start l s) /\ steady K (lg_resume l s) /\ steady K (lg_next l s) /\ steady K (lg_finish l s).
  Variables (write : string -> comp W bool) (now : comp W Z) (fmt : formatter f32).
  Lemma steady_line s : steady K (writeln (print write) s).
  Proof. unfold writeln. steadily. apply steady_rest. Qed.
  Lemma steady_verbose : steady_logger (verbose write fmt).
  Proof.
    intros s. cbn [verbose verbose_logger lg_start lg_resume lg_next lg_finish]. unfold silent.
    split; [|split; [|split]]; try apply steady_ret. destruct (as_best s) as [[x g]|]; [apply steady_line|apply steady_ret].
  Qed.
  Lemma steady_result : steady_logger (result_only write fmt).
  Proof.
    intros s. cbn [result_only result_only_logger lg_start lg_resume lg_next lg_finish]. unfold silent.
    split; [|split; [|split]]; try apply steady_ret. unfold result_only_finish. apply steady_bind; [|intros ?; apply steady_line].
    destruct (as_best s) as [[x g]|]; [|apply steady_line]. cbv zeta. apply steady_bind; [apply steady_line|intros ?; apply steady_line].
  Qed.
  Lemma steady_time : steady_logger (time write now fmt).
  Proof.
    intros s. cbn [time time_logger lg_start lg_resume lg_next lg_finish]. unfold silent.
    split; [|split; [|split]]; try apply steady_ret.
    - apply steady_bind; [apply steady_rest|intros ?]. apply steady_started.
    - apply steady_bind; [apply steady_started|intros ?]. apply steady_bind; [apply steady_rest|intros ?]. apply steady_line.
  Qed.
  Lemma steady_threshold t s : steady K (@threshold (world W) (list f32) t s).
  Proof. apply steady_ret. Qed.
  Lemma steady_max n s : steady K (@max_iterations (world W) (list f32) n s).
  Proof. apply steady_ret. Qed.
  Lemma steady_not_change np64 dbg n d s : steady K (@not_change W np64 dbg n d s).
  Proof. apply steady_gnc. Qed.
  Lemma steady_any (cs : list (stop_checker (world W) (list f32))) : Forall (fun c => forall s, steady K (c s)) cs -> forall s, steady K (composite_any cs s).
  Proof.
    intros H s. induction H as [|c cs Hc _ IH]; cbn [composite_any]; [apply steady_ret|]. apply steady_bind; [apply Hc|].
    intros [|]; [apply steady_ret|exact IH].
  Qed.

  (** *** No gene mutates *)
  Lemma above np64 u : K u -> ltb (percent np64 at_rng u) p = false.
  Proof.
    intros H. unfold percent, drawn_excl. cbn [lget at_rng]. destruct (H 0) as [H1 H2].
    change (fraw (w_rng u 0)) with (from_bits64 (w_rng u 0 mod 2 ^ 64)).
    destruct (ffinite _).
    2: { apply not_true_iff_false. intros C. apply ltb_key in C. apply leb_key in H1. lra. }
    destruct (fle _ _ && flt _ _)%bool eqn:E.
    - apply not_true_iff_false. intros C. apply ltb_key in C. apply leb_key in H1. lra.
    - cbn [flt fle FloatIEEE] in E. rewrite H2, andb_true_r in E.
      apply not_true_iff_false. intros C. rewrite (proj2 (leb_key (b_of_Z 0 : f64) _)) in E; [discriminate E|].
      apply ltb_key in C. apply leb_key in H1. destruct C as (C1 & C2 & C), H1 as (_ & D2 & D). split; [exact C1|]. split; [exact D2|]. lra.
  Qed.
  Lemma unmutated {G} np64 (single : G -> comp (world W) G) x u y u' : K u -> vec_mutation np64 at_rng p single x u = (Ret y, u') -> y = x.
  Proof.
    intros Hu E. apply vec_mutation_spec in E. induction E as [u|g l u l' u' HP E IH|g g1 l u u1 l' u' HP Es E IH]; [reflexivity| |].
    - f_equal. apply IH. intros k. exact (Hu (S k)).
    - rewrite (above np64 u Hu) in HP. discriminate HP.
  Qed.
End Unlucky.

(** ** The programs *)
Section Programs.
  Context {W : Type}.
  Variables (np32 : nan_policy 24 128) (np64 : nan_policy 53 1024).
  Context {LM : Libm f32}.
  Variable dbg : bool.
  Hypothesis HE : exact_exp2 LM.
  Section General.
    Variables (lo hi : f32) (n d : nat) (f : list f32 -> outcome f64) (pairing : population (list f32) -> comp rng (list (list nat))) (prob : f64)
      (stop : stop_checker (world W) (list f32)) (loggers : list (logger (world W) (list f32))).
    Notation program := (@ga_program W np32 np64 LM dbg lo hi n d (fun x => cpure (f x)) pairing prob (Ret stop) loggers).
    Hypothesis Hlh : ltb lo hi = true.
    Hypothesis Hlo : is_finite lo = true.
    Hypothesis Hhi : is_finite hi = true.
    Hypothesis Hn : 0 < n.
    Hypothesis Hd : 0 < d.
    Hypothesis Hpair : forall q, steady (unlucky prob) (pairing q).
    Hypothesis Hstop : forall s, steady (unlucky_world prob) (stop s).
    Hypothesis Hlog : Forall (steady_logger prob) loggers.

    Lemma the_creator : @random_creator_new f32 (NumGene32 np64 np32) n (cube d lo hi) = Ret (RandomCreator n (cube d lo hi)).
    Proof.
      apply new_creator; [exact Hn|destruct d; [lia|discriminate]|]. intros [a b] H. apply repeat_spec in H. injection H as -> ->. exact Hlh.
    Qed.
    Lemma the_cube : good_intervals32 (cube d lo hi).
    Proof. intros a b H. apply repeat_spec in H. injection H as -> ->. auto. Qed.
    Lemma program_is : program = Ret (ga_set_loggers
           (ga_new (fun x => cpure (f x)) stop (zoom at_rng (@random_create f32 (NumGene32 np64 np32) np64 (RandomCreator n (cube d lo hi))))
              (fun p => zoom at_rng (pairing p))
              (vec_cross_all_genes (fun parents => zoom at_rng (@float_cross_exp f32 (FloatIEEE np32) LM _ dbg parents)))
              (vec_mutation np64 at_rng prob (fun gene => zoom at_rng (bitwise_mutation32 3 gene)))
              [fun p => cret (kill_fitness_nan p); fun p => cpure (limit_population n p)]
              [fun p xs => cpure (@pre_birth_interval f32 (FloatIEEE np32) (cube d lo hi) p xs)])
           loggers).
    Proof.
      unfold ga_program, Gene32, Float32. fold (cube d lo hi). rewrite the_creator. reflexivity.
    Qed.

    Lemma program_steady cfg : program = Ret cfg -> all_steady (unlucky_world prob) cfg.
    Proof.
      rewrite program_is. intros E. injection E as <-. unfold all_steady.
      cbn [ga_set_loggers ga_new ga_goal ga_stop ga_pairing ga_cross ga_mutation ga_pre_births ga_selections ga_loggers].
      split; [intros x; apply steady_pure|]. split; [exact Hstop|]. split; [intros q; apply steady_zoom, Hpair|].
      split; [intros xs; unfold vec_cross_all_genes; steadily; apply steady_zoom, steady_cross|].
      split.
      { intros x. unfold vec_mutation. steadily; [apply steady_zoom, steady_excl|]. match goal with |- steady _ (if ?b then _ else _) => destruct b end; [apply steady_zoom, steady_flip|apply steady_ret]. }
      split; [intros g q xs [<-|[]]; apply steady_pure|].
      split; [intros g q [<-|[<-|[]]]; [apply steady_ret|apply steady_pure]|].
      intros l s Hl. rewrite Forall_forall in Hlog. exact (Hlog l Hl s).
    Qed.

    Lemma program_closed cfg q : program = Ret cfg -> ordinary q -> closed_while (unlucky_world prob) (eq q) cfg.
    Proof.
      rewrite program_is. intros E Hq. injection E as <-.
      match goal with |- closed_while _ _ (ga_set_loggers (ga_new ?g ?s ?c ?p ?x ?m ?sl ?pb) ?l) =>
        pose (cfg0 := ga_set_loggers (ga_new g s c p x (vec_mutation np64 at_rng (b_of_Z 0) (fun gene : f32 => zoom at_rng (bitwise_mutation32 3 gene))) sl pb) l) end.
      assert (C : closed (eq q) cfg0).
      { eapply (clones_closed np32 np64 at_rng (cube d lo hi) q cfg0 (b_of_Z 0)); [reflexivity| |reflexivity|vm_compute; reflexivity| |].
        - intros g Hg. apply exp32_clone; [exact HE|]. unfold ordinary in Hq. rewrite Forall_forall in Hq. now apply Hq.
        - constructor; [eexists; reflexivity|constructor].
        - constructor; [constructor|]. constructor; [now constructor|constructor]. }
      destruct C as (C1 & _ & C3 & C4). split; [|split; [|split]].
      - intros xs u ys u' _. exact (C1 xs u ys u').
      - intros x u y u' Hu <- Em. symmetry. exact (unmutated prob np64 _ _ _ _ _ Hu Em).
      - intros g p xs u ys u' Hg _. exact (C3 g p xs u ys u' Hg).
      - intros g p u l u' Hg _. exact (C4 g p u l u' Hg).
    Qed.

    Lemma program_stays q : in_box (cube d lo hi) q -> ordinary q -> can_stay (ga_main program) prob q.
    Proof.
      intros B Hq. destruct (@creator32_possible np64 np32 n (cube d lo hi) (RandomCreator n (cube d lo hi)) (repeat q n)
        the_creator the_cube (repeat_length _ _))
        as [zs Hz]; [apply Forall_forall; intros y Hy; apply repeat_spec in Hy; now subst y|].
      exists zs. intros fuel rest w o u' t Hr.
      pose proof program_steady as PS. pose proof program_closed as PC. rewrite program_is in PS, PC |- *. cbn [ga_main]. intros H.
      destruct (while_find _ (unlucky_world prob) (eq q) (PS _ eq_refl) (PC _ q eq_refl Hq) fuel pop_new (World (prepend zs rest) gnc_new None w) o u' t (repeat q n) (World rest gnc_new None w))
        as (L & _ & R); [| | |exact H|].
      - cbn [ga_set_loggers ga_new ga_creator]. unfold zoom. cbn [lget at_rng w_rng]. rewrite Hz. reflexivity.
      - apply Forall_forall. intros y Hy. apply repeat_spec in Hy. now subst y.
      - exact Hr.
      - split; [exact (proj1 L)|]. intros x v s' ->. symmetry. exact (proj2 (R _ _ eq_refl) x v eq_refl).
    Qed.
  End General.
  Lemma stay_return (main : nat -> rng -> W -> outcome (option (list f32 * f64) * population (list f32)) * world W * list (ga_event (list f32))) prob enough q :
    can_stay main prob q -> (forall fuel r w, enough < fuel -> exists x v s' u' t, main fuel r w = (Ret (Some (x, v), s'), u', t)) ->
    can_return main prob enough q.
  Proof.
    intros [zs Hz] HR. exists zs. intros fuel rest w Hf Hr. destruct (HR fuel (prepend zs rest) w Hf) as (x & v & s' & u' & t & E).
    destruct (Hz fuel rest w _ u' t Hr E) as [H1 H2]. rewrite (H2 x v s' eq_refl) in E. exists v, s', u', t. auto.
  Qed.

  Variables (write : string -> comp W bool) (now : comp W Z).
  Variable fmt : formatter f32.
  Ltac fin := vm_compute; reflexivity.
  Ltac pairs := intros ?; first [apply steady_tournament|apply steady_random_pairing].
  Ltac stops := apply steady_any; repeat (apply Forall_cons; [intros ?; first [apply steady_threshold|apply steady_max|apply steady_not_change]|]); apply Forall_nil.
  Ltac logs := repeat (apply Forall_cons; [match goal with |- steady_logger _ (verbose _ _) => apply steady_verbose | |- steady_logger _ (result_only _ _) => apply steady_result | |- steady_logger _ (time _ _ _) => apply steady_time end|]); apply Forall_nil.
  Lemma paraboloid_can_stay q : in_box (int_cube 5 (-100) 100) q -> ordinary q -> can_stay (ga_main (@genetic_paraboloid W write now fmt np32 np64 LM dbg)) (b_of_Z 15) q.
  Proof.
    unfold genetic_paraboloid. rewrite any_cons. apply (program_stays (b_of_Z (-100)) (b_of_Z 100) 200 5); [fin|fin|fin|lia|lia|pairs|stops|logs].
  Qed.
  Lemma rastrigin_can_stay q : in_box (cube 30 (decimal32 (-512) 2) (decimal32 512 2)) q -> ordinary q -> can_stay (ga_main (@genetic_rastrigin W write now fmt np32 np64 LM dbg)) (b_of_Z 15) q.
  Proof.
    rewrite <- lit_5_12, <- lit_m5_12. unfold genetic_rastrigin. rewrite any_cons.
    apply (program_stays f32_m5_12 f32_5_12 20 30); [fin|fin|fin|lia|lia|pairs|stops|logs].
  Qed.
  Lemma rosenbrock_can_stay q : in_box (int_cube 3 (-2) 2) q -> ordinary q -> can_stay (ga_main (@genetic_rosenbrock W write now fmt np32 np64 LM dbg)) (b_of_Z 85) q.
  Proof.
    unfold genetic_rosenbrock. rewrite any_cons. apply (program_stays (b_of_Z (-2)) (b_of_Z 2) 600 3); [fin|fin|fin|lia|lia|pairs|stops|logs].
  Qed.
  Lemma schwefel_can_stay q : in_box (int_cube 15 (-500) 500) q -> ordinary q -> can_stay (ga_main (@genetic_schwefel W write now fmt np32 np64 LM dbg)) (b_of_Z 15) q.
  Proof.
    unfold genetic_schwefel. rewrite any_cons. apply (program_stays (b_of_Z (-500)) (b_of_Z 500) 500 15); [fin|fin|fin|lia|lia|pairs|stops|logs].
  Qed.
  Lemma test_paraboloid_can_stay q : in_box (int_cube 5 (-100) 100) q -> ordinary q -> can_stay (ga_main (@test_genetic_paraboloid W np32 np64 LM dbg)) (b_of_Z 15) q.
  Proof.
    unfold test_genetic_paraboloid. rewrite any_cons. apply (program_stays (b_of_Z (-100)) (b_of_Z 100) 800 5); [fin|fin|fin|lia|lia|pairs|stops|logs].
  Qed.
  Lemma test_rastrigin_can_stay q : in_box (cube 30 (decimal32 (-512) 2) (decimal32 512 2)) q -> ordinary q -> can_stay (ga_main (@test_genetic_rastrigin W np32 np64 LM dbg)) (b_of_Z 15) q.
  Proof.
    rewrite <- lit_5_12, <- lit_m5_12. unfold test_genetic_rastrigin. rewrite any_cons.
    apply (program_stays f32_m5_12 f32_5_12 20 30); [fin|fin|fin|lia|lia|pairs|stops|logs].
  Qed.
  Lemma test_schwefel_can_stay q : in_box (int_cube 5 (-500) 500) q -> ordinary q -> can_stay (ga_main (@test_genetic_schwefel W np32 np64 LM dbg)) (b_of_Z 15) q.
  Proof.
    unfold test_genetic_schwefel. rewrite any_cons. apply (program_stays (b_of_Z (-500)) (b_of_Z 500) 800 5); [fin|fin|fin|lia|lia|pairs|stops|logs].
  Qed.

  (** *** They return *)
  Hypothesis Hwrite : accepts write.
  Hypothesis Hnow : ticks now.
  Lemma paraboloid_can_return q : in_box (int_cube 5 (-100) 100) q -> ordinary q ->
    can_return (ga_main (@genetic_paraboloid W write now fmt np32 np64 LM dbg)) (b_of_Z 15) 3000 q.
  Proof.
    intros B Hq. apply stay_return; [now apply paraboloid_can_stay|]. intros fuel r w Hf.
    destruct (genetic_paraboloid_ends write now fmt np32 np64 dbg Hwrite Hnow fuel r w Hf) as (x & v & p' & u' & t & E & _). exists x, v, p', u', t. exact E.
  Qed.
  Lemma rastrigin_can_return q : cos_bounded (@fcos f32 LM) -> in_box (cube 30 (decimal32 (-512) 2) (decimal32 512 2)) q -> ordinary q ->
    can_return (ga_main (@genetic_rastrigin W write now fmt np32 np64 LM dbg)) (b_of_Z 15) 3000 q.
  Proof.
    intros C B Hq. apply stay_return; [now apply rastrigin_can_stay|]. intros fuel r w Hf.
    destruct (genetic_rastrigin_ends write now fmt np32 np64 dbg Hwrite Hnow fuel r w C Hf) as (x & v & p' & u' & t & E & _). exists x, v, p', u', t. exact E.
  Qed.
  Lemma schwefel_can_return q : cos_bounded (@fsin f32 LM) -> in_box (int_cube 15 (-500) 500) q -> ordinary q ->
    can_return (ga_main (@genetic_schwefel W write now fmt np32 np64 LM dbg)) (b_of_Z 15) 3000 q.
  Proof.
    intros C B Hq. apply stay_return; [now apply schwefel_can_stay|]. intros fuel r w Hf.
    destruct (genetic_schwefel_ends write now fmt np32 np64 dbg Hwrite Hnow fuel r w C Hf) as (x & v & p' & u' & t & E & _). exists x, v, p', u', t. exact E.
  Qed.
End Programs.

Section Tests.
  Context {W : Type}.
  Variables (np32 : nan_policy 24 128) (np64 : nan_policy 53 1024).
  Context {LM : Libm f32}.
  Variable dbg : bool.
  Hypothesis HE : exact_exp2 LM.
  Lemma test_paraboloid_can_return q : in_box (int_cube 5 (-100) 100) q -> ordinary q ->
    can_return (ga_main (@test_genetic_paraboloid W np32 np64 LM dbg)) (b_of_Z 15) 5000 q.
  Proof.
    intros B Hq. apply stay_return; [now apply (test_paraboloid_can_stay np32 np64 dbg HE)|]. intros fuel r w Hf.
    destruct (test_genetic_paraboloid_ends discard (cret 0%Z) blank np32 np64 dbg discard_accepts zero_ticks fuel r w Hf) as (x & v & p' & u' & t & E & _). exists x, v, p', u', t. exact E.
  Qed.
  Lemma test_rastrigin_can_return q : cos_bounded (@fcos f32 LM) -> in_box (cube 30 (decimal32 (-512) 2) (decimal32 512 2)) q -> ordinary q ->
    can_return (ga_main (@test_genetic_rastrigin W np32 np64 LM dbg)) (b_of_Z 15) 3000 q.
  Proof.
    intros C B Hq. apply stay_return; [now apply (test_rastrigin_can_stay np32 np64 dbg HE)|]. intros fuel r w Hf.
    destruct (test_genetic_rastrigin_ends discard (cret 0%Z) blank np32 np64 dbg discard_accepts zero_ticks fuel r w C Hf) as (x & v & p' & u' & t & E & _). exists x, v, p', u', t. exact E.
  Qed.
  Lemma test_schwefel_can_return q : cos_bounded (@fsin f32 LM) -> in_box (int_cube 5 (-500) 500) q -> ordinary q ->
    can_return (ga_main (@test_genetic_schwefel W np32 np64 LM dbg)) (b_of_Z 15) 3000 q.
  Proof.
    intros C B Hq. apply stay_return; [now apply (test_schwefel_can_stay np32 np64 dbg HE)|]. intros fuel r w Hf.
    destruct (test_genetic_schwefel_ends discard (cret 0%Z) blank np32 np64 dbg discard_accepts zero_ticks fuel r w C Hf) as (x & v & p' & u' & t & E & _). exists x, v, p', u', t. exact E.
  Qed.

  (** *** The tests can fail *)
  Lemma first_wrong d expected tol gtol (a : f32) x v : ltb (b_abs (@fsub f32 (Float32 np32) a (expected 0))) tol = false ->
    test_asserts np32 (S d) expected tol gtol (Some (a :: x, v)) = Panic.
  Proof. intros H. unfold test_asserts. cbn [seq ofold]. change (index (a :: x) 0) with (Ret a). cbn [obind]. rewrite H. reflexivity. Qed.
  Lemma far_ok d z : (z = 0 \/ z = 5)%Z -> ordinary (repeat (b_of_Z z) d).
  Proof.
    intros Hz. apply Forall_forall. intros a Ha. apply repeat_spec in Ha. subst a.
    destruct Hz as [-> | ->]; [exact I|]. assert (E : Binary.B2FF 24 128 (b_of_Z 5) = Binary.F754_finite false 10485760 (-21)) by (vm_compute; reflexivity).
    unfold zero_or_normal. destruct (b_of_Z 5) as [s|s|s pl h|s m e h]; try discriminate E. injection E as -> -> ->. vm_compute. discriminate.
  Qed.
  Lemma paraboloid_test_can_fail : exists zs, forall fuel rest (w : W), 5000 < fuel -> unlucky (b_of_Z 15) rest -> exists x v p' u' t,
    ga_main (@test_genetic_paraboloid W np32 np64 LM dbg) fuel (prepend zs rest) w = (Ret (Some (x, v), p'), u', t) /\
    genetic_paraboloid_asserts np32 (Some (x, v)) = Panic.
  Proof.
    assert (B : in_box (int_cube 5 (-100) 100) (repeat (b_of_Z 0) 5)) by (repeat constructor; vm_compute; reflexivity).
    destruct (test_paraboloid_can_return _ B (far_ok 5 0 ltac:(auto))) as [zs Hz]. exists zs. intros fuel rest w Hf Hr.
    destruct (Hz fuel rest w Hf Hr) as (v & p' & u' & t & E & _). exists (repeat (b_of_Z 0) 5), v, p', u', t. split; [exact E|].
    unfold genetic_paraboloid_asserts. cbn [repeat]. apply first_wrong. vm_compute. reflexivity.
  Qed.
  Lemma rastrigin_test_can_fail : cos_bounded (@fcos f32 LM) -> exists zs, forall fuel rest (w : W), 3000 < fuel -> unlucky (b_of_Z 15) rest -> exists x v p' u' t,
    ga_main (@test_genetic_rastrigin W np32 np64 LM dbg) fuel (prepend zs rest) w = (Ret (Some (x, v), p'), u', t) /\
    genetic_rastrigin_asserts np32 (Some (x, v)) = Panic.
  Proof.
    intros C. assert (B : in_box (cube 30 (decimal32 (-512) 2) (decimal32 512 2)) (repeat (b_of_Z 5) 30)) by (repeat constructor; vm_compute; reflexivity).
    destruct (test_rastrigin_can_return _ C B (far_ok 30 5 ltac:(auto))) as [zs Hz]. exists zs. intros fuel rest w Hf Hr.
    destruct (Hz fuel rest w Hf Hr) as (v & p' & u' & t & E & _). exists (repeat (b_of_Z 5) 30), v, p', u', t. split; [exact E|].
    unfold genetic_rastrigin_asserts. cbn [repeat]. apply first_wrong. vm_compute. reflexivity.
  Qed.
  Lemma schwefel_test_can_fail : cos_bounded (@fsin f32 LM) -> exists zs, forall fuel rest (w : W), 3000 < fuel -> unlucky (b_of_Z 15) rest -> exists x v p' u' t,
    ga_main (@test_genetic_schwefel W np32 np64 LM dbg) fuel (prepend zs rest) w = (Ret (Some (x, v), p'), u', t) /\
    genetic_schwefel_asserts np32 (Some (x, v)) = Panic.
  Proof.
    intros C. assert (B : in_box (int_cube 5 (-500) 500) (repeat (b_of_Z 0) 5)) by (repeat constructor; vm_compute; reflexivity).
    destruct (test_schwefel_can_return _ C B (far_ok 5 0 ltac:(auto))) as [zs Hz]. exists zs. intros fuel rest w Hf Hr.
    destruct (Hz fuel rest w Hf Hr) as (v & p' & u' & t & E & _). exists (repeat (b_of_Z 0) 5), v, p', u', t. split; [exact E|].
    unfold genetic_schwefel_asserts. cbn [repeat]. apply first_wrong. vm_compute. reflexivity.
  Qed.
End Tests.
