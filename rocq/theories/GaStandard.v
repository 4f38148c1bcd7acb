(** * The components of the genetic optimizer fit together *)

From Coq Require Import List Arith ZArith Bool Lia.
From Flocq Require Import Core IEEE754.BinarySingleNaN IEEE754.Binary.
From Verif Require Import Base Logic FloatModel Rng GaModel GaComponents PsoModel StopModel SpecGa SpecSel SpecBox
  SpecRand SpecBits SpecTotal SpecStandard FloatFacts SelFacts SelProofs PairFacts CrossFacts MutFacts BitFacts
  TotalFacts GaTheorems GaTotal PsoStandard CreateFacts.
Import ListNotations.

Section Generic.
  Context {U : Type}.
  Variable J : U -> Prop.

  Lemma cpure_always {A} (o : outcome A) a (Q : A -> Prop) : o = Ret a -> Q a -> always J Q (@cpure U A o).
  Proof. intros -> H u Hu. eexists _, _. split; [reflexivity|]. auto. Qed.
  Lemma always_weaken {A} (Q R : A -> Prop) (c : comp U A) : (forall a, Q a -> R a) -> always J Q c -> always J R c.
  Proof. intros H K u Hu. destruct (K u Hu) as [a [u' [E [Qa Hu']]]]. eauto 6. Qed.
  Lemma always_bind {A B} (c : comp U A) (k : A -> comp U B) (Q : A -> Prop) (R : B -> Prop) :
    always J Q c -> (forall a, Q a -> always J R (k a)) -> always J R (cbind c k).
  Proof.
    intros H K u Hu. destruct (H u Hu) as [a [u1 [E [Qa Hu1]]]]. unfold cbind. rewrite E. exact (K a Qa u1 Hu1).
  Qed.
  Lemma always_cmapM {A B} (f : A -> comp U B) l (Q : B -> Prop) :
    (forall x, In x l -> always J Q (f x)) -> always J (fun ys => length ys = length l /\ Forall Q ys) (cmapM f l).
  Proof.
    induction l as [|x l IH]; intros H; simpl.
    - intros u Hu. eexists _, _. split; [reflexivity|]. auto.
    - eapply always_bind; [apply H; simpl; auto|]. intros y Qy.
      eapply always_bind; [apply IH; intros; apply H; simpl; auto|]. intros ys [L Qs] u Hu.
      eexists _, _. split; [reflexivity|]. simpl. split; [|auto]. split; [congruence|auto].
  Qed.

  (** Two parents of [d] genes have one child of [d] genes. *)
  Lemma vec_cross_always {G} d (single : list G -> comp U (list G)) (parents : list (list G)) :
    (forall a b, always J (fun kids => length kids = 1) (single [a; b])) ->
    length parents = 2 -> Forall (dim d) parents ->
    always J (Forall (dim d)) (vec_cross_all_genes single parents).
  Proof.
    intros Hs L2 Hd. destruct parents as [|p1 [|p2 [|p3 rest]]]; try discriminate.
    inversion Hd as [|? ? D1 Hd1]; subst. inversion Hd1 as [|? ? D2 _]; subst. unfold dim in *.
    unfold vec_cross_all_genes. change (length [p1; p2] =? 2) with true.
    eapply always_bind with (Q := fun _ => True); [eapply cpure_always; [reflexivity|auto]|]. intros _ _.
    eapply always_bind with (Q := fun p => p = p1); [eapply cpure_always; [reflexivity|auto]|]. intros ? ->.
    eapply always_bind with (Q := fun p => p = p2); [eapply cpure_always; [reflexivity|auto]|]. intros ? ->.
    eapply always_bind with (Q := fun child => length child = length p1).
    2:{ intros child Hc u Hu. eexists _, _. split; [reflexivity|]. split; [|auto]. constructor; [congruence|constructor]. }
    assert (G1 : forall m k c, k + m = length p1 -> length c = k -> always J (fun child => length child = length p1)
      (cfold (fun child n => do g1 <- cpure (index p1 n) ;; do g2 <- cpure (index p2 n) ;;
                             do new_gene <- single [g1; g2] ;; cret (child ++ new_gene)) (seq k m) c)).
    { induction m as [|m IH]; intros k c Hk Hc; simpl.
      - intros u Hu. eexists _, _. split; [reflexivity|]. split; auto. lia.
      - destruct (nth_error p1 k) as [a|] eqn:E1; [|apply nth_error_None in E1; lia].
        destruct (nth_error p2 k) as [b|] eqn:E2; [|apply nth_error_None in E2; lia].
        eapply always_bind with (Q := fun c => length c = S k).
        2:{ intros c' Hc'. apply (IH (S k)); [idtac|auto]. lia. }
        eapply always_bind with (Q := fun g => g = a); [eapply cpure_always; [unfold index; rewrite E1; reflexivity|auto]|].
        intros ? ->.
        eapply always_bind with (Q := fun g => g = b); [eapply cpure_always; [unfold index; rewrite E2; reflexivity|auto]|].
        intros ? ->.
        eapply always_bind; [apply Hs|]. intros kids Lk u Hu. eexists _, _. split; [reflexivity|]. split; auto.
        cbv beta in Lk. rewrite app_length. lia. }
    apply G1; auto.
  Qed.

  Lemma vec_mutation_always {G} np64 (L : lens U rng) prob (single : G -> comp U G) d (x : list G) :
    (forall r u, J u -> J (lput L r u)) -> (forall g, returns J (single g)) -> dim d x -> always J (dim d) (vec_mutation np64 L prob single x).
  Proof.
    intros HJ Hs Hx u Hu.
    destruct (always_cmapM (gene_step np64 L prob single) x (fun _ => True)) with (u := u) as [y [u' [E [[Ly _] Hu']]]]; auto.
    - intros g _ v Hv. rewrite gene_step_eq. destruct (ltb _ prob); [apply Hs; apply HJ; auto|].
      eexists _, _. split; [reflexivity|]. split; [auto|]. apply HJ, Hv.
    - exists y, u'. rewrite vec_mutation_eq. unfold dim in *. split; [exact E|]. split; [congruence|auto].
  Qed.
End Generic.

Section Standard.
  Context {prec emax : Z} {Hp : Prec_gt_0 prec} {He : Prec_lt_emax prec emax}.
  Variables (np : nan_policy prec emax) (np64 : nan_policy 53 1024).
  Context {LM : Libm (bfloat prec emax)} {FD : FloatDecode (bfloat prec emax)} {U : Type}.
  Variable L : lens U rng.
  Notation F := (bfloat prec emax).
  Notation finite := (fun v : f64 => is_finite v = true).
  #[local] Hint Extern 0 (FloatTrait (bfloat prec emax)) => exact (FloatIEEE np) : typeclass_instances.

  Section Kept.
  Variable J : U -> Prop.
  Hypothesis HJ : forall r u, J u -> J (lput L r u).

  Lemma in_box_genes box (x : list F) : good_box box -> (genes_in x box <-> in_box box x).
  Proof.
    intros Hb. unfold genes_in, in_box. revert x. induction Hb as [|[lo hi] box [F1 [F2 F3]] Hb IH]; intros x.
    - split; intros H; inversion H; constructor.
    - split; intros H; inversion H as [|? ? ? ? H1 H2]; subst; constructor; try (now apply IH).
      + apply (gene_in_ieee Hp He np); auto using finite_not_nan.
      + apply (gene_in_ieee Hp He np) in H1; auto using finite_not_nan.
  Qed.

  Lemma standard_pairing_fits born fit f p : @standard_pairing prec emax U L f -> population_fits born fit p ->
    always J (Forall (fun pair => length pair = 2 /\ Forall (fun i => i < length (individuals p)) pair)) (f p).
  Proof.
    intros Hf [Hn _]. destruct Hf as [|t Ht]; (apply zoom_always; [auto|]; intros r).
    - destruct (random_pairing_spec p r) as [_ H]. destruct (H Hn) as [pairs [E [_ K]]].
      eexists _, _. split; [exact E|]. apply Forall_forall. intros pair Hin.
      apply In_nth_error in Hin. destruct Hin as [j Hj]. destruct (K j pair Hj) as [E2 B]. split; [now rewrite E2|auto].
    - destruct (tournament_spec t p r) as [_ H]. destruct (H Hn) as [fams [E [_ K]]].
      eexists _, _. split; [exact E|]. apply Forall_forall. intros fam Hin.
      apply In_nth_error in Hin. destruct Hin as [j Hj]. destruct (K j fam Hj) as [E2 B]. split; [congruence|].
      apply Forall_forall. intros a Ha. apply In_nth_error in Ha. destruct Ha as [i Hi]. apply (B i a Hi).
  Qed.

  Lemma standard_cross_fits bitwise single a b :
    (forall dbg x y r, exists c r', bitwise dbg [x; y] r = (Ret [c], r')) ->
    (forall dbg x y r, exists c r', @float_cross_exp F (FloatIEEE np) LM FD dbg [x; y] r = (Ret [c], r')) ->
    @standard_single_cross prec emax Hp He np LM FD U L bitwise single ->
    always J (fun kids => length kids = 1) (single [a; b]).
  Proof.
    intros Hb Hx Hs. destruct Hs as [dbg|dbg| |].
    - apply zoom_always; [auto|]. intros r. destruct (Hx dbg a b r) as [c [r' E]]. eexists _, _. split; [exact E|reflexivity].
    - apply zoom_always; [auto|]. intros r. destruct (Hb dbg a b r) as [c [r' E]]. eexists _, _. split; [exact E|reflexivity].
    - eapply cpure_always; [reflexivity|reflexivity].
    - eapply cpure_always; [reflexivity|reflexivity].
  Qed.

  Lemma forall2_in_r {A B} (R : A -> B -> Prop) l l' y : Forall2 R l l' -> In y l' -> exists x, In x l /\ R x y.
  Proof.
    induction 1 as [|x z l l' H1 H2 IH]; intros Hy; [destruct Hy|].
    destruct Hy as [<-|Hy]; [exists x; simpl; auto|]. destruct (IH Hy) as [w [Hw Rw]]. exists w. simpl. auto.
  Qed.
  Lemma forall2_in_l {A B} (R : A -> B -> Prop) l l' x : Forall2 R l l' -> In x l -> exists y, In y l' /\ R x y.
  Proof.
    induction 1 as [|w z l l' H1 H2 IH]; intros Hy; [destruct Hy|].
    destruct Hy as [<-|Hy]; [exists z; simpl; auto|]. destruct (IH Hy) as [y [Hw Rw]]. exists y. simpl. auto.
  Qed.

  (** Between two selections. *)
  Definition surviving (box : list (F * F)) (p : population (list F)) : Prop :=
    some_survive (in_box box) finite p /\ Forall (fun i => dim (length box) (chromosomes i)) (individuals p).

  Lemma standard_selection_fits box f p : good_box box ->
    @standard_selection prec emax Hp He np U box f -> surviving box p ->
    always J (surviving box) (do l <- f p ;; cret (set_individuals p l)).
  Proof.
    intros Hbox Hf [[[i [Hi Ai]] Hall] Hdim]. rewrite Forall_forall in Hall, Hdim.
    assert (K : forall l, (exists i, In i l /\ alive i = true) -> Forall2 killed_from (individuals p) l ->
      surviving box (set_individuals p l)).
    { intros l Hl H2. split; [split|]; [exact Hl| |]; apply Forall_forall; simpl; intros j Hj;
        destruct (forall2_in_r _ _ _ j H2 Hj) as [w [Hw [E1 [E2 E3]]]].
      - intros Aj. unfold individual_fits. rewrite E1, E2. apply Hall; auto.
      - rewrite E1. auto. }
    destruct Hf as [|n Hn|].
    - intros u Hu. eexists _, _. split; [reflexivity|]. split; auto.
      pose proof (kill_fitness_nan_spec p) as H2. apply K.
      + destruct (forall2_in_l _ _ _ i H2 Hi) as [j [Hj [E1 [E2 E3]]]]. exists j. split; auto. rewrite E3, Ai. simpl.
        apply (Hall i Hi Ai).
      + eapply Forall2_impl; [|exact H2]. intros a b [E1 [E2 E3]]. split; [auto|]. split; [auto|].
        rewrite E3. intros Q. apply andb_true_iff in Q. apply Q.
    - destruct (limit_population_spec n p) as [l [E [H2 [H3 [H4 _]]]]].
      intros u Hu. eexists _, u. split; [unfold cbind, cpure; rewrite E; reflexivity|]. split; auto.
      apply K; [|exact H2]. destruct (Nat.le_gt_cases (live (individuals p)) n) as [Q|Q].
      + rewrite (H3 Q). eauto.
      + specialize (H4 Q). rewrite live_filter in H4. destruct (filter alive l) as [|j l'] eqn:Ef; [simpl in H4; lia|].
        assert (Jl : In j (filter alive l)) by (rewrite Ef; simpl; auto). apply filter_In in Jl. eauto.
    - destruct (@selection_interval_spec F (FloatIEEE np) box p) as [[l [E [_ H2]]]|[_ [j [Hj Dj]]]].
      2:{ exfalso. apply Dj. apply (Hdim j Hj). }
      intros u Hu. eexists _, u. split; [unfold cbind, cpure; rewrite E; reflexivity|]. split; auto. apply K.
      + destruct (forall2_in_l _ _ _ i H2 Hi) as [j [Hj [E1 [E2 E3]]]]. exists j. split; auto. apply E3. split; auto.
        apply in_box_genes; auto. apply (Hall i Hi Ai).
      + eapply Forall2_impl; [|exact H2]. intros a b [E1 [E2 E3]]. split; [auto|]. split; [auto|]. apply E3.
  Qed.

  Lemma selections_fit box fs : good_box box -> Forall (@standard_selection prec emax Hp He np U box) fs ->
    pipeline J (some_survive (in_box box) finite) (surviving box)
      (map (fun f p => do l <- f p ;; cret (set_individuals p l)) fs).
  Proof.
    intros Hb H. induction H as [|f fs Hf Hs IH]; simpl.
    - apply pipe_end. intros p Hs. apply Hs.
    - apply pipe_step with (R := surviving box); auto. intros p Hs'. apply standard_selection_fits; auto.
  Qed.
  Lemma pipeline_pre {A} (Q P P' : A -> Prop) (fs : list (A -> comp U A)) : (forall a, P' a -> P a) ->
    pipeline J Q P fs -> pipeline J Q P' fs.
  Proof.
    intros H K. inversion K as [P0 H1|P0 R f fs0 H1 H2]; subst; [apply pipe_end|eapply pipe_step]; eauto.
  Qed.
  Lemma in_box_length box (x : list F) : in_box box x -> length x = length box.
  Proof. apply forall2_len. Qed.

  Lemma pre_birth_fits box (p : population (list F)) cs : good_box box -> Forall (dim (length box)) cs ->
    always J (Forall (in_box box)) (@cpure U _ (pre_birth_interval box p cs)).
  Proof.
    intros Hb Hd. rewrite Forall_forall in Hd.
    destruct (@pre_birth_interval_spec F (FloatIEEE np) box p cs) as [[cs' [E [_ [keep [_ [E2 K]]]]]]|[_ [c [Hc Dc]]]].
    - eapply cpure_always; [exact E|]. apply Forall_forall. intros x Hx. rewrite E2 in Hx.
      apply in_map_iff in Hx. destruct Hx as [[c b] [<- Hin]]. apply filter_In in Hin. destruct Hin as [Hin Hb'].
      simpl in *. subst b. apply in_box_genes; auto. clear - K Hin.
      induction K as [|c0 b0 cs keep H1 H2 IH]; [destruct Hin|]. destruct Hin as [Hin|Hin]; [|auto].
      injection Hin as -> ->. now apply H1.
    - exfalso. apply Dc, Hd, Hc.
  Qed.
  End Kept.

  Variable I : phase -> nat -> U -> Prop.
  Hypothesis HI : lasting L I.
  Lemma standard_ga_fits box answers goal stop creator pairing bitwise single_cross prob single_mutation selections loggers :
    good_box box ->
    (forall ph i x, in_box box x -> always (I ph i) finite (goal x)) ->
    (forall q, always (I Running (as_iter q)) (answers q) (stop q)) ->
    always (I Resting 0) (fun xs => xs <> [] /\ Forall (in_box box) xs) creator ->
    @standard_pairing prec emax U L pairing ->
    (forall dbg x y r, exists c r', bitwise dbg [x; y] r = (Ret [c], r')) ->
    (forall dbg x y r, exists c r', @float_cross_exp F (FloatIEEE np) LM FD dbg [x; y] r = (Ret [c], r')) ->
    @standard_single_cross prec emax Hp He np LM FD U L bitwise single_cross ->
    (forall ph i g, returns (I ph i) (single_mutation g)) ->
    Forall (@standard_selection prec emax Hp He np U box) selections ->
    logging_fits (fun _ => True) I loggers ->
    ga_fits (in_box box) finite I answers (dim (length box)) 2
      (GaConfig goal stop creator pairing (vec_cross_all_genes single_cross)
         (vec_mutation np64 L prob single_mutation) selections
         [fun p cs => cpure (@pre_birth_interval F (FloatIEEE np) box p cs)] loggers).
  Proof.
    intros Hb Hg Hst Hcr Hpa Hbw Hex Hx Hm Hsel Hlg. destruct HI as [Ha Hr]. constructor; simpl; auto.
    - intros p _. exact (Hst (pop_view p)).
    - intros p Hp'. apply (standard_pairing_fits _ (Hr _ _) (in_box box) finite); auto.
    - intros n xs L2 Hin. apply vec_cross_always; auto.
      + intros a b. exact (standard_cross_fits (I Running n) (Hr Running n) bitwise single_cross a b Hbw Hex Hx).
      + eapply Forall_impl; [|exact Hin]. intros x. apply in_box_length.
    - intros n x Hd. apply vec_mutation_always; auto.
    - intros p _. apply pipe_step with (R := Forall (in_box box)); [|apply pipe_end; auto].
      intros cs Hcs. apply pre_birth_fits; auto.
    - intros n. eapply pipeline_pre; [|apply selections_fit; auto]. intros p [Hn Hall].
      destruct (individuals p) as [|i l] eqn:Ei; [congruence|]. rewrite Forall_forall in Hall. split; [split|].
      + exists i. rewrite Ei. split; [simpl; auto|]. exact (proj1 (Hall i (or_introl eq_refl))).
      + rewrite Ei. apply Forall_forall. intros j Hj _. exact (proj2 (Hall j Hj)).
      + rewrite Ei. apply Forall_forall. intros j Hj. destruct (Hall j Hj) as [_ [K _]]. now apply in_box_length.
    - eapply logging_any, Hlg.
  Qed.
End Standard.

(** ** Both float types *)
Section Instances.
  Context {U : Type} {L : lens U rng}.
  Variable I : phase -> nat -> U -> Prop.
  Hypothesis HI : lasting L I.
  Notation finite := (fun v : f64 => is_finite v = true).

  Lemma nth_box {prec emax : Z} (box : list (bfloat prec emax * bfloat prec emax)) x :
    good_box box -> length x = length box ->
    (forall k g lo hi, nth_error x k = Some g -> nth_error box k = Some (lo, hi) -> leb lo g = true /\ leb g hi = true) ->
    in_box box x.
  Proof.
    unfold in_box. intros Hb. revert x.
    induction Hb as [|[lo hi] box [F1 [F2 _]] Hb IH]; intros [|g x] Hl H; try discriminate; constructor.
    - destruct (H 0 g lo hi eq_refl eq_refl) as [H1 H2]. split; [|auto]. simpl in *.
      destruct g as [ |s| |]; [reflexivity| | |reflexivity]; exfalso.
      + destruct s; [destruct lo as [ |[]| |]|destruct hi as [ |[]| |]]; discriminate.
      + destruct lo as [ |[]| |]; discriminate.
    - apply IH; [simpl in Hl; lia|]. intros k. exact (H (S k)).
  Qed.

  Lemma new_creator {G} {NG : NumGene G} size (box : list (G * G)) : 0 < size -> box <> [] ->
    (forall i, In i box -> ng_lt (fst i) (snd i) = true) -> random_creator_new size box = Ret (RandomCreator size box).
  Proof.
    intros Hs Hb Hi. destruct (new_panics size box) as [[_ [E|[E|[i [E1 E2]]]]]|[E _]]; auto; [lia|congruence|].
    rewrite (Hi i E1) in E2. discriminate.
  Qed.

  Lemma creator_fits64 np64 size box : 0 < size -> box <> [] -> good_intervals64 np64 box ->
    always (I Resting 0) (fun xs => xs <> [] /\ Forall (in_box box) xs)
      (zoom L (@random_create f64 NumGene64 np64 (RandomCreator size box))).
  Proof.
    intros Hs Hb H. apply zoom_always; [apply HI|]. intros r.
    assert (H' : forall i, In i box -> ltb (fst i) (snd i) = true /\ is_finite (b_sub np64 (snd i) (fst i)) = true)
      by (intros [lo hi] Hi; exact (H lo hi Hi)).
    destruct (random_creator_f64 np64 size box (RandomCreator size box) r) as [vs [E [Lv Hv]]];
      [apply new_creator; auto; intros i Hi; apply (H' i Hi)|intros i Hi; apply (H' i Hi)|].
    eexists _, _. split; [exact E|]. split; [destruct vs; [simpl in Lv; lia|discriminate]|].
    apply Forall_forall. intros x Hx. apply In_nth_error in Hx. destruct Hx as [j Hj].
    destruct (Hv j x Hj) as [L1 L2]. apply nth_box; [now apply (good_intervals_box64 np64)|auto|]. intros k g lo hi Hg Hi. apply (L2 k g lo hi Hg Hi).
  Qed.
  Lemma creator_fits32 np64 np32 size box : 0 < size -> box <> [] -> good_intervals32 box ->
    always (I Resting 0) (fun xs => xs <> [] /\ Forall (in_box box) xs)
      (zoom L (@random_create f32 (NumGene32 np64 np32) np64 (RandomCreator size box))).
  Proof.
    intros Hs Hb H. apply zoom_always; [apply HI|]. intros r.
    assert (H' : forall i, In i box -> ltb (fst i) (snd i) = true /\ is_finite (fst i) = true /\ is_finite (snd i) = true)
      by (intros [lo hi] Hi; exact (H lo hi Hi)).
    destruct (random_creator_f32 np64 np32 size box (RandomCreator size box) r) as [vs [E [Lv Hv]]];
      [apply new_creator; auto; intros i Hi; apply (H' i Hi)|intros i Hi; apply (H' i Hi)|].
    eexists _, _. split; [exact E|]. split; [destruct vs; [simpl in Lv; lia|discriminate]|].
    apply Forall_forall. intros x Hx. apply In_nth_error in Hx. destruct Hx as [j Hj].
    destruct (Hv j x Hj) as [L1 L2]. apply nth_box; [now apply good_intervals_box32|auto|]. intros k g lo hi Hg Hi. apply (L2 k g lo hi Hg Hi).
  Qed.

  Lemma standard_fits64 {LM : Libm f64} np64 box size answers goal stop pairing single_cross prob bits selections loggers :
    good_intervals64 np64 box -> box <> [] -> 0 < size ->
    (forall ph i x, in_box box x -> always (I ph i) finite (goal x)) ->
    (forall q, always (I Running (as_iter q)) (answers q) (stop q)) ->
    @standard_pairing 53 1024 U L pairing ->
    @standard_single_cross 53 1024 _ _ np64 _ _ U L cross_bitwise64 single_cross ->
    Forall (@standard_selection 53 1024 _ _ np64 U box) selections ->
    logging_fits (fun _ => True) I loggers ->
    ga_fits (in_box box) finite I answers (dim (length box)) 2
      (GaConfig goal stop (zoom L (@random_create f64 NumGene64 np64 (RandomCreator size box))) pairing
         (vec_cross_all_genes single_cross)
         (vec_mutation np64 L prob (fun g => zoom L (bitwise_mutation64 bits g))) selections
         [fun p cs => cpure (@pre_birth_interval f64 (FloatIEEE np64) box p cs)] loggers).
  Proof.
    intros Hb Hn Hs Hg Hst Hpa Hx Hsel Hlg.
    apply (@standard_ga_fits 53 1024 _ _ np64 np64 _ _ U L I HI) with (bitwise := cross_bitwise64); auto.
    - now apply (good_intervals_box64 np64).
    - now apply creator_fits64.
    - intros dbg x y r. destruct (proj1 (cross_bitwise64_spec dbg [x; y] r) x y eq_refl) as [c [E _]]. eauto.
    - intros dbg x y r. destruct (proj1 (cross_exp_spec np64 decoded64 ltac:(lia) ltac:(vm_compute; discriminate) dbg [x; y] r) x y eq_refl)
        as [m1 [e1 [s1 [m2 [e2 [s2 [m [e [s [_ [_ [_ [_ [_ [_ [_ E]]]]]]]]]]]]]]]]. eauto.
    - intros ph i g. apply zoom_always; [apply HI|]. intros r. destruct (bitwise_mutation64_spec bits g r) as [y [E _]]. eauto.
  Qed.
  Lemma standard_fits32 {LM : Libm f32} np64 np32 box size answers goal stop pairing single_cross prob bits selections loggers :
    good_intervals32 box -> box <> [] -> 0 < size ->
    (forall ph i x, in_box box x -> always (I ph i) finite (goal x)) ->
    (forall q, always (I Running (as_iter q)) (answers q) (stop q)) ->
    @standard_pairing 24 128 U L pairing ->
    @standard_single_cross 24 128 _ _ np32 _ _ U L cross_bitwise32 single_cross ->
    Forall (@standard_selection 24 128 _ _ np32 U box) selections ->
    logging_fits (fun _ => True) I loggers ->
    ga_fits (in_box box) finite I answers (dim (length box)) 2
      (GaConfig goal stop (zoom L (@random_create f32 (NumGene32 np64 np32) np64 (RandomCreator size box))) pairing
         (vec_cross_all_genes single_cross)
         (vec_mutation np64 L prob (fun g => zoom L (bitwise_mutation32 bits g))) selections
         [fun p cs => cpure (@pre_birth_interval f32 (FloatIEEE np32) box p cs)] loggers).
  Proof.
    intros Hb Hn Hs Hg Hst Hpa Hx Hsel Hlg.
    apply (@standard_ga_fits 24 128 _ _ np32 np64 _ _ U L I HI) with (bitwise := cross_bitwise32); auto.
    - now apply good_intervals_box32.
    - now apply creator_fits32.
    - intros dbg x y r. destruct (proj1 (cross_bitwise32_spec dbg [x; y] r) x y eq_refl) as [c [E _]]. eauto.
    - intros dbg x y r. destruct (proj1 (cross_exp_spec np32 decoded32 ltac:(lia) ltac:(vm_compute; discriminate) dbg [x; y] r) x y eq_refl)
        as [m1 [e1 [s1 [m2 [e2 [s2 [m [e [s [_ [_ [_ [_ [_ [_ [_ E]]]]]]]]]]]]]]]]. eauto.
    - intros ph i g. apply zoom_always; [apply HI|]. intros r. destruct (bitwise_mutation32_spec bits g r) as [y [E _]]. eauto.
  Qed.
End Instances.

(** ** The run *)
Section Run.
  Context {prec emax : Z} {Hp : Prec_gt_0 prec} {He : Prec_lt_emax prec emax}.
  Variable np : nan_policy prec emax.
  Context {U : Type}.
  Notation F := (bfloat prec emax).
  Variable I : phase -> nat -> U -> Prop.
  Notation finite := (fun v : f64 => is_finite v = true).

  Lemma kills_copies {T} (s : population T -> comp U (list (individual T))) : selection_kills s -> selection_copies s.
  Proof.
    intros H p u l u' E i Hi. specialize (H p u l u' E).
    enough (exists j, In j (individuals p) /\ chromosomes i = chromosomes j /\ fitness i = fitness j) as [j [A B]]
      by (exists j; split; [now left|exact B]).
    clear - H Hi.
    induction H as [|j i' l0 l1 [K1 [K2 _]] H IH]; [destruct Hi|]. destruct Hi as [<-|Hi].
    - exists j. simpl. auto.
    - destruct (IH Hi) as [j' [A B]]. exists j'. simpl. auto.
  Qed.
  Lemma standard_selection_copies box f : @standard_selection prec emax Hp He np U box f -> selection_copies f.
  Proof.
    intros H. apply kills_copies. destruct H; [apply kill_fitness_nan_kills|apply limit_population_kills|].
    intros p u l u' E. apply cpure_ret in E. destruct E as [E _].
    destruct (@selection_interval_spec F (FloatIEEE np) box p) as [[l' [E1 [_ H2]]]|[E1 _]]; [|congruence].
    rewrite E1 in E. injection E as <-. eapply Forall2_impl; [|exact H2]. intros a b [A [B C]].
    split; [auto|]. split; [auto|]. intros K. apply C in K. tauto.
  Qed.

  (** What a run of the documented configuration guarantees. *)
  Lemma standard_ga_run answers raw kk (cfg : ga_config U (list F)) box k fuel p u :
    ga_fits (in_box box) finite I answers raw kk cfg ->
    Forall (@standard_selection prec emax Hp He np U box) (ga_selections cfg) ->
    stops_by k answers -> k < fuel -> I Resting 0 u ->
    exists r p' u' t,
      ga_find_min cfg fuel p u = (Ret (r, p'), u', t) /\
      iteration p' <= k /\ answers (pop_view p') true /\ population_fits (in_box box) finite p' /\
      Forall (population_seen (in_box box) finite) t /\ r = as_best (pop_view p') /\ (r = None <-> iteration p' = 0) /\
      (forall x v, r = Some (x, v) -> in_box box x /\ is_finite v = true /\ evaluated t x v) /\ I Running (iteration p') u'.
  Proof.
    intros Hf Hs Hk Hfu Hu.
    destruct (ga_find_returns _ _ I answers raw kk cfg k fuel p u Hf Hk Hfu Hu)
      as [r [p' [u' [t [E [A [B [C [D [G Hu']]]]]]]]]].
    exists r, p', u', t. split; [exact E|]. split; [auto|]. split; [auto|]. split; [auto|].
    pose proof (ga_find_seen _ _ I answers raw kk cfg fuel p u Hf Hu) as Hseen. rewrite E in Hseen.
    split; [exact Hseen|]. assert (Hl : Forall selection_copies (ga_selections cfg)).
    { eapply Forall_impl; [|exact Hs]. intros f. apply standard_selection_copies. }
    destruct (find_min_rest cfg fuel p u _ _ _ _ Hl E) as [_ [H2 [_ H4]]].
    split; [rewrite H4; unfold GaFacts.solution, pop_view; simpl; destruct (best_individual p'); reflexivity|].
    split; [auto|]. split; [|exact Hu']. intros x v Er. destruct (G x v Er) as [G1 G2].
    split; [auto|]. split; [auto|]. subst r.
    eapply solution_valued; eauto.
  Qed.

  Lemma standard_ga_next (ok : ga_config U (list F) -> Prop) answers raw kk (cfg : ga_config U (list F)) box k fuel p h u :
    (forall c, ok c -> Forall (@standard_selection prec emax Hp He np U box) (ga_selections c)) ->
    ga_reach ok p h -> ok cfg -> population_fits (in_box box) finite p -> settled_best (in_box box) finite p ->
    ga_fits (in_box box) finite I answers raw kk cfg ->
    stops_by k answers -> k - iteration p < fuel -> I Resting (iteration p) u ->
    exists r p' u' t,
      ga_next_iterations cfg fuel p u = (Ret (r, p'), u', t) /\
      (iteration p <= k -> iteration p' <= k) /\ answers (pop_view p') true /\
      population_fits (in_box box) finite p' /\ settled_best (in_box box) finite p' /\
      Forall (population_seen (in_box box) finite) t /\ r = as_best (pop_view p') /\ (r = None <-> iteration p' = 0) /\
      (forall x v, r = Some (x, v) -> in_box box x /\ is_finite v = true /\ evaluated (h ++ t) x v) /\
      I Running (iteration p') u'.
  Proof.
    intros Hok Hr Hc Hp1 Hp2 Hf Hk Hfu Hu.
    destruct (ga_next_returns _ _ I answers raw kk cfg k fuel p u Hf Hk Hfu Hu Hp1 Hp2)
      as [r [p' [u' [t [E [A [B [C [D [G Hu']]]]]]]]]].
    exists r, p', u', t. split; [exact E|]. split; [auto|]. split; [auto|]. split; [auto|].
    split; [apply (ga_next_fits _ _ I answers raw kk cfg fuel p u r p' u' t Hf Hu Hp1 Hp2 E)|].
    pose proof (ga_next_seen _ _ I answers raw kk cfg fuel p u Hf Hu Hp1 Hp2) as Hseen. rewrite E in Hseen.
    split; [exact Hseen|].
    assert (Hl : forall c, ok c -> Forall selection_copies (ga_selections c)).
    { intros c Hk'. eapply Forall_impl; [|apply Hok, Hk']. intros f. apply standard_selection_copies. }
    destruct (reach_ok ok p h Hl Hr) as [R1 [R2 [R3 _]]].
    destruct (next_rest cfg fuel p h u _ _ _ _ (Hl cfg Hc) R1 R2 R3 E) as [_ [H2 [_ H4]]].
    split; [rewrite H4; unfold GaFacts.solution, pop_view; simpl; destruct (best_individual p'); reflexivity|].
    split; [auto|]. split; [|exact Hu']. intros x v Er. destruct (G x v Er) as [G1 G2].
    split; [auto|]. split; [auto|]. subst r.
    eapply solution_valued; eauto.
  Qed.

  Lemma readme_ga_run t0 raw kk (cfg : ga_config U (list F)) box k fuel p u :
    ga_fits (in_box box) finite I (any_answers t0 k) raw kk cfg ->
    Forall (@standard_selection prec emax Hp He np U box) (ga_selections cfg) ->
    0 < k -> k < fuel -> I Resting 0 u ->
    exists x v p' u' t,
      ga_find_min cfg fuel p u = (Ret (Some (x, v), p'), u', t) /\
      0 < iteration p' <= k /\ (iteration p' = k \/ leb v t0 = true) /\
      in_box box x /\ is_finite v = true /\ evaluated t x v /\
      Forall (population_seen (in_box box) finite) t /\ I Running (iteration p') u'.
  Proof.
    intros Hf Hs Hk Hfu Hu.
    destruct (standard_ga_run (any_answers t0 k) raw kk cfg box k fuel p u Hf Hs (any_stops_by t0 k) Hfu Hu)
      as [r [p' [u' [t [E [A [B [C [D [G [K1 [K2 Hu']]]]]]]]]]]].
    destruct (proj1 B eq_refl) as [B1|[x [v [B1 B2]]]]; simpl in B1.
    - destruct r as [[x v]|]; [|rewrite (proj1 K1 eq_refl) in B1; lia].
      destruct (K2 x v eq_refl) as [H1 [H2 H3]]. exists x, v, p', u', t.
      split; [exact E|]. split; [lia|]. split; [left; lia|]. auto 7.
    - assert (Gr : r = Some (x, v)) by (rewrite G; exact B1). clear G. subst r. destruct (K2 x v eq_refl) as [H1 [H2 H3]].
      exists x, v, p', u', t. split; [exact E|]. split; [|auto 8]. split; [|exact A].
      destruct (Nat.eq_dec (iteration p') 0) as [Ei|Ei]; [apply K1 in Ei; discriminate|lia].
  Qed.
End Run.

Section Final.
  Context {U : Type} (L : lens U rng).
  Variable I : phase -> nat -> U -> Prop.
  Hypothesis HI : lasting L I.
  Notation finite := (fun v : f64 => is_finite v = true).

  Lemma created {G} {NG : NumGene G} size (box : list (G * G)) c : random_creator_new size box = Ret c ->
    c = RandomCreator size box /\ 0 < size /\ box <> [] /\ forall i, In i box -> ng_lt (fst i) (snd i) = true.
  Proof. intros H. destruct (new_panics size box) as [[E _]|[E K]]; [congruence|]. split; [congruence|auto]. Qed.

  Section F64.
    Context (LM : Libm f64) (np64 : nan_policy 53 1024).
    Lemma standard_ga64 size box c answers goal stop pairing single_cross prob bits selections loggers :
      @random_creator_new f64 NumGene64 size box = Ret c ->
      (forall i, In i box -> is_finite (b_sub np64 (snd i) (fst i)) = true) ->
      (forall ph i x, in_box box x -> always (I ph i) finite (goal x)) ->
      (forall q, always (I Running (as_iter q)) (answers q) (stop q)) ->
      @standard_pairing 53 1024 U L pairing ->
      @standard_single_cross 53 1024 _ _ np64 _ _ U L cross_bitwise64 single_cross ->
      Forall (@standard_selection 53 1024 _ _ np64 U box) selections ->
      logging_fits (fun _ => True) I loggers ->
      ga_fits (in_box box) finite I answers (dim (length box)) 2
        (GaConfig goal stop (zoom L (@random_create f64 NumGene64 np64 c)) pairing
           (vec_cross_all_genes single_cross)
           (vec_mutation np64 L prob (fun g => zoom L (bitwise_mutation64 bits g))) selections
           [fun p cs => cpure (@pre_birth_interval f64 (FloatIEEE np64) box p cs)] loggers).
    Proof.
      intros Hc Hw. destruct (created _ _ _ Hc) as [-> [Hs [Hn Hi]]]. apply standard_fits64; auto.
      intros lo hi H. split; [exact (Hi (lo, hi) H)|exact (Hw (lo, hi) H)].
    Qed.
  End F64.
  Section F32.
    Context (LM : Libm f32) (np64 : nan_policy 53 1024) (np32 : nan_policy 24 128).
    Lemma standard_ga32 size box c answers goal stop pairing single_cross prob bits selections loggers :
      @random_creator_new f32 (NumGene32 np64 np32) size box = Ret c ->
      (forall i, In i box -> is_finite (fst i) = true /\ is_finite (snd i) = true) ->
      (forall ph i x, in_box box x -> always (I ph i) finite (goal x)) ->
      (forall q, always (I Running (as_iter q)) (answers q) (stop q)) ->
      @standard_pairing 24 128 U L pairing ->
      @standard_single_cross 24 128 _ _ np32 _ _ U L cross_bitwise32 single_cross ->
      Forall (@standard_selection 24 128 _ _ np32 U box) selections ->
      logging_fits (fun _ => True) I loggers ->
      ga_fits (in_box box) finite I answers (dim (length box)) 2
        (GaConfig goal stop (zoom L (@random_create f32 (NumGene32 np64 np32) np64 c)) pairing
           (vec_cross_all_genes single_cross)
           (vec_mutation np64 L prob (fun g => zoom L (bitwise_mutation32 bits g))) selections
           [fun p cs => cpure (@pre_birth_interval f32 (FloatIEEE np32) box p cs)] loggers).
    Proof.
      intros Hc Hw. destruct (created _ _ _ Hc) as [-> [Hs [Hn Hi]]]. apply standard_fits32; auto.
      intros lo hi H. split; [exact (Hi (lo, hi) H)|exact (Hw (lo, hi) H)].
    Qed.
  End F32.
End Final.
