(** * Sets of chromosomes that breeding does not leave: proofs *)

From Coq Require Import List Arith ZArith Bool Lia Reals Lra.
From Flocq Require Import Core IEEE754.BinarySingleNaN IEEE754.Binary.
From Verif Require Import Base Logic FloatModel Rng FloatFacts GaModel GaComponents SpecGa SpecBits SpecRand SpecBox SpecClosed
  GaBest GaFacts GaMore GaStandard SpecStandard ArithFacts SatFacts BitFacts CrossFacts MutFacts.
Import ListNotations.

Section Closed.
  Context {U T : Type}.
  Variable cfg : ga_config U T.
  Variable S : T -> Prop.
  Hypothesis HC : closed S cfg.
  Notation ev := (ga_event T).
  Implicit Types (h t : list ev) (p : population T) (u : U).

  Definition fine (e : ev) : Prop :=
    match e with EEval x => S x | _ => True end /\ (forall p, shows e = Some p -> inside S p).
  Definition every h (u : U) : Prop := Forall fine h.
  Definition every_at p h (u : U) : Prop := every h u /\ inside S p.

  Lemma c_emit e : fine e -> hoare every (emit e) (fun _ => every) every.
  Proof. intros He h u H. simpl. apply Forall_app. auto. Qed.
  Lemma fine_call c : fine (ECall c).
  Proof. split; [exact I|]. intros s E. discriminate E. Qed.
  Lemma fine_see p e : inside S p -> shows e = Some p -> fine e.
  Proof. intros W E. split; [destruct e; try exact I; discriminate E|]. intros s' E'. rewrite E in E'. now injection E' as <-. Qed.

  Lemma c_call {A} (rec : A -> ga_call T) (c : comp U A) (R : A -> Prop) :
    (forall a u u', c u = (Ret a, u') -> R a) ->
    hoare every (call_comp rec c) (fun a h u => every h u /\ R a) every.
  Proof.
    intros HR. unfold call_comp.
    eapply hoare_mbind with (R := fun a h u => every h u /\ R a).
    - apply hoare_call; auto. intros h u a u' H Hc. split; eauto.
    - intros a. eapply hoare_mbind with (R := fun _ h u => every h u /\ R a).
      + intros h u [H1 H2]. simpl. split; auto. apply Forall_app. split; [exact H1|]. constructor; [apply fine_call|constructor].
      + intros ?x. apply (hoare_mret a (fun a h u => every h u /\ R a)).
  Qed.

  Lemma c_goal x : S x -> hoare every (call_goal (ga_goal cfg) x) (fun _ => every) every.
  Proof.
    intros Hx. unfold call_goal. eapply hoare_mbind; [apply c_emit; split; [exact Hx|intros s E; discriminate E]|].
    intros ?x. eapply hoare_mbind with (R := fun v => every).
    - apply hoare_call; eauto.
    - intros v. eapply hoare_mbind with (R := fun _ => every).
      + apply c_emit. split; [exact I|intros s E; discriminate E].
      + intros ?x. apply (hoare_mret v (fun _ => every)).
  Qed.

  Lemma c_append p xs : Forall S xs -> inside S p -> hoare every (pop_append cfg p xs) (fun p' => every_at p') every.
  Proof.
    intros HS W. unfold pop_append. eapply hoare_pre.
    - apply (hoare_mfold _ _ (fun p' => every_at p')). intros q x Hx. rewrite Forall_forall in HS. specialize (HS x Hx).
      unfold pop_push. intros h u [H Wq].
      assert (G : hoare every (v <- call_goal (ga_goal cfg) x ;; mret (set_individuals q (individuals q ++ [Individual x v true])))
        (fun p' => every_at p') every).
      { eapply hoare_mbind; [apply c_goal; exact HS|]. intros v.
        eapply hoare_pre; [apply (hoare_mret _ (fun p' => every_at p'))|]. intros h' u' H'. split; [exact H'|].
        intros i Hi. cbn [set_individuals individuals best_individual worst_individual] in Hi.
        destruct Hi as [Hi|Hi]; [|apply Wq; now right]. apply in_app_or in Hi. destruct Hi as [Hi|[<-|[]]]; [apply Wq; now left|exact HS]. }
      exact (G h u H).
    - intros h u H. split; auto.
  Qed.

  Lemma c_loggers k p : hoare (every_at p) (call_loggers pop_view k (ga_loggers cfg) p) (fun _ => every_at p) every.
  Proof.
    intros h0 u0 [H0 W].
    assert (G : hoare every (call_loggers pop_view k (ga_loggers cfg) p) (fun _ => every) every).
    { unfold call_loggers. apply hoare_mfor. intros [i l] _. eapply hoare_mbind.
      - apply c_emit. apply (fine_see p); [exact W|reflexivity].
      - intros ?x. apply hoare_call; auto. }
    specialize (G h0 u0 H0). destruct (call_loggers _ _ _ _ u0) as [[[z| |] u'] t]; auto. split; auto.
  Qed.

  Lemma family_inside p pair : inside S p -> forall fam, family p pair = Ret fam -> Forall S fam.
  Proof.
    intros W. unfold family. induction pair as [|i pair IH]; intros fam E; cbn [omap] in E; [injection E as <-; constructor|].
    destruct (index (individuals p) i) as [ind| |] eqn:Ei; cbn in E; try discriminate E.
    match type of E with (let! _ := ?o in _) = _ => destruct o as [rest| |] eqn:Er end; cbn in E; try discriminate E.
    injection E as <-. constructor; [|now apply IH]. apply W. left. apply index_ret in Ei. eapply nth_error_In; eauto.
  Qed.

  Lemma c_iteration p : hoare (every_at p) (ga_iteration cfg p) (fun p' => every_at p') every.
  Proof.
    intros h0 u0 [H0 W]. revert h0 u0 H0.
    match goal with |- forall h u, every h u -> match ?m u with _ => _ end =>
      change (hoare every m (fun p' => every_at p') every) end.
    destruct HC as [C1 [C2 [C3 C4]]]. unfold ga_iteration.
    eapply hoare_mbind with (R := fun cs h u => every h u /\ Forall S cs).
    { unfold run_pairing. eapply hoare_mbind; [apply c_emit; apply (fine_see p); [exact W|reflexivity]|]. intros ?x.
      eapply hoare_mbind; [apply (c_call _ _ (fun _ => True)); auto|]. intros pairs. simpl.
      eapply hoare_pre.
      - apply (hoare_mfold _ _ (fun cs h u => every h u /\ Forall S cs)). intros acc pair _.
        eapply hoare_mbind with (R := fun fam h u => (every h u /\ Forall S acc) /\ Forall S fam).
        { apply hoare_pure; [|intros h u [H _]; auto]. intros h u fam H E. split; [exact H|].
          exact (family_inside p pair W fam E). }
        intros fam. eapply hoare_mbind with (R := fun kids h u => (every h u /\ Forall S acc) /\ Forall S kids).
        { intros h u [[H Ha] Hf]. pose proof (c_call (CCross fam) (ga_cross cfg fam) (Forall S) (fun a u u' => C1 fam u a u' Hf) h u H) as G.
          destruct (call_comp _ _ u) as [[[z| |] u'] t]; tauto. }
        intros kids. eapply hoare_pre; [apply (hoare_mret _ (fun cs h u => every h u /\ Forall S cs))|].
        intros h u [[H Ha] Hk]. split; [exact H|]. apply Forall_app. auto.
      - intros h u [H _]. split; [exact H|constructor]. }
    intros cs. eapply hoare_mbind with (R := fun ms h u => every h u /\ Forall S ms).
    { intros h u [H Hc]. rewrite Forall_forall in Hc.
      pose proof (hoare_mmapM (fun c => call_comp (CMutate c) (ga_mutation cfg c)) cs every (fun _ y => S y) every
        (fun x Hx => c_call (CMutate x) (ga_mutation cfg x) S (fun a u u' => C2 x u a u' (Hc x Hx))) h u H) as G.
      destruct (mmapM _ _ u) as [[[z| |] u'] t]; auto. destruct G as [G1 G2]. split; auto.
      clear - G2. induction G2; constructor; auto. }
    intros ms. eapply hoare_mbind with (R := fun born h u => every h u /\ Forall S born).
    { apply (hoare_mfold _ _ (fun cs h u => every h u /\ Forall S cs)). intros xs pb Hpb h u [H Hx].
      assert (G : hoare every (emit (ESee p) ;;; call_comp (CPreBirth p xs) (pb p xs)) (fun ys h u => every h u /\ Forall S ys) every).
      { eapply hoare_mbind; [apply c_emit; apply (fine_see p); [exact W|reflexivity]|]. intros ?x.
        apply c_call. intros a u1 u' Ha. exact (C3 pb p xs u1 a u' Hpb W Hx Ha). }
      exact (G h u H). }
    intros born. eapply hoare_mbind with (R := fun p1 => every_at p1).
    { intros h u [H1 H2]. now apply c_append. }
    intros p1. eapply hoare_mbind with (R := fun p2 => every_at p2).
    { apply (hoare_mfold _ _ (fun q => every_at q)). intros q s Hs h u [H Wq].
      assert (G : hoare every (emit (ESee q) ;;; l <- call_comp (CSelect q) (s q) ;; mret (set_individuals q l)) (fun q' => every_at q') every).
      { eapply hoare_mbind; [apply c_emit; apply (fine_see q); [exact Wq|reflexivity]|]. intros ?x.
        eapply hoare_mbind; [apply (c_call _ _ (Forall (fun i => S (chromosomes i)))); intros l u1 u' E; exact (C4 s q u1 l u' Hs Wq E)|].
        intros l. eapply hoare_pre; [apply (hoare_mret _ (fun q' => every_at q'))|]. intros h1 u1 [H1 Hl]. split; [exact H1|].
        intros i Hi. cbn [set_individuals individuals best_individual worst_individual] in Hi.
        destruct Hi as [Hi|Hi]; [|apply Wq; now right]. rewrite Forall_forall in Hl. now apply Hl. }
      exact (G h u H). }
    intros p2. eapply hoare_mbind with (R := fun p3 => every_at p3).
    { apply hoare_pure; [|intros h u [H _]; auto]. intros h u p3 [H W2] E. split; [exact H|].
      destruct (update_best_worst_spec (remove_dead p2)) as [q [Eq [Ei [_ Ex]]]]. rewrite E in Eq. injection Eq as <-.
      assert (A : forall i, In i (filter alive (individuals p2)) -> S (chromosomes i)) by (intros i Hi; apply filter_In in Hi; apply W2; left; apply Hi).
      intros i Hi. unfold extremes in Ex. change (individuals (remove_dead p2)) with (filter alive (individuals p2)) in Ei.
      rewrite Ei in *. destruct Hi as [Hi|Hi]; [now apply A|].
      destruct (filter alive (individuals p2)) as [|i0 l0].
      - destruct Ex as [E1 E2]. rewrite E1, E2 in Hi. apply W2. right. exact Hi.
      - destruct Ex as [[b [Eb [kb [Kb _]]]] [w [Ew [kw [Kw _]]]]]. apply nth_error_In in Kb, Kw.
        destruct Hi as [Hi|Hi]; [rewrite Eb in Hi|rewrite Ew in Hi]; injection Hi as <-; now apply A. }
    intros p3. cbn zeta. eapply hoare_mbind with (R := fun _ => every_at (pop_next_iteration p3)).
    { intros h u [H W3]. apply c_loggers. split; [exact H|exact W3]. }
    intros ?x. apply (hoare_mret _ (fun p' => every_at p')).
  Qed.

  Lemma c_next fuel p : hoare (every_at p) (ga_next_iterations cfg fuel p)
    (fun r h u => every_at (snd r) h u /\ forall x v, fst r = Some (x, v) -> S x) every.
  Proof.
    unfold ga_next_iterations. eapply hoare_mbind; [apply c_loggers|]. intros ?x.
    eapply hoare_mbind with (R := fun p' => every_at p').
    - revert p. induction fuel as [|fuel IH]; intros p; simpl.
      + eapply hoare_pre; [apply hoare_nofuel|]. intros h u [H _]. exact H.
      + eapply hoare_mbind with (R := fun _ => every_at p).
        * unfold call_stop. eapply hoare_mbind with (R := fun b => every_at p).
          -- apply hoare_call; [|intros h u u' [H _]; auto]. auto.
          -- intros b. eapply hoare_mbind with (R := fun _ => every_at p).
             ++ intros h u [H1 H2]. simpl. split; auto. apply Forall_app. split; [exact H1|].
                constructor; [apply (fine_see p); [exact H2|reflexivity]|constructor].
             ++ intros ?x. apply (hoare_mret _ (fun _ => every_at p)).
        * intros [|]; [apply (hoare_mret _ (fun p' => every_at p'))|].
          eapply hoare_mbind; [apply c_iteration|]. intros p'. apply IH.
    - intros p'. eapply hoare_mbind; [apply c_loggers|]. intros ?x.
      eapply hoare_pre; [apply (hoare_mret (_, p') (fun r h u => every_at (snd r) h u /\ forall x v, fst r = Some (x, v) -> S x))|].
      intros h u H. split; [exact H|]. cbn [fst]. intros y v E. destruct (best_individual p') as [b|] eqn:Eb; [|discriminate E].
      injection E as <- _. apply (proj2 H). right. left. exact Eb.
  Qed.

  Lemma every_lived t : Forall fine t -> lived_in S t.
  Proof.
    intros H. split.
    - induction H as [|e t [He _] _ IH]; [constructor|]. destruct e; simpl; auto.
    - rewrite Forall_forall in H. intros e p Hin E. exact (proj2 (H e Hin) p E).
  Qed.

  Lemma closed_next fuel p u o u' t : inside S p -> ga_next_iterations cfg fuel p u = (o, u', t) ->
    lived_in S t /\ forall r p', o = Ret (r, p') -> inside S p' /\ forall x v, r = Some (x, v) -> S x.
  Proof.
    intros W H. pose proof (c_next fuel p [] u (conj (Forall_nil _) W)) as G. rewrite H in G. cbn [app] in G.
    destruct o as [[r p']| |].
    - destruct G as [[G1 G2] G3]. split; [now apply every_lived|]. intros r' p'' E. injection E as <- <-. auto.
    - split; [now apply every_lived|]. intros r p' E. discriminate E.
    - split; [now apply every_lived|]. intros r p' E. discriminate E.
  Qed.

  Lemma closed_find fuel p u o u' t : (forall xs u1, ga_creator cfg u = (Ret xs, u1) -> Forall S xs) ->
    ga_find_min cfg fuel p u = (o, u', t) ->
    lived_in S t /\ forall r p', o = Ret (r, p') -> inside S p' /\ forall x v, r = Some (x, v) -> S x.
  Proof.
    intros Hc H.
    assert (G : hoare (fun h v => every h v /\ v = u) (ga_find_min cfg fuel p)
      (fun r h u => every_at (snd r) h u /\ forall x v, fst r = Some (x, v) -> S x) every).
    { unfold ga_find_min. cbv zeta.
      eapply hoare_mbind with (R := fun xs h u => every h u /\ Forall S xs).
      { intros h v [H0 ->]. unfold call_comp, mbind, call, emit, mret.
        destruct (ga_creator cfg u) as [[xs| |] u1] eqn:E; cbn; try (now rewrite app_nil_r).
        split; [|eapply Hc; reflexivity]. apply Forall_app. split; [exact H0|]. constructor; [apply fine_call|constructor]. }
      intros xs. eapply hoare_mbind with (R := fun p1 => every_at p1).
      { intros h v [H1 H2]. apply c_append; [exact H2| |exact H1].
        intros i [Hi|[Hi|Hi]]; cbn in Hi; [destruct Hi|discriminate Hi|discriminate Hi]. }
      intros p1. eapply hoare_mbind; [apply c_loggers|]. intros ?x. apply c_next. }
    specialize (G [] u (conj (Forall_nil _) eq_refl)). rewrite H in G. cbn [app] in G.
    destruct o as [[r p']| |].
    - destruct G as [[G1 G2] G3]. split; [now apply every_lived|]. intros r' p'' E. injection E as <- <-. auto.
    - split; [now apply every_lived|]. intros r p' E. discriminate E.
    - split; [now apply every_lived|]. intros r p' E. discriminate E.
  Qed.
End Closed.

(** ** Components *)
Lemma copies_closed {U T} (S : T -> Prop) (f : population T -> comp U (list (individual T))) : selection_copies f ->
  forall p u l u', inside S p -> f p u = (Ret l, u') -> Forall (fun i => S (chromosomes i)) l.
Proof.
  intros HC p u l u' W E. apply Forall_forall. intros i Hi. destruct (HC p u l u' E i Hi) as [j [Hj [-> _]]].
  apply W. exact Hj.
Qed.

Lemma oretain_incl {A} (f : A -> outcome bool) l l' : oretain f l = Ret l' -> forall x, In x l' -> In x l.
Proof.
  revert l'. induction l as [|a l IH]; intros l' E x Hx; cbn [oretain] in E; [injection E as <-; exact Hx|].
  destruct (f a) as [b| |]; cbn in E; try discriminate E.
  destruct (oretain f l) as [r| |]; cbn in E; try discriminate E. injection E as <-.
  destruct b; [destruct Hx as [->|Hx]; [now left|]|]; right; eapply IH; eauto.
Qed.

Section Vec.
  Context {U G : Type}.
  Variables (d : nat) (Q : nat -> G -> Prop).

  Lemma kids_inherit (single : list G -> comp U (list G)) p1 p2 kids u u' : forall n,
    runs_each single (gene_pairs p1 p2) u kids u' -> length p1 = length p2 ->
    (forall k, inherits (Q (n + k)) single) ->
    (forall k g, nth_error p1 k = Some g -> Q (n + k) g) -> (forall k g, nth_error p2 k = Some g -> Q (n + k) g) ->
    length (concat kids) = length p1 /\ forall k g, nth_error (concat kids) k = Some g -> Q (n + k) g.
  Proof.
    revert p2 kids u. induction p1 as [|a p1 IH]; intros [|b p2] kids u n R L HI H1 H2; try discriminate L.
    - inversion R; subst. split; [reflexivity|]. intros [|k] g E; discriminate E.
    - inversion R as [|? ? ? y u1 ys ? E1 R']; subst. cbn [fst snd] in E1.
      pose proof (HI 0 a b u y u1 (H1 0 a eq_refl) (H2 0 b eq_refl) E1) as [c [-> Hc]].
      destruct (IH p2 ys u1 (S n) R') as [L' K'].
      + now injection L.
      + intros k. replace (S n + k) with (n + S k) by lia. apply HI.
      + intros k g E. replace (S n + k) with (n + S k) by lia. now apply H1.
      + intros k g E. replace (S n + k) with (n + S k) by lia. now apply H2.
      + cbn [concat app length]. split; [now rewrite L'|]. intros [|k] g E; [injection E as <-; exact Hc|].
        replace (n + S k) with (S n + k) by lia. now apply K'.
  Qed.

  Lemma vec_cross_closed (single : list G -> comp U (list G)) : (forall k, inherits (Q k) single) ->
    forall xs u ys u', Forall (gene_wise d Q) xs -> vec_cross_all_genes single xs u = (Ret ys, u') -> Forall (gene_wise d Q) ys.
  Proof.
    intros HI xs u ys u' HX E. apply vec_cross_spec in E. destruct E as [p1 [p2 [kids [-> [_ [R ->]]]]]].
    apply Forall_cons_iff in HX. destruct HX as [[L1 H1] HX]. apply Forall_cons_iff in HX. destruct HX as [[L2 H2] _].
    destruct (kids_inherit single p1 p2 kids u u' 0 R) as [L K]; auto; [congruence|].
    constructor; [|constructor]. split; [congruence|exact K].
  Qed.
End Vec.

Lemma schema_inherits w f g mask pattern z : (forall i, (0 <= i < w)%Z -> Z.testbit z i = Z.testbit f i \/ Z.testbit z i = Z.testbit g i) ->
  unsigned w z -> unsigned w f -> schema mask pattern f -> schema mask pattern g -> schema mask pattern z.
Proof.
  intros H Z1 Z2 HF HG. unfold schema in *. apply Z.bits_inj'. intros i Hi.
  assert (KF : Z.testbit (Z.land f mask) i = Z.testbit (Z.land pattern mask) i) by now rewrite HF.
  assert (KG : Z.testbit (Z.land g mask) i = Z.testbit (Z.land pattern mask) i) by now rewrite HG.
  rewrite !Z.land_spec in *. destruct (Z.lt_ge_cases i w) as [C|C].
  - destruct (H i (conj Hi C)) as [E|E]; rewrite E; assumption.
  - rewrite (unsigned_high w z i Z1 C). rewrite (unsigned_high w f i Z2 C) in KF. exact KF.
Qed.
Lemma bitwise64_inherits {U} (L : lens U rng) dbg mask pattern :
  inherits (fun g => schema mask pattern (to_bits64 g)) (fun parents => zoom L (cross_bitwise64 dbg parents)).
Proof.
  intros x y u cs u' Hx Hy E. unfold zoom in E.
  destruct (proj1 (cross_bitwise64_spec dbg [x; y] (lget L u)) x y eq_refl) as [c [Ec [Hc _]]]. rewrite Ec in E. injection E as <- _.
  exists c. split; [reflexivity|].
  apply (schema_inherits 64 (to_bits64 x) (to_bits64 y)); auto using to_bits64_range.
  intros i Hi. specialize (Hc i Hi). destruct (i <? _)%Z in Hc; auto.
Qed.
Lemma bitwise32_inherits {U} (L : lens U rng) dbg mask pattern :
  inherits (fun g => schema mask pattern (to_bits32 g)) (fun parents => zoom L (cross_bitwise32 dbg parents)).
Proof.
  intros x y u cs u' Hx Hy E. unfold zoom in E.
  destruct (proj1 (cross_bitwise32_spec dbg [x; y] (lget L u)) x y eq_refl) as [c [Ec [Hc _]]]. rewrite Ec in E. injection E as <- _.
  exists c. split; [reflexivity|].
  apply (schema_inherits 32 (to_bits32 x) (to_bits32 y)); auto using to_bits32_range.
  intros i Hi. specialize (Hc i Hi). destruct (i <? _)%Z in Hc; auto.
Qed.

Section Mean.
  Context {prec emax : Z} {Hp : Prec_gt_0 prec} {He : Prec_lt_emax prec emax}.
  Variable np : nan_policy prec emax.
  Notation F := (bfloat prec emax).

  (** A number of the interval. *)
  Lemma mean_inherits {U} (lo hi : F) :
    is_finite (b_add np lo lo) = true -> is_finite (b_add np hi hi) = true ->
    inherits (fun g => is_finite g = true /\ leb lo g = true /\ leb g hi = true)
      (fun parents => @cpure U _ (@cross_mean F (@NumOpsFloat F (FloatIEEE np)) parents)).
  Proof.
    intros A1 A2 x y u cs u' [Fx [X1 X2]] [Fy [Y1 Y2]] E.
    destruct (add_finite_args np lo lo A1) as [FL _]. destruct (add_finite_args np hi hi A2) as [FH _].
    pose proof (add_finite_bound np lo lo FL FL A1) as B1. pose proof (add_finite_bound np hi hi FH FH A2) as B2.
    apply leb_key in X1, X2, Y1, Y2. destruct X1 as [_ [_ X1]], X2 as [_ [_ X2]], Y1 as [_ [_ Y1]], Y2 as [_ [_ Y2]].
    rewrite !key_finite in * by assumption.
    assert (A : is_finite (b_add np x y) = true).
    { apply add_correct; auto. apply Rabs_lt. apply Rabs_lt_inv in B1, B2.
      split; [eapply Rlt_le_trans; [apply B1|]|eapply Rle_lt_trans; [|apply B2]]; apply rnd_le; lra. }
    destruct (cross_mean_two np x y Fx Fy A) as [c [Ec [Fc [_ Hc]]]].
    apply cpure_ret in E. destruct E as [E _]. rewrite Ec in E. injection E as <-. exists c. split; [reflexivity|].
    split; [exact Fc|].
    assert (K : (Binary.B2R prec emax lo <= Binary.B2R prec emax c <= Binary.B2R prec emax hi)%R).
    { destruct Hc as [H1 H2]. split.
      - eapply Rle_trans; [|exact H1]. apply Rmin_glb; assumption.
      - eapply Rle_trans; [exact H2|]. apply Rmax_lub; assumption. }
    split; apply leb_key; rewrite !key_finite by assumption; repeat split; try apply finite_not_nan; try assumption; apply K.
  Qed.
End Mean.

Lemma same_bits64 (x g : f64) : schema (-1) (to_bits64 x) (to_bits64 g) <-> g = x.
Proof.
  unfold schema. rewrite !Z.land_m1_r. split; [apply to_bits64_inj|congruence].
Qed.
Lemma same_bits32 (x g : f32) : schema (-1) (to_bits32 x) (to_bits32 g) <-> g = x.
Proof.
  unfold schema. rewrite !Z.land_m1_r. split; [apply to_bits32_inj|congruence].
Qed.
Lemma bitwise64_clone {U} (L : lens U rng) dbg x : inherits (eq x) (fun parents => zoom L (cross_bitwise64 dbg parents)).
Proof.
  intros a b u cs u' <- <- E.
  destruct (bitwise64_inherits L dbg (-1) (to_bits64 x) x x u cs u' eq_refl eq_refl E) as [c [-> Hc]].
  exists c. split; [reflexivity|]. symmetry. now apply same_bits64.
Qed.
Lemma bitwise32_clone {U} (L : lens U rng) dbg x : inherits (eq x) (fun parents => zoom L (cross_bitwise32 dbg parents)).
Proof.
  intros a b u cs u' <- <- E.
  destruct (bitwise32_inherits L dbg (-1) (to_bits32 x) x x u cs u' eq_refl eq_refl E) as [c [-> Hc]].
  exists c. split; [reflexivity|]. symmetry. now apply same_bits32.
Qed.

Lemma exp64_clone {U} (L : lens U rng) (LM : Libm f64) np dbg x : exact_exp2 LM -> zero_or_normal x ->
  inherits (eq x) (fun parents => zoom L (@float_cross_exp f64 (FloatIEEE np) LM _ dbg parents)).
Proof.
  intros HE HX a b u cs u' <- <- E. unfold zoom in E.
  assert (K : @float_cross_exp f64 (FloatIEEE np) LM _ dbg [x; x] (lget L u) = (Ret [x], shift 3 (lget L u)))
    by exact (cross_exp_self np decoded64 ltac:(lia) ltac:(vm_compute; discriminate) dbg x (lget L u) HE HX).
  rewrite K in E.
  injection E as <- _. exists x. auto.
Qed.
Lemma exp32_clone {U} (L : lens U rng) (LM : Libm f32) np dbg x : exact_exp2 LM -> zero_or_normal x ->
  inherits (eq x) (fun parents => zoom L (@float_cross_exp f32 (FloatIEEE np) LM _ dbg parents)).
Proof.
  intros HE HX a b u cs u' <- <- E. unfold zoom in E.
  assert (K : @float_cross_exp f32 (FloatIEEE np) LM _ dbg [x; x] (lget L u) = (Ret [x], shift 3 (lget L u)))
    by exact (cross_exp_self np decoded32 ltac:(lia) ltac:(vm_compute; discriminate) dbg x (lget L u) HE HX).
  rewrite K in E.
  injection E as <- _. exists x. auto.
Qed.

(** ** Mutation *)
Section Mut.
  Context {U G : Type}.
  Variables (np : nan_policy 53 1024) (L : lens U rng) (probability : f64) (single : G -> comp U G).

  Lemma vec_mutation_closed d (Q : nat -> G -> Prop) :
    (forall k g u g' u', Q k g -> single g u = (Ret g', u') -> Q k g') ->
    forall x u y u', gene_wise d Q x -> vec_mutation np L probability single x u = (Ret y, u') -> gene_wise d Q y.
  Proof.
    intros HS x u y u' [Hl Hx] E. apply vec_mutation_spec in E. subst d.
    assert (K : length y = length x /\ forall n, (forall k g, nth_error x k = Some g -> Q (n + k) g) ->
      forall k g, nth_error y k = Some g -> Q (n + k) g).
    { clear Hx. induction E as [u|g l u l' u' HP E IH|g g1 l u u1 l' u' HP Es E IH].
      - split; auto.
      - destruct IH as [IL IH]. split; [simpl; now rewrite IL|]. intros n H [|k] a Ea; [now apply H|].
        replace (n + S k) with (S n + k) by lia. apply (IH (S n)); [|exact Ea]. intros j b Eb.
        replace (S n + j) with (n + S j) by lia. now apply H.
      - destruct IH as [IL IH]. split; [simpl; now rewrite IL|]. intros n H [|k] a Ea.
        + injection Ea as <-. eapply HS; [apply (H 0); reflexivity|exact Es].
        + replace (n + S k) with (S n + k) by lia. apply (IH (S n)); [|exact Ea]. intros j b Eb.
          replace (S n + j) with (n + S j) by lia. now apply H. }
    split; [apply K|]. exact (proj2 K 0 Hx).
  Qed.

  Lemma no_mutation_closed (S : list G -> Prop) : ltb (b_of_Z 0 : f64) probability = false ->
    forall x u y u', S x -> vec_mutation np L probability single x u = (Ret y, u') -> S y.
  Proof.
    intros H x u y u' HS E. destruct (never_mutates np L probability single x u H) as [u1 [E1 _]].
    rewrite E1 in E. injection E as <- _. exact HS.
  Qed.
End Mut.

(** ** Newborns and survivors *)
Lemma pre_birth_closed {F} {FT : FloatTrait F} {U} (S : list F -> Prop) intervals (p : population (list F)) xs (u : U) ys u' : Forall S xs ->
  cpure (pre_birth_interval intervals p xs) u = (Ret ys, u') -> Forall S ys.
Proof.
  intros HS E. apply cpure_ret in E. destruct E as [E _]. unfold pre_birth_interval in E.
  rewrite Forall_forall in *. intros x Hx. apply HS. exact (oretain_incl _ _ _ E x Hx).
Qed.

Lemma standard_closed {prec emax} {Hp : Prec_gt_0 prec} {He : Prec_lt_emax prec emax} (np : nan_policy prec emax)
  {U} (S : list (bfloat prec emax) -> Prop) box (f : population (list (bfloat prec emax)) -> comp U (list (individual (list (bfloat prec emax))))) :
  standard_selection np box f ->
  forall p u l u', inside S p -> f p u = (Ret l, u') -> Forall (fun i => S (chromosomes i)) l.
Proof. intros H. apply copies_closed. eapply standard_selection_copies. exact H. Qed.

(** ** Genetic optimizers without mutation *)
Lemma closed_iff {U T} (S S' : T -> Prop) (cfg : ga_config U T) : (forall x, S x <-> S' x) -> closed S cfg -> closed S' cfg.
Proof.
  intros H [C1 [C2 [C3 C4]]].
  assert (FS : forall l, Forall S l <-> Forall S' l).
  { intros l. split; apply Forall_impl; intros x; apply H. }
  assert (IS : forall p, inside S' p -> inside S p) by (intros p W i Hi; apply H, W, Hi).
  split; [|split; [|split]].
  - intros xs u ys u' Hx E. apply FS. apply FS in Hx. eauto.
  - intros x u y u' Hx E. apply H. apply H in Hx. eauto.
  - intros f p xs u ys u' Hf W Hx E. apply FS. apply FS in Hx. eauto.
  - intros f p u l u' Hf W E. eapply Forall_impl; [intros i; apply H|]. eapply C4; eauto.
Qed.
Section Unmutated.
  Context {prec emax : Z} {Hp : Prec_gt_0 prec} {He : Prec_lt_emax prec emax}.
  Variables (np : nan_policy prec emax) (np64 : nan_policy 53 1024).
  Notation F := (bfloat prec emax).
  Context {U : Type} (L : lens U rng).

  Lemma unmutated_closed box d (Q : nat -> F -> Prop) (cfg : ga_config U (list F)) probability single mutation :
    ga_cross cfg = vec_cross_all_genes single -> (forall k, inherits (Q k) single) ->
    ga_mutation cfg = vec_mutation np64 L probability mutation -> ltb (b_of_Z 0 : f64) probability = false ->
    Forall (fun f => exists b, f = fun p xs => cpure (@pre_birth_interval F (FloatIEEE np) b p xs)) (ga_pre_births cfg) ->
    Forall (standard_selection np box) (ga_selections cfg) ->
    closed (gene_wise d Q) cfg.
  Proof.
    intros EC HI EM HP HB HS. rewrite Forall_forall in HB, HS. split; [|split; [|split]].
    - rewrite EC. now apply vec_cross_closed.
    - rewrite EM. intros x u y u'. now apply no_mutation_closed.
    - intros f p xs u ys u' Hf _ Hx E. destruct (HB f Hf) as [b ->]. eapply pre_birth_closed; [exact Hx|exact E].
    - intros f p u l u' Hf. eapply standard_closed. exact (HS f Hf).
  Qed.

  (** A box, gene by gene. *)
  Definition between (box : list (F * F)) (k : nat) (g : F) : Prop :=
    forall lo hi, nth_error box k = Some (lo, hi) -> is_finite g = true /\ leb lo g = true /\ leb g hi = true.
  Lemma box_genes box x : in_box box x <-> gene_wise (length box) (between box) x.
  Proof.
    unfold in_box, gene_wise. split.
    - intros H. split; [induction H; simpl; congruence|].
      induction H as [|g [lo hi] x b Hg H IH]; intros [|k] a Ea; try discriminate Ea; intros l h Eb.
      + injection Ea as <-. injection Eb as <- <-. exact Hg.
      + exact (IH k a Ea l h Eb).
    - revert box. induction x as [|g x IH]; intros [|[lo hi] box] [Hl H]; try discriminate Hl; constructor.
      + exact (H 0 g eq_refl lo hi eq_refl).
      + apply IH. split; [now injection Hl|]. intros k a Ea l h Eb. exact (H (S k) a Ea l h Eb).
  Qed.

  Lemma mean_between box k : (forall lo hi, In (lo, hi) box -> is_finite (b_add np lo lo) = true /\ is_finite (b_add np hi hi) = true) ->
    inherits (between box k) (fun parents => @cpure U _ (@cross_mean F (@NumOpsFloat F (FloatIEEE np)) parents)).
  Proof.
    intros HB x y u cs u' Hx Hy E. destruct (nth_error box k) as [[lo hi]|] eqn:Ek.
    - destruct (HB lo hi (nth_error_In _ _ Ek)) as [A1 A2].
      destruct (mean_inherits np (U := U) lo hi A1 A2 x y u cs u' (Hx lo hi Ek) (Hy lo hi Ek) E) as [c [-> Hc]].
      exists c. split; [reflexivity|]. intros l h Eb. rewrite Ek in Eb. injection Eb as <- <-. exact Hc.
    - apply cpure_ret in E. destruct E as [E _]. destruct (cross_mean_float_shape np [x; y]) as [_ K].
      destruct (K ltac:(simpl; lia)) as [c Ec]. rewrite Ec in E. injection E as <-. exists c. split; [reflexivity|].
      intros l h Eb. rewrite Ek in Eb. discriminate Eb.
  Qed.

  Lemma mean_hull box sel_box (cfg : ga_config U (list F)) probability mutation :
    ga_cross cfg = vec_cross_all_genes (fun parents => cpure (@cross_mean F (@NumOpsFloat F (FloatIEEE np)) parents)) ->
    (forall lo hi, In (lo, hi) box -> is_finite (b_add np lo lo) = true /\ is_finite (b_add np hi hi) = true) ->
    ga_mutation cfg = vec_mutation np64 L probability mutation -> ltb (b_of_Z 0 : f64) probability = false ->
    Forall (fun f => exists b, f = fun p xs => cpure (@pre_birth_interval F (FloatIEEE np) b p xs)) (ga_pre_births cfg) ->
    Forall (standard_selection np sel_box) (ga_selections cfg) ->
    closed (in_box box) cfg.
  Proof.
    intros EC HB EM HP HR HS.
    assert (C : closed (gene_wise (length box) (between box)) cfg).
    { eapply unmutated_closed; eauto. intros k. now apply mean_between. }
    apply (closed_iff (gene_wise (length box) (between box))); [|exact C]. intros x. symmetry. apply box_genes.
  Qed.
End Unmutated.

Lemma clone_genes {G} (x y : list G) : x = y <-> gene_wise (length x) (fun k g => nth_error x k = Some g) y.
Proof.
  split; [intros <-; split; auto|]. revert y. induction x as [|a x IH]; intros [|b y] [Hl H]; try discriminate Hl; [reflexivity|].
  pose proof (H 0 b eq_refl) as E. injection E as ->. f_equal. apply IH. split; [now injection Hl|].
  intros k g E. exact (H (S k) g E).
Qed.

Section Clones.
  Context {prec emax : Z} {Hp : Prec_gt_0 prec} {He : Prec_lt_emax prec emax}.
  Variables (np : nan_policy prec emax) (np64 : nan_policy 53 1024).
  Notation F := (bfloat prec emax).
  Context {U : Type} (L : lens U rng).

  Lemma clones_closed box (x : list F) (cfg : ga_config U (list F)) probability single mutation :
    ga_cross cfg = vec_cross_all_genes single -> (forall g, In g x -> inherits (eq g) single) ->
    ga_mutation cfg = vec_mutation np64 L probability mutation -> ltb (b_of_Z 0 : f64) probability = false ->
    Forall (fun f => exists b, f = fun p xs => cpure (@pre_birth_interval F (FloatIEEE np) b p xs)) (ga_pre_births cfg) ->
    Forall (standard_selection np box) (ga_selections cfg) ->
    closed (eq x) cfg.
  Proof.
    intros EC HI EM HP HB HS.
    assert (C : closed (gene_wise (length x) (fun k g => nth_error x k = Some g)) cfg).
    { eapply (unmutated_closed np np64 L); eauto. intros k a b u cs u' Ha Hb E.
      assert (b = a) by congruence. subst b.
      destruct (HI a (nth_error_In _ _ Ha) a a u cs u' eq_refl eq_refl E) as [c [-> <-]]. exists a. auto. }
    apply (closed_iff (gene_wise (length x) (fun k g => nth_error x k = Some g))); [|exact C].
    intros y. symmetry. apply clone_genes.
  Qed.
End Clones.
