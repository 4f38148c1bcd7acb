(** * Mutations, VecMutation and VecCrossAllGenes *)

From Coq Require Import List Arith ZArith Bool Lia Reals Lra.
From Flocq Require Import IEEE754.Bits.
From Verif Require Import Base Logic FloatModel Rng GaModel GaComponents SpecGa SpecRand SpecBits FloatFacts
  RandFacts PairFacts CreateFacts BitFacts.
Import ListNotations.

(** ** BitwiseMutation *)
Definition flipped (r : rng) (w n : nat) (bits : Z) : Z :=
  fold_left (fun b k => Z.lxor b (Z.shiftl 1 (Z.of_nat (drawn r 0 w k)))) (seq 0 n) bits.

Lemma flip_bits_consumes w n bits : 0 < w -> consumes n (flip_bits w n bits) (fun r => flipped r w n bits).
Proof.
  intros Hw r. unfold flip_bits, uniform_usize, flipped. apply Nat.ltb_lt in Hw. rewrite Hw.
  unfold cbind at 1, cpure.
  assert (G : forall l a b,
    cfold (fun bit_value (_ : nat) =>
           do pos <- sample_usize (0, w) ;;
           cret (Z.lxor bit_value (Z.shiftl 1 (Z.of_nat pos)))) l b (shift a r) =
    (Ret (fold_left (fun b k => Z.lxor b (Z.shiftl 1 (Z.of_nat (drawn r 0 w k)))) (seq a (length l)) b),
     shift (length l) (shift a r))).
  { induction l as [|x l IH]; intros a b; [reflexivity|].
    cbn [cfold length seq fold_left]. unfold cbind at 1. unfold cbind at 1. rewrite consumes_usize.
    rewrite drawn_shift, Nat.add_0_r. unfold cret. rewrite shift_shift.
    replace (a + 1) with (S a) by lia. rewrite IH. f_equal. rewrite !shift_shift. f_equal. lia. }
  pose proof (G (seq 0 n) 0 bits) as H. rewrite seq_length in H. exact H.
Qed.

Lemma flipped_bits r w n bits i : (i < w)%nat ->
  Z.testbit (flipped r w n bits) (Z.of_nat i) =
  xorb (Z.testbit bits (Z.of_nat i)) (Nat.odd (times_drawn r w i n)).
Proof.
  intros Hi. unfold flipped. induction n as [|n IH].
  - simpl. now rewrite xorb_false_r.
  - rewrite seq_S, fold_left_app, Nat.add_0_l. cbn [fold_left times_drawn].
    rewrite Z.lxor_spec, IH. 
    assert (B : Z.testbit (Z.shiftl 1 (Z.of_nat (drawn r 0 w n))) (Z.of_nat i) =
                Nat.eqb (drawn r 0 w n) i).
    { destruct (Nat.eqb_spec (drawn r 0 w n) i) as [E|E].
      - rewrite E. rewrite Z.shiftl_1_l. apply Z.pow2_bits_true. lia.
      - rewrite Z.shiftl_1_l. apply Z.pow2_bits_false. lia. }
    rewrite B. destruct (Nat.eqb (drawn r 0 w n) i).
    + rewrite Nat.add_1_l, Nat.odd_succ, <- Nat.negb_odd.
      destruct (Z.testbit bits (Z.of_nat i)), (Nat.odd (times_drawn r w i n)); reflexivity.
    + rewrite xorb_false_r. reflexivity.
Qed.

Lemma flipped_range r w n bits : 0 < w -> unsigned (Z.of_nat w) bits ->
  unsigned (Z.of_nat w) (flipped r w n bits).
Proof.
  intros Hw H. apply unsigned_bits; [lia|]. intros i Hi. unfold flipped.
  assert (G : forall l b, (forall i, (Z.of_nat w <= i)%Z -> Z.testbit b i = false) ->
     Z.testbit (fold_left (fun b k => Z.lxor b (Z.shiftl 1 (Z.of_nat (drawn r 0 w k)))) l b) i = false).
  { induction l as [|k l IH]; intros b Hb; simpl; auto. apply IH. intros j Hj.
    rewrite Z.lxor_spec, Hb, Z.shiftl_1_l by auto.
    pose proof (drawn_bound r 0 w k Hw). rewrite Z.pow2_bits_false by lia. reflexivity. }
  apply G. intros j Hj. now apply (unsigned_high (Z.of_nat w)).
Qed.

Lemma times_drawn_pos r w i n : Nat.odd (times_drawn r w i n) = true -> exists k, k < n /\ drawn r 0 w k = i.
Proof.
  assert (G : times_drawn r w i n <> 0 -> exists k, k < n /\ drawn r 0 w k = i).
  { induction n as [|n IH]; simpl; [lia|]. destruct (Nat.eqb_spec (drawn r 0 w n) i) as [E|E].
    - intros _. exists n. split; [lia|exact E].
    - intros H. destruct IH as [k [K1 K2]]; [lia|]. exists k. split; [lia|exact K2]. }
  intros H. apply G. intros E. rewrite E in H. discriminate.
Qed.

(** At most [n] positions are drawn an odd number of times. *)
Lemma few_flipped r w n : length (filter (fun i => Nat.odd (times_drawn r w i n)) (seq 0 w)) <= n.
Proof.
  apply Nat.le_trans with (length (map (drawn r 0 w) (seq 0 n)));
    [|rewrite map_length, seq_length; lia].
  apply NoDup_incl_length; [apply NoDup_filter, seq_NoDup|].
  intros i Hi. apply filter_In in Hi. destruct Hi as [_ Hi].
  apply times_drawn_pos in Hi. destruct Hi as [k [K1 K2]]. apply in_map_iff. exists k.
  split; auto. apply in_seq. lia.
Qed.

Lemma bitwise_mutation64_spec n x r : exists y,
  bitwise_mutation64 n x r = (Ret y, shift n r) /\
  (forall k, drawn r 0 64 k < 64) /\
  (forall i, i < 64 -> Z.testbit (to_bits64 y) (Z.of_nat i) =
     xorb (Z.testbit (to_bits64 x) (Z.of_nat i)) (Nat.odd (times_drawn r 64 i n))) /\
  length (filter (fun i => xorb (Z.testbit (to_bits64 x) (Z.of_nat i)) (Z.testbit (to_bits64 y) (Z.of_nat i)))
            (seq 0 64)) <= n /\
  (n = 0 -> y = x).
Proof.
  exists (from_bits64 (flipped r 64 n (to_bits64 x))).
  assert (R : to_bits64 (from_bits64 (flipped r 64 n (to_bits64 x))) = flipped r 64 n (to_bits64 x)).
  { apply to_from_bits64. apply (flipped_range r 64); [lia|apply to_bits64_range]. }
  split; [unfold bitwise_mutation64, cbind; rewrite flip_bits_consumes by lia; reflexivity|].
  split; [intros k; apply drawn_bound; lia|].
  rewrite R. split; [intros i Hi; apply flipped_bits; exact Hi|]. split.
  - erewrite filter_ext_in; [apply (few_flipped r 64 n)|]. intros i Hi. apply in_seq in Hi.
    rewrite flipped_bits by lia. cbv beta.
    destruct (Z.testbit _ _), (Nat.odd _); reflexivity.
  - intros ->. apply from_to_bits64.
Qed.
Lemma bitwise_mutation32_spec n x r : exists y,
  bitwise_mutation32 n x r = (Ret y, shift n r) /\
  (forall k, drawn r 0 32 k < 32) /\
  (forall i, i < 32 -> Z.testbit (to_bits32 y) (Z.of_nat i) =
     xorb (Z.testbit (to_bits32 x) (Z.of_nat i)) (Nat.odd (times_drawn r 32 i n))) /\
  length (filter (fun i => xorb (Z.testbit (to_bits32 x) (Z.of_nat i)) (Z.testbit (to_bits32 y) (Z.of_nat i)))
            (seq 0 32)) <= n /\
  (n = 0 -> y = x).
Proof.
  exists (from_bits32 (flipped r 32 n (to_bits32 x))).
  assert (R : to_bits32 (from_bits32 (flipped r 32 n (to_bits32 x))) = flipped r 32 n (to_bits32 x)).
  { apply to_from_bits32. apply (flipped_range r 32); [lia|apply to_bits32_range]. }
  split; [unfold bitwise_mutation32, cbind; rewrite flip_bits_consumes by lia; reflexivity|].
  split; [intros k; apply drawn_bound; lia|].
  rewrite R. split; [intros i Hi; apply flipped_bits; exact Hi|]. split.
  - erewrite filter_ext_in; [apply (few_flipped r 32 n)|]. intros i Hi. apply in_seq in Hi.
    rewrite flipped_bits by lia. cbv beta.
    destruct (Z.testbit _ _), (Nat.odd _); reflexivity.
  - intros ->. apply from_to_bits32.
Qed.

(** ** VecCrossAllGenes *)
Section VecCross.
  Context {U G : Type} (single : list G -> comp U (list G)).

  Definition vstep (parent_1 parent_2 : list G) := fun (child : list G) n =>
                       do g1 <- cpure (index parent_1 n) ;;
                       do g2 <- cpure (index parent_2 n) ;;
                       do new_gene <- single [g1; g2] ;;
                       cret (U := U) (child ++ new_gene).

  Lemma vfold_spec p1 p2 n k child u c u' :
    n + k = length p1 ->
    (cfold (vstep p1 p2) (seq n k) child u = (Ret c, u') <->
     (k = 0 \/ length p1 <= length p2) /\
     exists kids, runs_each single (gene_pairs (skipn n p1) (skipn n p2)) u kids u' /\
       c = child ++ concat kids).
  Proof.
    revert n child u. induction k as [|k IH]; intros n child u Hn.
    - cbn [seq cfold]. unfold cret.
      rewrite skipn_all2 by lia. unfold gene_pairs. simpl. split.
      + intros H. inversion H; subst. split; [lia|]. exists []. split; [constructor|]. simpl.
        now rewrite app_nil_r.
      + intros [_ [kids [R ->]]]. inversion R; subst. simpl. now rewrite app_nil_r.
    - cbn [seq cfold]. unfold cbind at 1. unfold vstep at 1.
      unfold cbind at 1, cpure at 1.
      destruct (index_lt p1 n) as [g1 [E1 N1]]; [lia|]. rewrite E1.
      unfold cbind at 1, cpure at 1.
      assert (S1 : skipn n p1 = g1 :: skipn (S n) p1).
      { clear -N1. revert n N1. induction p1 as [|x p1 IHp]; intros [|n] H; simpl in *; try discriminate.
        - now inversion H.
        - exact (IHp n H). }
      destruct (le_lt_dec (length p2) n) as [L2|L2].
      + rewrite index_panic by exact L2. split; [discriminate|]. intros [[H|H] _]; lia.
      + destruct (index_lt p2 n L2) as [g2 [E2 N2]]. rewrite E2.
        assert (S2 : skipn n p2 = g2 :: skipn (S n) p2).
        { clear -N2. revert n N2. induction p2 as [|x p2 IHp]; intros [|n] H; simpl in *; try discriminate.
          - now inversion H.
          - exact (IHp n H). }
        rewrite S1, S2. change (gene_pairs (g1 :: skipn (S n) p1) (g2 :: skipn (S n) p2)) with
          ([g1; g2] :: gene_pairs (skipn (S n) p1) (skipn (S n) p2)).
        unfold cbind at 1. destruct (single [g1; g2] u) as [[kid| |] u1] eqn:ES.
        * unfold cret at 1. rewrite IH by lia. split.
          -- intros [L [kids [R ->]]]. split.
             ++ right. destruct L; lia.
             ++ exists (kid :: kids). split; [econstructor; eauto|]. simpl. now rewrite app_assoc.
          -- intros [L [kids [R ->]]]. inversion R; subst.
             match goal with H : single _ _ = _ |- _ => rewrite ES in H; inversion H; subst end.
             split; [destruct L; lia|]. eexists. split; [eassumption|]. simpl. now rewrite app_assoc.
        * split; [discriminate|]. intros [L [kids [R ->]]]. inversion R; subst. congruence.
        * split; [discriminate|]. intros [L [kids [R ->]]]. inversion R; subst. congruence.
  Qed.

  Lemma vec_cross_spec parents u cs u' :
    vec_cross_all_genes single parents u = (Ret cs, u') <->
    exists p1 p2 kids, parents = [p1; p2] /\ length p1 <= length p2 /\
      runs_each single (gene_pairs p1 p2) u kids u' /\ cs = [concat kids].
  Proof.
    unfold vec_cross_all_genes. unfold cbind at 1, cpure at 1.
    destruct parents as [|p1 [|p2 [|x t]]];
      try (split; [intros H; inversion H; fail|intros [? [? [? [? _]]]]; discriminate]).
    cbn [length Nat.eqb oassert].
    unfold cbind at 1, cpure at 1. change (index [p1; p2] 0) with (Ret p1).
    unfold cbind at 1, cpure at 1. change (index [p1; p2] 1) with (Ret p2).
    unfold cbind at 1. fold (vstep p1 p2).
    destruct (cfold (vstep p1 p2) (seq 0 (length p1)) [] u) as [[c| |] u1] eqn:E.
    - apply vfold_spec in E; [|lia]. destruct E as [L [kids [R E]]]. simpl in R, E. unfold cret. split.
      + intros H. inversion H; subst. exists p1, p2, kids. split; auto. split.
        * destruct L as [L|L]; [rewrite L; lia|exact L].
        * auto.
      + intros [a [b [ks [EP [LE [R' ->]]]]]]. inversion EP; subst a b.
        assert (D : forall l (u : U) k1 u1 k2 u2, runs_each single l u k1 u1 -> runs_each single l u k2 u2 ->
                   k1 = k2 /\ u1 = u2).
        { clear. induction l; intros ? ? ? ? ? A B; inversion A; inversion B; subst; auto.
          match goal with H1 : single _ _ = _, H2 : single _ _ = _ |- _ =>
            rewrite H1 in H2; inversion H2; subst end.
          match goal with H1 : runs_each _ l _ _ _, H2 : runs_each _ l _ _ _ |- _ =>
            destruct (IHl _ _ _ _ _ H1 H2); subst end. auto. }
        destruct (D _ _ _ _ _ _ R R') as [-> ->]. subst c. reflexivity.
    - split; [discriminate|]. intros [a [b [ks [EP [LE [R ->]]]]]]. inversion EP; subst a b.
      assert (C : cfold (vstep p1 p2) (seq 0 (length p1)) [] u = (Ret (concat ks), u')).
      { apply vfold_spec; [lia|]. split; [now right|]. exists ks. split; [exact R|reflexivity]. }
      congruence.
    - split; [discriminate|]. intros [a [b [ks [EP [LE [R ->]]]]]]. inversion EP; subst a b.
      assert (C : cfold (vstep p1 p2) (seq 0 (length p1)) [] u = (Ret (concat ks), u')).
      { apply vfold_spec; [lia|]. split; [now right|]. exists ks. split; [exact R|reflexivity]. }
      congruence.
  Qed.

  Lemma gene_pairs_length (p1 p2 : list G) : length p1 <= length p2 -> length (gene_pairs p1 p2) = length p1.
  Proof. intros H. unfold gene_pairs. rewrite map_length, combine_length. lia. Qed.

  Lemma vec_cross_length parents u cs u' p1 p2 :
    vec_cross_all_genes single parents u = (Ret cs, u') -> parents = [p1; p2] ->
    (forall args u kids u', single args u = (Ret kids, u') -> length kids = 1) ->
    exists c, cs = [c] /\ length c = length p1.
  Proof.
    intros H -> H1. apply vec_cross_spec in H.
    destruct H as [a [b [kids [E [L [R ->]]]]]]. inversion E; subst a b.
    eexists. split; [reflexivity|]. rewrite <- (gene_pairs_length p1 p2 L).
    induction R; simpl; auto. rewrite app_length. rewrite (H1 _ _ _ _ H), IHR. reflexivity.
  Qed.

  (** With gene crosses that always return, the only failures are those of the shape. *)
  Lemma vec_cross_panics parents u :
    (forall args u, exists kids u', single args u = (Ret kids, u')) ->
    (fst (vec_cross_all_genes single parents u) = Panic <->
     ~ exists p1 p2, parents = [p1; p2] /\ length p1 <= length p2).
  Proof.
    intros T. destruct (vec_cross_all_genes single parents u) as [[cs| |] u'] eqn:E.
    - simpl. split; [discriminate|]. intros H. apply vec_cross_spec in E.
      destruct E as [a [b [k [-> [L _]]]]]. exfalso. apply H. eauto.
    - simpl. split; auto. intros _ [p1 [p2 [-> L]]].
      assert (R : forall l (u : U), exists kids u', runs_each single l u kids u').
      { induction l as [|x l IH]; intros v; [eexists; eexists; constructor|].
        destruct (T x v) as [k [v1 K]]. destruct (IH v1) as [ks [v2 KS]].
        eexists; eexists; econstructor; eauto. }
      destruct (R (gene_pairs p1 p2) u) as [kids [v K]].
      assert (C : vec_cross_all_genes single [p1; p2] u = (Ret [concat kids], v)).
      { apply vec_cross_spec. exists p1, p2, kids. auto. }
      congruence.
    - exfalso. clear -T E. unfold vec_cross_all_genes in E. unfold cbind at 1, cpure at 1 in E.
      destruct (oassert _) eqn:EA; [|discriminate|];
        [|unfold oassert in EA; destruct (_ =? _); discriminate].
      unfold cbind at 1, cpure at 1 in E. destruct (index parents 0) as [p1| |] eqn:E0; try discriminate;
        [|unfold index in E0; destruct (nth_error _ _); discriminate].
      unfold cbind at 1, cpure at 1 in E. destruct (index parents 1) as [p2| |] eqn:E1; try discriminate;
        [|unfold index in E1; destruct (nth_error _ _); discriminate].
      unfold cbind at 1 in E. fold (vstep p1 p2) in E.
      assert (N : forall l c (u : U), fst (cfold (vstep p1 p2) l c u) <> NoFuel).
      { induction l as [|n l IH]; intros c v; cbn [cfold]; [discriminate|].
        unfold cbind at 1. unfold vstep at 1. unfold cbind at 1, cpure at 1.
        destruct (index p1 n) as [g1| |] eqn:G1; try discriminate;
          [|unfold index in G1; destruct (nth_error _ _); discriminate].
        unfold cbind at 1, cpure at 1. destruct (index p2 n) as [g2| |] eqn:G2; try discriminate;
          [|unfold index in G2; destruct (nth_error _ _); discriminate].
        unfold cbind at 1. destruct (T [g1; g2] v) as [k [v' K]]. rewrite K. apply IH. }
      specialize (N (seq 0 (length p1)) [] u). destruct (cfold _ _ _ _) as [[c| |] v]; simpl in *;
        try discriminate. congruence.
  Qed.
End VecCross.

(** ** VecMutation *)
Lemma drawn_excl_in {prec emax} {Hp : FLX.Prec_gt_0 prec} {He : BinarySingleNaN.Prec_lt_emax prec emax}
  {SA : Sampler (bfloat prec emax)} (np : nan_policy prec emax) lo hi r k :
  ltb lo hi = true -> is_finite (b_sub np hi lo) = true ->
  leb lo (@drawn_excl _ (FloatIEEE np) SA lo hi r k) = true /\
  ltb (@drawn_excl _ (FloatIEEE np) SA lo hi r k) hi = true.
Proof.
  intros H W. unfold drawn_excl. cbn [ffinite fsub fle flt FloatIEEE]. rewrite W.
  destruct (leb lo (fraw (r k))) eqn:E1; cbn [andb]; [destruct (ltb (fraw (r k)) hi) eqn:E2; auto|];
    split; auto; fkeys; apply leb_key; repeat split; auto; lra.
Qed.

Section VecMut.
  Context {U G : Type} (np : nan_policy 53 1024) (L : lens U rng) (probability : f64)
    (single : G -> comp U G).
  Notation hundred := (@b_of_Z 53 1024 _ _ 100).
  Notation zero := (@b_of_Z 53 1024 _ _ 0).
  Notation percent := (percent np L).
  Notation after_draw := (after_draw L).
  Notation mutated := (mutated np L probability single).

  Lemma range_ok : ltb zero hundred = true.
  Proof. vm_compute. reflexivity. Qed.

  Definition gene_step := (fun chromo =>
           do r <- zoom L (sample_excl (FT := FloatIEEE np) (zero, hundred)) ;;
           if ltb r probability then single chromo else cret chromo).
  Lemma gene_step_eq g u : gene_step g u =
    if ltb (percent u) probability then single g (after_draw u) else (Ret g, after_draw u).
  Proof.
    unfold gene_step. unfold cbind at 1. unfold zoom, sample_excl. unfold cbind at 1, draw. unfold cret at 1.
    change (if ffinite (fsub (snd (zero, hundred)) (fst (zero, hundred)))
      then if (fle (fst (zero, hundred)) (fraw (lget L u 0%nat)) &&
              flt (fraw (lget L u 0%nat)) (snd (zero, hundred)))%bool
           then fraw (lget L u 0%nat) else fst (zero, hundred)
      else fraw (lget L u 0%nat)) with (percent u).
    change (lput L (fun n : nat => lget L u (S n)) u) with (after_draw u).
    destruct (ltb (percent u) probability); reflexivity.
  Qed.

  Lemma vec_mutation_eq l u : vec_mutation np L probability single l u = cmapM gene_step l u.
  Proof.
    unfold vec_mutation, uniform_excl. cbn [flt FloatIEEE]. 
    pose proof range_ok as R. unfold cbind at 1, cpure at 1.
    destruct (ltb zero hundred); [reflexivity|discriminate].
  Qed.

  Lemma vec_mutation_spec l u l' u' :
    vec_mutation np L probability single l u = (Ret l', u') <-> mutated l u l' u'.
  Proof.
    rewrite vec_mutation_eq. revert u l' u'. induction l as [|g l IH]; intros u l' u'; cbn [cmapM].
    - unfold cret. split; intros H; inversion H; subst; [constructor|reflexivity].
    - unfold cbind at 1. rewrite gene_step_eq. destruct (ltb (percent u) probability) eqn:E.
      + destruct (single g (after_draw u)) as [[g1| |] u1] eqn:ES.
        * unfold cbind at 1. destruct (cmapM gene_step l u1) as [[t| |] u2] eqn:ET.
          -- unfold cret. split.
             ++ intros H. inversion H; subst. apply IH in ET. eapply mut_change; eauto.
             ++ intros H. inversion H; subst; [congruence|].
                match goal with H : single _ _ = _ |- _ => rewrite ES in H; inversion H; subst end.
                match goal with H : mutated l _ _ _ |- _ => apply IH in H; rewrite ET in H; inversion H; subst end.
                reflexivity.
          -- split; [discriminate|]. intros H. inversion H; subst; [congruence|].
             match goal with H : single _ _ = _ |- _ => rewrite ES in H; inversion H; subst end.
             match goal with H : mutated l _ _ _ |- _ => apply IH in H; congruence end.
          -- split; [discriminate|]. intros H. inversion H; subst; [congruence|].
             match goal with H : single _ _ = _ |- _ => rewrite ES in H; inversion H; subst end.
             match goal with H : mutated l _ _ _ |- _ => apply IH in H; congruence end.
        * split; [discriminate|]. intros H. inversion H; subst; congruence.
        * split; [discriminate|]. intros H. inversion H; subst; congruence.
      + unfold cbind at 1. destruct (cmapM gene_step l (after_draw u)) as [[t| |] u2] eqn:ET.
        * unfold cret. split.
          -- intros H. inversion H; subst. apply IH in ET. eapply mut_keep; eauto.
          -- intros H. inversion H; subst; [|congruence].
             match goal with H : mutated l _ _ _ |- _ => apply IH in H; rewrite ET in H; inversion H; subst end.
             reflexivity.
        * split; [discriminate|]. intros H. inversion H; subst; [|congruence].
          match goal with H : mutated l _ _ _ |- _ => apply IH in H; congruence end.
        * split; [discriminate|]. intros H. inversion H; subst; [|congruence].
          match goal with H : mutated l _ _ _ |- _ => apply IH in H; congruence end.
  Qed.

  Lemma mutated_length l u l' u' : mutated l u l' u' -> length l' = length l.
  Proof. induction 1; simpl; auto. Qed.
  Lemma mutated_each l u l' u' : mutated l u l' u' ->
    Forall2 (fun g g' => g' = g \/ exists v v', single g v = (Ret g', v')) l l'.
  Proof. induction 1; constructor; eauto. Qed.

  Lemma vec_mutation_genes l u l' u' : vec_mutation np L probability single l u = (Ret l', u') ->
    length l' = length l /\
    Forall2 (fun g g' => g' = g \/ exists v v', single g v = (Ret g', v')) l l'.
  Proof.
    intros H. apply vec_mutation_spec in H. split; [eapply mutated_length|eapply mutated_each]; eauto.
  Qed.

  (** The draws are in [0, 100). *)
  Lemma percent_range u : leb zero (percent u) = true /\ ltb (percent u) hundred = true.
  Proof.
    apply (drawn_excl_in np zero hundred (lget L u) 0); [exact range_ok|]. vm_compute. reflexivity.
  Qed.

End VecMut.

Section VecMut2.
  Context {U G : Type} (np : nan_policy 53 1024) (L : lens U rng) (probability : f64)
    (single : G -> comp U G).
  Notation hundred := (@b_of_Z 53 1024 _ _ 100).
  Notation zero := (@b_of_Z 53 1024 _ _ 0).
  Notation percent := (percent np L).
  Notation after_draw := (after_draw L).

  Lemma never_mutates l u : ltb zero probability = false -> exists u',
    vec_mutation np L probability single l u = (Ret l, u') /\
    forall single', vec_mutation np L probability single' l u = (Ret l, u').
  Proof.
    intros H.
    assert (N : forall u, ltb (percent u) probability = false).
    { intros v. destruct (percent_range np L v) as [R1 _]. destruct (ltb (percent v) probability) eqn:E; auto.
      apply ltb_key in E. apply leb_key in R1. exfalso.
      assert (ltb zero probability = true).
      { apply ltb_key. destruct E as [A [B C]], R1 as [A' [B' C']]. repeat split; auto. lra. }
      congruence. }
    assert (M : forall (l : list G) u, exists u', forall s, SpecBits.mutated np L probability s l u l u').
    { clear l u. induction l as [|g l IH]; intros u; [eexists; constructor|].
      destruct (IH (after_draw u)) as [u' M]. exists u'. intros s. apply mut_keep; auto. }
    destruct (M l u) as [u' M']. exists u'. split; [|intros s]; apply vec_mutation_spec; apply M'.
  Qed.

  Lemma always_mutates l u l' u' : leb hundred probability = true ->
    vec_mutation np L probability single l u = (Ret l', u') ->
    Forall2 (fun g g' => exists v v', single g v = (Ret g', v')) l l'.
  Proof.
    intros H HM. apply vec_mutation_spec in HM.
    induction HM as [| g l u l' u' E M IH |]; constructor; eauto.
    exfalso. destruct (percent_range np L u) as [_ R]. apply ltb_key in R. apply leb_key in H.
    assert (ltb (percent u) probability = true).
    { apply ltb_key. destruct R as [A [B C]], H as [A' [B' C']]. repeat split; auto. lra. }
    congruence.
  Qed.
End VecMut2.
