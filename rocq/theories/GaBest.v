(** * Best and worst individual of a population *)

From Coq Require Import List Arith ZArith Bool Reals Lia Lra.
From Flocq Require Import Core.
From Verif Require Import Base Logic FloatModel SpecGa FloatFacts GaModel.
Import ListNotations.

Section Best.
  Context {T : Type}.
  Implicit Types (l : list (individual T)) (b y i : individual T).

  Lemma nth_error_snoc {A} (l : list A) x k (y : A) :
    nth_error (l ++ [x]) k = Some y ->
    (k < length l /\ nth_error l k = Some y) \/ (k = length l /\ y = x).
  Proof.
    intros H. destruct (lt_eq_lt_dec k (length l)) as [[Hk|Hk]|Hk].
    - left. split; auto. now rewrite nth_error_app1 in H by auto.
    - right. subst. rewrite nth_error_app2 in H by auto. rewrite Nat.sub_diag in H.
      simpl in H. split; congruence.
    - assert (k < length (l ++ [x])) by (apply nth_error_Some; congruence).
      rewrite app_length in *. simpl in *. lia.
  Qed.

  Lemma nth_error_snoc_last {A} (l : list A) x : nth_error (l ++ [x]) (length l) = Some x.
  Proof. rewrite nth_error_app2 by auto. now rewrite Nat.sub_diag. Qed.

  (** The comparator never panics. *)
  Lemma min_cmp_total b y : exists c, individuals_min_cmp b y = Ret c /\
    (c = Gt <-> (is_nan (fitness b) = true \/
                 (is_nan (fitness b) = false /\ is_nan (fitness y) = false /\
                  (key (fitness y) < key (fitness b))%R))).
  Proof.
    unfold individuals_min_cmp.
    destruct (is_nan (fitness b)) eqn:Nb, (is_nan (fitness y)) eqn:Ny; simpl.
    - exists Gt. intuition.
    - exists Gt. intuition.
    - exists Lt. intuition; discriminate.
    - rewrite partial_cmp_key by auto. simpl. eexists; split; [reflexivity|].
      destruct (Rcompare_spec (key (fitness b)) (key (fitness y))); split; intros H0;
        try discriminate; auto; intuition (try discriminate; try lra).
  Qed.

  Lemma max_cmp_total b y : exists c, individuals_max_cmp b y = Ret c /\
    (c = Gt <-> (is_nan (fitness b) = false /\
                 (is_nan (fitness y) = true \/ (key (fitness y) < key (fitness b))%R))).
  Proof.
    unfold individuals_max_cmp.
    destruct (is_nan (fitness b)) eqn:Nb, (is_nan (fitness y)) eqn:Ny; simpl.
    - exists Lt. intuition; discriminate.
    - exists Lt. intuition; discriminate.
    - exists Gt. intuition.
    - rewrite partial_cmp_key by auto. simpl. eexists; split; [reflexivity|].
      destruct (Rcompare_spec (key (fitness b)) (key (fitness y))); split; intros H0;
        try discriminate; auto; intuition (try discriminate; try lra).
  Qed.

  Lemma is_best_step l b y c : is_best l b -> individuals_min_cmp b y = Ret c ->
    is_best (l ++ [y]) (match c with Gt => y | _ => b end).
  Proof.
    intros [k [Hk [Hle [Hlt Hlast]]]] Hc.
    destruct (min_cmp_total b y) as [c' [Hc' Hiff]]. rewrite Hc in Hc'. inversion Hc'; subst c'.
    assert (Hkl : k < length l) by (apply nth_error_Some; congruence).
    destruct (c) eqn:Ec; try (
      (* b stays *)
      assert (Hn : ~ (is_nan (fitness b) = true \/
                 (is_nan (fitness b) = false /\ is_nan (fitness y) = false /\
                  (key (fitness y) < key (fitness b))%R))) by (intros K; apply Hiff in K; discriminate);
      assert (Nb : is_nan (fitness b) = false) by (destruct (is_nan (fitness b)); intuition);
      exists k; split; [rewrite nth_error_app1; auto|]; split; [|split];
      [ intros i Hi; apply in_app_or in Hi; destruct Hi as [Hi|[<-|[]]]; [apply Hle; auto|];
        unfold le_nan_last; destruct (is_nan (fitness y)) eqn:Ny; auto; right; split; auto;
        apply leb_key; repeat split; auto; destruct (Rlt_le_dec (key (fitness y)) (key (fitness b)));
        [exfalso; apply Hn; right; auto|lra]
      | intros _ j i Hj Hi; rewrite nth_error_app1 in Hi by lia; eapply Hlt; eauto
      | intros; congruence ]).
    (* y replaces b *)
    assert (Hg : is_nan (fitness b) = true \/
                 (is_nan (fitness b) = false /\ is_nan (fitness y) = false /\
                  (key (fitness y) < key (fitness b))%R)) by (apply Hiff; auto).
    exists (length l). split; [apply nth_error_snoc_last|].
    destruct Hg as [Nb|[Nb [Ny Hlt']]].
    - assert (Hall : forall i, In i l -> is_nan (fitness i) = true).
      { intros i Hi. destruct (Hle i Hi) as [H|[H _]]; auto; congruence. }
      split; [|split].
      + intros i Hi. apply in_app_or in Hi. destruct Hi as [Hi|[<-|[]]].
        * left. auto.
        * apply le_nan_last_refl.
      + intros Ny j i Hj Hi. rewrite nth_error_app1 in Hi by auto. split; auto.
        left. apply Hall. eapply nth_error_In; eauto.
      + intros _. rewrite app_length. simpl. lia.
    - split; [|split].
      + intros i Hi. apply in_app_or in Hi. destruct Hi as [Hi|[<-|[]]].
        * specialize (Hle i Hi). eapply le_nan_last_trans; eauto.
          right. split; auto. apply leb_key. repeat split; auto. lra.
        * apply le_nan_last_refl.
      + intros _ j i Hj Hi. rewrite nth_error_app1 in Hi by auto.
        apply nth_error_In in Hi. specialize (Hle i Hi).
        eapply lt_le_nan_last_trans; eauto. split; auto. right. apply ltb_key. auto.
      + intros; congruence.
  Qed.

  Lemma is_worst_step l b y c : is_worst l b -> individuals_max_cmp b y = Ret c ->
    is_worst (l ++ [y]) (match c with Gt => b | _ => y end).
  Proof.
    intros [k [Hk [Hge Hgt]]] Hc.
    destruct (max_cmp_total b y) as [c' [Hc' Hiff]]. rewrite Hc in Hc'. inversion Hc'; subst c'.
    assert (Hkl : k < length l) by (apply nth_error_Some; congruence).
    assert (Hy : c <> Gt -> ge_nan_first (fitness y) (fitness b)).
    { intros Hn. unfold ge_nan_first. destruct (is_nan (fitness b)) eqn:Nb; auto.
      destruct (is_nan (fitness y)) eqn:Ny.
      - exfalso. apply Hn, Hiff. auto.
      - right. split; auto. apply leb_key. repeat split; auto.
        destruct (Rlt_le_dec (key (fitness y)) (key (fitness b))); auto.
        exfalso. apply Hn, Hiff. auto. }
    destruct c eqn:Ec; try (
      exists (length l); split; [apply nth_error_snoc_last|]; split;
      [ intros i Hi; apply in_app_or in Hi; destruct Hi as [Hi|[<-|[]]];
        [ eapply ge_nan_first_trans; [apply Hy; discriminate|auto] | apply ge_nan_first_refl ]
      | intros j i Hj Hi; assert (j < length (l ++ [y])) by (apply nth_error_Some; congruence);
        rewrite app_length in *; simpl in *; lia ]).
    assert (Hg : is_nan (fitness b) = false /\
                 (is_nan (fitness y) = true \/ (key (fitness y) < key (fitness b))%R))
      by (apply Hiff; auto).
    destruct Hg as [Nb Hg].
    exists k. split; [rewrite nth_error_app1; auto|]. split.
    - intros i Hi. apply in_app_or in Hi. destruct Hi as [Hi|[<-|[]]]; auto.
      unfold ge_nan_first. destruct (is_nan (fitness y)) eqn:Ny; auto. right. split; auto.
      apply leb_key. repeat split; auto. destruct Hg; [congruence|lra].
    - intros j i Hj Hi. apply nth_error_snoc in Hi. destruct Hi as [[Hl Hi]|[-> ->]]; eauto.
      split; auto. destruct (is_nan (fitness y)) eqn:Ny; auto. right.
      apply ltb_key. repeat split; auto. destruct Hg; [congruence|lra].
  Qed.

  Lemma min_by_best x l : exists b,
    min_by individuals_min_cmp (x :: l) = Ret (Some b) /\ is_best (x :: l) b.
  Proof.
    destruct (ofold_total (fun x y => let! c := individuals_min_cmp x y in
                                  Ret (match c with Gt => y | _ => x end))
               (fun done s => is_best (x :: done) s) l x) as [b [E Hb]].
    - intros done y rest s _ Hs.
      destruct (min_cmp_total s y) as [c [Hc _]]. rewrite Hc. simpl. eexists; split; [reflexivity|].
      apply (is_best_step (x :: done) s y c Hs Hc).
    - exists 0. repeat split; auto.
      + intros i [<-|[]]. apply le_nan_last_refl.
      + intros. lia.
    - exists b. unfold min_by. rewrite E. auto.
  Qed.

  Lemma max_by_worst x l : exists w,
    max_by individuals_max_cmp (x :: l) = Ret (Some w) /\ is_worst (x :: l) w.
  Proof.
    destruct (ofold_total (fun x y => let! c := individuals_max_cmp x y in
                                  Ret (match c with Gt => x | _ => y end))
               (fun done s => is_worst (x :: done) s) l x) as [b [E Hb]].
    - intros done y rest s _ Hs.
      destruct (max_cmp_total s y) as [c [Hc _]]. rewrite Hc. simpl. eexists; split; [reflexivity|].
      apply (is_worst_step (x :: done) s y c Hs Hc).
    - exists 0. split; [reflexivity|split].
      + intros i [<-|[]]. apply ge_nan_first_refl.
      + intros j i Hj Hi. destruct j as [|[|]]; simpl in Hi; try lia; discriminate.
    - exists b. unfold max_by. rewrite E. auto.
  Qed.

  (** [update_best_worst_individuals] never panics and computes the extremes. *)
  Lemma update_best_worst_spec (p : population T) :
    exists p', update_best_worst p = Ret p' /\ individuals p' = individuals p /\
      iteration p' = iteration p /\ extremes p p'.
  Proof.
    unfold update_best_worst. destruct p as [l b w it]. simpl.
    destruct l as [|x l].
    - simpl. eexists; split; [reflexivity|]. unfold extremes. simpl. auto.
    - destruct (min_by_best x l) as [b' [Eb Hb]], (max_by_worst x l) as [w' [Ew Hw]].
      rewrite Eb. cbn [obind individuals]. rewrite Ew. cbn [obind].
      eexists; split; [reflexivity|]. unfold extremes. simpl. eauto 10.
  Qed.
End Best.
