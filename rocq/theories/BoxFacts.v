(** * MoveToBoundary: proofs *)

From Coq Require Import List Arith ZArith Bool Lia Reals Lra.
From Flocq Require Import Core IEEE754.Binary IEEE754.BinarySingleNaN.
From Verif Require Import Base Logic FloatModel FloatFacts GaModel PsoModel PsoComponents SpecGa SpecPso SpecBox
  PsoProofs.
Import ListNotations.

Section Clamp.
  Context {T : Type} {FT : FloatTrait T}.

  Lemma update_nth {A} (l1 : list A) a l2 x : update (l1 ++ a :: l2) (length l1) x = Ret (l1 ++ x :: l2).
  Proof. induction l1 as [|b l1 IH]; simpl; auto. now rewrite IH. Qed.
  Lemma index_nth {A} (l1 : list A) a l2 : index (l1 ++ a :: l2) (length l1) = Ret a.
  Proof. apply index_ret. rewrite nth_error_app2, Nat.sub_diag by lia. reflexivity. Qed.

  Lemma move_to_boundary_eq (box : list (T * T)) (x : list T) : length x = length box ->
    move_to_boundary box x = Ret (map (fun xi => clamp_coordinate (fst xi) (snd xi)) (combine x box)).
  Proof.
    intros H. unfold move_to_boundary. rewrite H, Nat.eqb_refl. simpl. rewrite <- H.
    assert (G : forall todo itodo done idone, length done = length idone -> length todo = length itodo ->
      ofold (fun x i => let! xi := index x i in let! it := index (idone ++ itodo) i in
               update x i (clamp_coordinate xi it)) (seq (length done) (length todo)) (done ++ todo)
      = Ret (done ++ map (fun xi => clamp_coordinate (fst xi) (snd xi)) (combine todo itodo))).
    { induction todo as [|a todo IH]; intros [|i itodo] done idone H1 H2; try discriminate; simpl.
      - reflexivity.
      - rewrite index_nth. simpl. rewrite H1, index_nth. simpl. rewrite <- H1, update_nth. simpl.
        specialize (IH itodo (done ++ [clamp_coordinate a i]) (idone ++ [i])).
        rewrite !app_length, <- !app_assoc in IH. cbn [length app] in IH.
        rewrite Nat.add_1_r in IH. rewrite IH; auto. rewrite !Nat.add_1_r. congruence. }
    apply (G x box [] []); auto.
  Qed.
  Lemma move_to_boundary_panic (box : list (T * T)) (x : list T) :
    move_to_boundary box x = Panic <-> length x <> length box.
  Proof.
    destruct (Nat.eq_dec (length x) (length box)) as [E|E].
    - rewrite (move_to_boundary_eq box x E). split; [discriminate|congruence].
    - split; auto. intros _. unfold move_to_boundary. apply Nat.eqb_neq in E. rewrite E. reflexivity.
  Qed.
  Lemma move_to_boundary_length box (x y : list T) :
    move_to_boundary box x = Ret y -> length y = length x.
  Proof.
    intros H. destruct (Nat.eq_dec (length x) (length box)) as [E|E].
    - rewrite (move_to_boundary_eq box x E) in H. inversion H. rewrite map_length, combine_length. lia.
    - apply move_to_boundary_panic in E. congruence.
  Qed.
End Clamp.

Section Float.
  Context {prec emax : Z} {Hp : Prec_gt_0 prec} {He : Prec_lt_emax prec emax}.
  Variable np : nan_policy prec emax.
  Notation F := (bfloat prec emax).
  Notation move := (@move_to_boundary F (FloatIEEE np)).
  Notation clamp := (@clamp_coordinate F (FloatIEEE np)).

  Lemma clamp_spec (x lo hi : F) : leb lo hi = true ->
    (is_finite x = false -> clamp x (lo, hi) = lo) /\
    (is_finite x = true -> ltb x lo = true -> clamp x (lo, hi) = lo) /\
    (is_finite x = true -> ltb hi x = true -> clamp x (lo, hi) = hi) /\
    (is_finite x = true -> leb lo x = true -> leb x hi = true -> clamp x (lo, hi) = x).
  Proof.
    intros H. unfold clamp_coordinate. cbn [ffinite flt FloatIEEE fst snd].
    assert (L1 : ltb lo lo = false). { destruct (ltb lo lo) eqn:E; auto. fkeys. lra. }
    assert (L2 : ltb hi lo = false). { destruct (ltb hi lo) eqn:E; auto. fkeys. lra. }
    split; [intros ->|split; [intros -> E|split; [intros -> E|intros -> E1 E2]]]; cbn [negb].
    - now rewrite L1, L2.
    - now rewrite E, L2.
    - assert (L3 : ltb x lo = false). { destruct (ltb x lo) eqn:E'; auto. fkeys. lra. }
      now rewrite L3, E.
    - assert (L3 : ltb x lo = false). { destruct (ltb x lo) eqn:E'; auto. fkeys. lra. }
      assert (L4 : ltb hi x = false). { destruct (ltb hi x) eqn:E'; auto. fkeys. lra. }
      now rewrite L3, L4.
  Qed.

  (** The four cases are all there is. *)
  Lemma clamp_cases (x lo hi : F) : is_nan lo = false -> is_nan hi = false ->
    is_finite x = false \/
    is_finite x = true /\ (ltb x lo = true \/ ltb hi x = true \/ (leb lo x = true /\ leb x hi = true)).
  Proof.
    intros N1 N2. destruct (is_finite x) eqn:Fx; auto. right. split; auto.
    pose proof (finite_not_nan x Fx) as N.
    destruct (ltb x lo) eqn:E1; auto. destruct (ltb hi x) eqn:E2; auto. right. right.
    apply ltb_false in E1; auto. apply ltb_false in E2; auto.
    split; apply leb_key; repeat split; auto.
  Qed.

  Lemma clamp_in (x lo hi : F) : is_finite lo = true -> is_finite hi = true -> leb lo hi = true ->
    is_finite (clamp x (lo, hi)) = true /\
    leb lo (clamp x (lo, hi)) = true /\ leb (clamp x (lo, hi)) hi = true.
  Proof.
    intros F1 F2 H. destruct (clamp_spec x lo hi H) as [C1 [C2 [C3 C4]]].
    assert (R1 : leb lo lo = true). { fkeys. apply leb_key. repeat split; auto. lra. }
    assert (R2 : leb hi hi = true). { fkeys. apply leb_key. repeat split; auto. lra. }
    destruct (clamp_cases x lo hi) as [Fx|[Fx [E|[E|[E1 E2]]]]]; auto using finite_not_nan.
    - rewrite (C1 Fx). auto.
    - rewrite (C2 Fx E). auto.
    - rewrite (C3 Fx E). auto.
    - rewrite (C4 Fx E1 E2). auto.
  Qed.

  (** C38 *)
  Lemma boundary_cases (box : list (F * F)) x y : move box x = Ret y ->
    length y = length x /\ length x = length box /\
    forall k xk yk lo hi, nth_error x k = Some xk -> nth_error y k = Some yk ->
      nth_error box k = Some (lo, hi) -> leb lo hi = true ->
      (is_finite xk = false -> yk = lo) /\
      (is_finite xk = true -> ltb xk lo = true -> yk = lo) /\
      (is_finite xk = true -> ltb hi xk = true -> yk = hi) /\
      (is_finite xk = true -> leb lo xk = true -> leb xk hi = true -> yk = xk).
  Proof.
    intros H. destruct (Nat.eq_dec (length x) (length box)) as [E|E].
    - split; [eapply move_to_boundary_length; eauto|]. split; auto.
      rewrite (@move_to_boundary_eq F (FloatIEEE np) box x E) in H. inversion H as [H1]. clear H.
      intros k xk yk lo hi Hx Hy Hb L. rewrite nth_error_map in Hy.
      assert (C : nth_error (combine x box) k = Some (xk, (lo, hi))).
      { clear - Hx Hb. revert box k Hx Hb. induction x as [|a x IH]; intros [|b box] [|k]; simpl; try congruence.
        apply IH. }
      rewrite C in Hy. inversion Hy. cbn [fst snd]. now apply clamp_spec.
    - apply (proj2 (@move_to_boundary_panic F (FloatIEEE np) box x)) in E. congruence.
  Qed.
  Lemma boundary_in_box (box : list (F * F)) x y : good_box box -> move box x = Ret y -> in_box box y.
  Proof.
    intros Hb H. destruct (Nat.eq_dec (length x) (length box)) as [E|E].
    - rewrite (@move_to_boundary_eq F (FloatIEEE np) box x E) in H. inversion H. clear H H1.
      revert x E. induction Hb as [|[lo hi] box [F1 [F2 L]] Hb IH]; intros [|a x] E; try discriminate; simpl.
      + constructor.
      + constructor; [apply clamp_in; auto|]. apply IH. simpl in E. congruence.
    - apply (proj2 (@move_to_boundary_panic F (FloatIEEE np) box x)) in E. congruence.
  Qed.
  Lemma boundary_fixed (box : list (F * F)) x : good_box box -> in_box box x -> move box x = Ret x.
  Proof.
    intros Hb Hx. assert (E : length x = length box) by (clear Hb; induction Hx; simpl; congruence).
    rewrite (@move_to_boundary_eq F (FloatIEEE np) box x E). f_equal. clear E.
    induction Hx as [|a [lo hi] x box [F1 [L1 L2]] Hx IH]; auto. inversion Hb as [|? ? [G1 [G2 G3]] Hb']; subst.
    simpl. f_equal; auto. now apply clamp_spec.
  Qed.
  Lemma boundary_idempotent (box : list (F * F)) x y : good_box box -> move box x = Ret y -> move box y = Ret y.
  Proof. intros Hb H. apply boundary_fixed; auto. eapply boundary_in_box; eauto. Qed.

  (** C36 *)
  Lemma pso_in_box {U} (box : list (F * F)) (ok : pso_config U F -> Prop) s h cfg fuel u o u' t :
    good_box box ->
    (forall cfg, ok cfg -> exists earlier,
       pso_post_move cfg = earlier ++ [fun x => cpure (move box x)]) ->
    @pso_reach U F (FloatIEEE np) ok s h -> ok cfg ->
    @pso_find_min U F (FloatIEEE np) cfg fuel s u = (o, u', t) \/
    @pso_next_iterations U F (FloatIEEE np) cfg fuel s u = (o, u', t) ->
    Forall (in_box box) (evals t) /\
    (forall e q, In e t -> shows e = Some q -> swarm_inside (in_box box) q) /\
    (forall r s', o = Ret (r, s') -> swarm_inside (in_box box) s' /\
       forall x v, r = Some (x, v) -> in_box box x).
  Proof.
    intros Hb Hok Hr Hc H. eapply (@pso_run_inside U F (FloatIEEE np) ok); eauto.
    intros c Hk. destruct (Hok c Hk) as [earlier E]. exists earlier, (fun x => cpure (move box x)). split; auto.
    intros x w y w' M. inversion M. eapply boundary_in_box; eauto.
  Qed.
End Float.
