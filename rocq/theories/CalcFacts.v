(** * The velocity calculators: proofs (C42) *)

From Coq Require Import List Arith ZArith Bool Lia Reals Lra.
From Flocq Require Import Core IEEE754.BinarySingleNaN IEEE754.Binary.
From Verif Require Import Base FloatModel Rng FloatFacts GaModel PsoModel PsoComponents SpecGa SpecPso PsoFacts
  SpecRand RandFacts CreateFacts ArithFacts PostFacts SatFacts SpecVel.
Import ListNotations.

(** ** Loops over the dimensions *)
Lemma index_some {A} (l : list A) i x : nth_error l i = Some x -> index l i = Ret x.
Proof. unfold index. now intros ->. Qed.
Lemma index_none {A} (l : list A) i : length l <= i -> index l i = Panic.
Proof. intros H. unfold index. apply nth_error_None in H. now rewrite H. Qed.
Lemma index_cases {A} (l : list A) i :
  (i < length l /\ exists x, nth_error l i = Some x /\ index l i = Ret x) \/ (length l <= i /\ index l i = Panic).
Proof.
  destruct (nth_error l i) as [x|] eqn:E.
  - left. split; [apply nth_error_Some; congruence|]. exists x. split; auto. now apply index_some.
  - right. apply nth_error_None in E. split; auto. now apply index_none.
Qed.

Lemma some_eq {A} (a b : A) : Some a = Some b -> a = b.
Proof. congruence. Qed.
Lemma Forall2_length {A B} (P : A -> B -> Prop) l1 l2 : Forall2 P l1 l2 -> length l1 = length l2.
Proof. induction 1; simpl; congruence. Qed.
Lemma Forall2_nth' {A B} (P : A -> B -> Prop) l1 l2 : length l1 = length l2 ->
  (forall k a b, nth_error l1 k = Some a -> nth_error l2 k = Some b -> P a b) -> Forall2 P l1 l2.
Proof.
  revert l2. induction l1 as [|a l1 IH]; intros [|b l2] L H; try discriminate; constructor.
  - apply (H 0); reflexivity.
  - apply IH; [simpl in L; congruence|]. intros k x y H1 H2. apply (H (S k)); auto.
Qed.

Section Loop.
  Context {A : Type} (body : nat -> comp rng A) (c : nat) (g : nat -> rng -> A).

  Lemma dims_return d r : (forall i, i < d -> consumes c (body i) (g i)) ->
    exists y, cmapM body (seq 0 d) r = (Ret y, shift (d * c) r) /\ length y = d /\
      forall k, k < d -> nth_error y k = Some (g k (shift (k * c) r)).
  Proof.
    intros H.
    assert (C := consumes_mapM c body g (seq 0 d)).
    rewrite seq_length in C. eexists. split; [apply C|split].
    - intros i Hi. apply H. apply in_seq in Hi. lia.
    - rewrite map_length. unfold enumerate. rewrite combine_length, !seq_length. lia.
    - intros k Hk. rewrite nth_error_map, nth_error_enumerate.
      assert (E : nth_error (seq 0 d) k = Some k).
      { rewrite (nth_error_nth' _ 0) by now rewrite seq_length. now rewrite seq_nth. }
      rewrite E. reflexivity.
  Qed.
  Lemma dims_panic d r i : i < d ->
    (forall j, j < i -> consumes c (body j) (g j)) -> (forall r, fst (body i r) = Panic) ->
    fst (cmapM body (seq 0 d) r) = Panic.
  Proof.
    intros Hi Hc Hp.
    assert (G : forall n a r, (forall j, a <= j < a + n -> j < i -> consumes c (body j) (g j)) ->
      a <= i < a + n -> fst (cmapM body (seq a n) r) = Panic).
    { induction n as [|n IH]; intros a r0 K Ka; [lia|]. simpl. unfold cbind at 1.
      destruct (Nat.eq_dec a i) as [->|N].
      - specialize (Hp r0). destruct (body i r0) as [o r1]. simpl in Hp. now rewrite Hp.
      - rewrite (K a); [|lia|lia]. unfold cbind.
        specialize (IH (S a) (shift c r0)). destruct (cmapM body (seq (S a) n) (shift c r0)) as [o r1].
        simpl in IH. rewrite IH; [reflexivity| |lia]. intros j Hj. apply K. lia. }
    apply (G d 0 r); [|lia]. intros j _. apply Hc.
  Qed.
End Loop.

(** The first index at which one of several conditions fails. *)
Lemma first_failure (ok : nat -> bool) d : (exists i, i < d /\ ok i = false) ->
  exists i, i < d /\ ok i = false /\ forall j, j < i -> ok j = true.
Proof.
  intros [i [Hi E]]. revert i Hi E. induction d as [|d IH]; intros i Hi E; [lia|].
  destruct (forallb ok (seq 0 d)) eqn:A.
  - exists i. rewrite forallb_forall in A.
    assert (i = d). { destruct (Nat.eq_dec i d); auto. rewrite (A i) in E; [discriminate|]. apply in_seq. lia. }
    subst i. split; [lia|]. split; auto. intros j Hj. apply A. apply in_seq. lia.
  - assert (K : exists i, i < d /\ ok i = false).
    { clear - A. induction d as [|d IH]; [discriminate|]. rewrite seq_S, forallb_app in A. simpl in A.
      destruct (forallb ok (seq 0 d)).
      - exists d. split; [lia|]. simpl in A. now rewrite andb_true_r in A.
      - destruct IH as [i [Hi Ei]]; auto. exists i. split; [lia|auto]. }
    destruct K as [i' [Hi' E']]. destruct (IH i' Hi' E') as [k [K1 [K2 K3]]].
    exists k. split; [lia|]. auto.
Qed.

(** ** The units drawn *)
Section Units.
  Context {T : Type} {FT : FloatTrait T}.
  Lemma uniform_unit {prec emax : Z} {Hp : Prec_gt_0 prec} {He : Prec_lt_emax prec emax} (np : nan_policy prec emax) :
    uniform_incl (FT := FloatIEEE np) (b_of_Z 0) (b_of_Z 1) = Ret (b_of_Z 0, b_of_Z 1).
  Proof.
    destruct (of_Z_exact (prec := prec) (emax := emax) 0) as [F0 E0]; [simpl; apply Z.pow_nonneg; lia|].
    destruct (of_Z_exact (prec := prec) (emax := emax) 1) as [F1 E1].
    { pose proof (prec_pos (prec := prec)). assert (2 ^ 0 <= 2 ^ prec)%Z by (apply Z.pow_le_mono_r; lia). simpl in *. lia. }
    unfold uniform_incl. cbn [fle ffinite FloatIEEE]. rewrite F0, F1.
    assert (L : leb (b_of_Z 0 : bfloat prec emax) (b_of_Z 1) = true).
    { apply leb_key. rewrite !key_finite, E0, E1 by auto. split; [now apply finite_not_nan|].
      split; [now apply finite_not_nan|]. lra. }
    now rewrite L.
  Qed.
  Lemma consumes_unit32 np32 : consumes 1 (unit_f32 (T := T) np32) (fun r => unit32 np32 r 0).
  Proof. intros r. unfold unit_f32, cbind, cpure. rewrite uniform_unit. reflexivity. Qed.
  Lemma consumes_unit64 np64 : consumes 1 (unit_f64 (T := T) np64) (fun r => unit64 np64 r 0).
  Proof. intros r. unfold unit_f64, cbind, cpure. rewrite uniform_unit. reflexivity. Qed.
  Lemma unit32_shift np32 r a k : unit32 (T := T) np32 (shift a r) k = unit32 np32 r (a + k).
  Proof. reflexivity. Qed.
  Lemma unit64_shift np64 r a k : unit64 (T := T) np64 (shift a r) k = unit64 np64 r (a + k).
  Proof. reflexivity. Qed.
End Units.

(** ** Classic, canonical and inertia: the common shape *)
Section Two.
  Context {T : Type} {FT : FloatTrait T}.
  Variable np32 : nan_policy 24 128.
  Variable form : T -> T -> T -> T -> T -> T -> T.   (* v, best, x, global, r_personal, r_global *)

  Definition two_body (p b : particle T) (i : nat) : comp rng T :=
    do r_personal <- unit_f32 np32 ;;
    do r_global <- unit_f32 np32 ;;
    cpure (let! v := index (velocity p) i in
           let! b' := index (best_personal_coordinates p) i in
           let! x := index (coordinates p) i in
           let! g := index (coordinates b) i in
           Ret (form v b' x g r_personal r_global)).

  Lemma two_body_ok p b i v b' x g :
    nth_error (velocity p) i = Some v -> nth_error (best_personal_coordinates p) i = Some b' ->
    nth_error (coordinates p) i = Some x -> nth_error (coordinates b) i = Some g ->
    consumes 2 (two_body p b i) (fun r => form v b' x g (unit32 np32 r 0) (unit32 np32 r 1)).
  Proof.
    intros H1 H2 H3 H4.
    apply (consumes_bind' 1 1 _ _ _ _ (consumes_unit32 np32)). intros r. unfold cbind.
    rewrite consumes_unit32. unfold cpure.
    rewrite (index_some _ _ _ H1), (index_some _ _ _ H2), (index_some _ _ _ H3), (index_some _ _ _ H4). reflexivity.
  Qed.
  Definition two_ok (p b : particle T) (i : nat) : bool :=
    (i <? length (velocity p)) && ((i <? length (best_personal_coordinates p)) && (i <? length (coordinates b))).
  Lemma two_body_panic p b i r : i < length (coordinates p) -> two_ok p b i = false ->
    fst (two_body p b i r) = Panic.
  Proof.
    intros Hi Hk. unfold two_body, cbind. rewrite consumes_unit32. cbv beta. rewrite consumes_unit32. unfold cpure.
    simpl. unfold two_ok in Hk.
    destruct (index_cases (velocity p) i) as [[L1 [v [_ ->]]]|[L1 ->]]; [|reflexivity].
    destruct (index_cases (best_personal_coordinates p) i) as [[L2 [b' [_ ->]]]|[L2 ->]]; [|reflexivity].
    destruct (index_cases (coordinates p) i) as [[L3 [x [_ ->]]]|[L3 ->]]; [|reflexivity].
    destruct (index_cases (coordinates b) i) as [[L4 [g [_ ->]]]|[L4 ->]]; [|reflexivity].
    exfalso. apply Nat.ltb_lt in L1, L2, L4. now rewrite L1, L2, L4 in Hk.
  Qed.
  Lemma two_ok_vals p b i : i < length (coordinates p) -> two_ok p b i = true ->
    exists v b' x g, nth_error (velocity p) i = Some v /\ nth_error (best_personal_coordinates p) i = Some b' /\
      nth_error (coordinates p) i = Some x /\ nth_error (coordinates b) i = Some g.
  Proof.
    intros Hi Hk. unfold two_ok in Hk. apply andb_prop in Hk. destruct Hk as [L1 Hk].
    apply andb_prop in Hk. destruct Hk as [L2 L3]. apply Nat.ltb_lt in L1, L2, L3.
    apply nth_error_Some in Hi, L1, L2, L3.
    destruct (nth_error (velocity p) i) as [v|]; [|congruence].
    destruct (nth_error (best_personal_coordinates p) i) as [b'|]; [|congruence].
    destruct (nth_error (coordinates p) i) as [x|]; [|congruence].
    destruct (nth_error (coordinates b) i) as [g|]; [|congruence].
    exists v, b', x, g. auto.
  Qed.

  Definition two_run (p b : particle T) : comp rng (list T) := cmapM (two_body p b) (seq 0 (length (coordinates p))).

  Lemma two_returns p b r : covers p (velocity p) -> covers p (best_personal_coordinates p) -> covers p (coordinates b) ->
    exists y, two_run p b r = (Ret y, shift (2 * length (coordinates p)) r) /\ length y = length (coordinates p) /\
      forall k v b' x g, nth_error (velocity p) k = Some v -> nth_error (best_personal_coordinates p) k = Some b' ->
        nth_error (coordinates p) k = Some x -> nth_error (coordinates b) k = Some g ->
        nth_error y k = Some (form v b' x g (unit32 np32 r (2 * k)) (unit32 np32 r (2 * k + 1))).
  Proof.
    unfold covers. intros H1 H2 H3.
    set (val := fun k (r : rng) =>
      match nth_error (velocity p) k, nth_error (best_personal_coordinates p) k,
            nth_error (coordinates p) k, nth_error (coordinates b) k with
      | Some v, Some b', Some x, Some g => form v b' x g (unit32 np32 r 0) (unit32 np32 r 1)
      | _, _, _, _ => fzero
      end).
    destruct (dims_return (two_body p b) 2 val (length (coordinates p)) r) as [y [E [L K]]].
    { intros i Hi. destruct (two_ok_vals p b i Hi) as [v [b' [x [g [E1 [E2 [E3 E4]]]]]]].
      { unfold two_ok. rewrite !(proj2 (Nat.ltb_lt _ _)); auto; lia. }
      eapply consumes_ext; [apply (two_body_ok p b i v b' x g); auto|].
      intros r0. unfold val. now rewrite E1, E2, E3, E4. }
    exists y. split; [|split; auto].
    - unfold two_run. rewrite E. f_equal. f_equal. lia.
    - intros k v b' x g E1 E2 E3 E4. rewrite K by (apply nth_error_Some; congruence).
      unfold val. rewrite E1, E2, E3, E4, !unit32_shift. do 3 f_equal; lia.
  Qed.
  Lemma two_panics p b r : fst (two_run p b r) = Panic <->
    ~ (covers p (velocity p) /\ covers p (best_personal_coordinates p) /\ covers p (coordinates b)).
  Proof.
    split.
    - intros H [H1 [H2 H3]]. destruct (two_returns p b r H1 H2 H3) as [y [E _]]. rewrite E in H. discriminate.
    - intros H. destruct (first_failure (two_ok p b) (length (coordinates p))) as [i [Hi [Ei Hj]]].
      { unfold covers in H. unfold two_ok.
        destruct (le_lt_dec (length (coordinates p)) (length (velocity p))) as [L1|L1].
        2:{ exists (length (velocity p)). split; auto. now rewrite Nat.ltb_irrefl. }
        destruct (le_lt_dec (length (coordinates p)) (length (best_personal_coordinates p))) as [L2|L2].
        2:{ exists (length (best_personal_coordinates p)). split; auto. now rewrite Nat.ltb_irrefl, andb_false_r. }
        destruct (le_lt_dec (length (coordinates p)) (length (coordinates b))) as [L3|L3].
        2:{ exists (length (coordinates b)). split; auto. now rewrite Nat.ltb_irrefl, !andb_false_r. }
        tauto. }
      apply (dims_panic (two_body p b) 2 (fun k r =>
        match nth_error (velocity p) k, nth_error (best_personal_coordinates p) k,
              nth_error (coordinates p) k, nth_error (coordinates b) k with
        | Some v, Some b', Some x, Some g => form v b' x g (unit32 np32 r 0) (unit32 np32 r 1)
        | _, _, _, _ => fzero
        end) (length (coordinates p)) r i Hi).
      + intros j Hji. destruct (two_ok_vals p b j) as [v [b' [x [g [E1 [E2 [E3 E4]]]]]]]; [lia|now apply Hj|].
        rewrite E1, E2, E3, E4. now apply two_body_ok.
      + intros r0. now apply two_body_panic.
  Qed.
End Two.

Section Calculators.
  Context {T : Type} {FT : FloatTrait T}.
  Variable np32 : nan_policy 24 128.

  Definition classic_form (phi_p phi_g v b x g rp rg : T) : T :=
    fadd (fadd v (fmul (fmul phi_p rp) (fsub b x))) (fmul (fmul phi_g rg) (fsub g x)).

  Lemma classic_eq phi_p phi_g s p : classic_velocity np32 phi_p phi_g s p
    = (do b <- cpure (unwrap (best_particle s)) ;; two_run np32 (classic_form phi_p phi_g) p b).
  Proof. reflexivity. Qed.
  Lemma canonical_eq phi_p phi_g xi s p : canonical_velocity np32 phi_p phi_g xi s p
    = (do b <- cpure (unwrap (best_particle s)) ;;
       two_run np32 (fun v b x g rp rg => fmul xi (classic_form phi_p phi_g v b x g rp rg)) p b).
  Proof. reflexivity. Qed.

  Lemma shape_panics form s p r :
    fst ((do b <- cpure (unwrap (best_particle s)) ;; two_run np32 form p b) r) = Panic <-> ~ best_usable s p.
  Proof.
    unfold cbind, cpure, best_usable. destruct (best_particle s) as [b|]; simpl.
    - split.
      + intros H [b' [E K]]. injection E as <-. apply (two_panics np32 form p b r); auto.
      + intros H. apply (two_panics np32 form p b r). intros K. apply H. exists b. auto.
    - split; auto. intros _ [b [E _]]. discriminate.
  Qed.
  Lemma shape_returns form s p r b : best_particle s = Some b ->
    covers p (velocity p) -> covers p (best_personal_coordinates p) -> covers p (coordinates b) ->
    exists y, (do b <- cpure (unwrap (best_particle s)) ;; two_run np32 form p b) r
        = (Ret y, shift (2 * length (coordinates p)) r) /\ length y = length (coordinates p) /\
      forall k v b' x g, nth_error (velocity p) k = Some v -> nth_error (best_personal_coordinates p) k = Some b' ->
        nth_error (coordinates p) k = Some x -> nth_error (coordinates b) k = Some g ->
        nth_error y k = Some (form v b' x g (unit32 np32 r (2 * k)) (unit32 np32 r (2 * k + 1))).
  Proof.
    intros E H1 H2 H3. unfold cbind, cpure. rewrite E. simpl. exact (two_returns np32 form p b r H1 H2 H3).
  Qed.

  Lemma classic_panics phi_p phi_g s p r :
    fst (classic_velocity np32 phi_p phi_g s p r) = Panic <-> ~ best_usable s p.
  Proof. rewrite classic_eq. apply shape_panics. Qed.
  Lemma classic_returns phi_p phi_g s p r b : best_particle s = Some b ->
    covers p (velocity p) -> covers p (best_personal_coordinates p) -> covers p (coordinates b) ->
    exists y, classic_velocity np32 phi_p phi_g s p r
        = (Ret y, shift (2 * length (coordinates p)) r) /\ length y = length (coordinates p) /\
      forall k v b' x g, nth_error (velocity p) k = Some v -> nth_error (best_personal_coordinates p) k = Some b' ->
        nth_error (coordinates p) k = Some x -> nth_error (coordinates b) k = Some g ->
        nth_error y k = Some
          (fadd (fadd v (fmul (fmul phi_p (unit32 np32 r (2 * k))) (fsub b' x)))
                (fmul (fmul phi_g (unit32 np32 r (2 * k + 1))) (fsub g x))).
  Proof. rewrite classic_eq. apply shape_returns. Qed.
  Lemma canonical_panics phi_p phi_g xi s p r :
    fst (canonical_velocity np32 phi_p phi_g xi s p r) = Panic <-> ~ best_usable s p.
  Proof. rewrite canonical_eq. apply shape_panics. Qed.
  Lemma canonical_returns phi_p phi_g xi s p r b : best_particle s = Some b ->
    covers p (velocity p) -> covers p (best_personal_coordinates p) -> covers p (coordinates b) ->
    exists y, canonical_velocity np32 phi_p phi_g xi s p r
        = (Ret y, shift (2 * length (coordinates p)) r) /\ length y = length (coordinates p) /\
      forall k v b' x g, nth_error (velocity p) k = Some v -> nth_error (best_personal_coordinates p) k = Some b' ->
        nth_error (coordinates p) k = Some x -> nth_error (coordinates b) k = Some g ->
        nth_error y k = Some
          (fmul xi (fadd (fadd v (fmul (fmul phi_p (unit32 np32 r (2 * k))) (fsub b' x)))
                         (fmul (fmul phi_g (unit32 np32 r (2 * k + 1))) (fsub g x)))).
  Proof. rewrite canonical_eq. apply shape_returns. Qed.

  (** ** Through a lens *)
  Section Zoom.
    Context {U : Type} (L : lens U rng) (HL : lens_ok L).
    Lemma zoom_bind {A B} (m : comp rng A) (k : A -> comp rng B) u :
      zoom L (cbind m k) u = cbind (zoom L m) (fun a => zoom L (k a)) u.
    Proof.
      unfold zoom, cbind. destruct (m (lget L u)) as [[a| |] r1]; auto.
      rewrite (lens_get_put L HL). destruct (k a r1) as [o r2]. now rewrite (lens_put_put L HL).
    Qed.
    Lemma zoom_cpure {A} (o : outcome A) u : zoom L (cpure o) u = cpure o u.
    Proof. unfold zoom, cpure. now rewrite (lens_put_get L HL). Qed.
    Lemma cbind_ext {A B} (m m' : comp U A) (k k' : A -> comp U B) u :
      m u = m' u -> (forall a u, k a u = k' a u) -> cbind m k u = cbind m' k' u.
    Proof. intros H K. unfold cbind. rewrite H. destruct (m' u) as [[a| |] u1]; auto. Qed.
    Lemma zoom_mapM {A B} (f : A -> comp rng B) (f' : A -> comp U B) l u :
      (forall a u, f' a u = zoom L (f a) u) -> cmapM f' l u = zoom L (cmapM f l) u.
    Proof.
      intros H. revert u. induction l as [|a l IH]; intros u; simpl.
      - symmetry. apply (zoom_cpure (Ret [])).
      - rewrite zoom_bind. apply cbind_ext; auto. intros b u1. rewrite zoom_bind. apply cbind_ext; auto.
        intros c u2. symmetry. apply (zoom_cpure (Ret (b :: c))).
    Qed.

    Lemma inertia_eq phi_p phi_g (inertia : nat -> comp U T) s p u :
      inertia_velocity np32 L phi_p phi_g inertia s p u
      = (do b <- cpure (unwrap (best_particle s)) ;;
         do w <- inertia (sw_iteration s) ;;
         zoom L (two_run np32 (fun v b x g rp rg => classic_form phi_p phi_g (fmul w v) b x g rp rg) p b)) u.
    Proof.
      unfold inertia_velocity. apply cbind_ext; auto. intros b u1. apply cbind_ext; auto. intros w u2.
      unfold two_run. apply zoom_mapM. intros i u3. unfold two_body. rewrite zoom_bind.
      apply cbind_ext; [reflexivity|]. intros rp u4. rewrite zoom_bind. apply cbind_ext; [reflexivity|]. intros rg u5.
      now rewrite zoom_cpure.
    Qed.

    Lemma inertia_returns phi_p phi_g (inertia : nat -> comp U T) s p u b w u1 : best_particle s = Some b ->
      covers p (velocity p) -> covers p (best_personal_coordinates p) -> covers p (coordinates b) ->
      inertia (sw_iteration s) u = (Ret w, u1) ->
      exists y, inertia_velocity np32 L phi_p phi_g inertia s p u
          = (Ret y, lput L (shift (2 * length (coordinates p)) (lget L u1)) u1) /\
        length y = length (coordinates p) /\
        forall k v b' x g, nth_error (velocity p) k = Some v -> nth_error (best_personal_coordinates p) k = Some b' ->
          nth_error (coordinates p) k = Some x -> nth_error (coordinates b) k = Some g ->
          nth_error y k = Some
            (fadd (fadd (fmul w v) (fmul (fmul phi_p (unit32 np32 (lget L u1) (2 * k))) (fsub b' x)))
                  (fmul (fmul phi_g (unit32 np32 (lget L u1) (2 * k + 1))) (fsub g x))).
    Proof.
      intros E H1 H2 H3 Hi. rewrite inertia_eq. unfold cbind, cpure. rewrite E. simpl unwrap. rewrite Hi.
      destruct (two_returns np32 (fun v b x g rp rg => classic_form phi_p phi_g (fmul w v) b x g rp rg) p b
        (lget L u1) H1 H2 H3) as [y [R K]].
      exists y. split; [|exact K]. unfold zoom. now rewrite R.
    Qed.
    Lemma inertia_panics phi_p phi_g (inertia : nat -> comp U T) s p u w u1 :
      inertia (sw_iteration s) u = (Ret w, u1) ->
      (fst (inertia_velocity np32 L phi_p phi_g inertia s p u) = Panic <-> ~ best_usable s p).
    Proof.
      intros Hi. rewrite inertia_eq. unfold cbind, cpure, best_usable.
      destruct (best_particle s) as [b|]; simpl unwrap.
      - rewrite Hi. unfold zoom.
        pose proof (two_panics np32 (fun v b x g rp rg => classic_form phi_p phi_g (fmul w v) b x g rp rg) p b
          (lget L u1)) as P.
        destruct (two_run np32 _ p b (lget L u1)) as [o r1]. simpl in *. rewrite P. split.
        + intros H [b' [E K]]. injection E as <-. auto.
        + intros H K. apply H. exists b. auto.
      - simpl. split; auto. intros _ [b [E _]]. discriminate.
    Qed.
  End Zoom.

  (** ** NegativeReinforcement *)
  Variable np64 : nan_policy 53 1024.

  Definition six_form (k : negative_reinforcement (T := T)) (v x bp bc bg wp wc wg : T)
    (r_bg r_bc r_bp r_wg r_wc r_wp : T) : T :=
    fmul (nr_xi k)
      (fsub (fsub (fsub
        (fadd (fadd (fadd v
          (fmul (fmul (nr_phi_best_personal k) r_bp) (fsub bp x)))
          (fmul (fmul (nr_phi_best_current k) r_bc) (fsub bc x)))
          (fmul (fmul (nr_phi_best_global k) r_bg) (fsub bg x)))
        (fmul (fmul (nr_phi_worst_personal k) r_wp) (fsub wp x)))
        (fmul (fmul (nr_phi_worst_current k) r_wc) (fsub wc x)))
        (fmul (fmul (nr_phi_worst_global k) r_wg) (fsub wg x))).
  Definition six_body (k : negative_reinforcement (T := T)) (p bg bc wg wc : particle T) (i : nat) : comp rng T :=
    do r_best_global <- unit_f64 np64 ;;
    do r_best_current <- unit_f64 np64 ;;
    do r_best_personal <- unit_f64 np64 ;;
    do r_worst_global <- unit_f64 np64 ;;
    do r_worst_current <- unit_f64 np64 ;;
    do r_worst_personal <- unit_f64 np64 ;;
    cpure (let! v := index (velocity p) i in
           let! x := index (coordinates p) i in
           let! bp := index (best_personal_coordinates p) i in
           let! bc := index (coordinates bc) i in
           let! bg := index (coordinates bg) i in
           let! wp := index (worst_personal_coordinates p) i in
           let! wc := index (coordinates wc) i in
           let! wg := index (coordinates wg) i in
           Ret (six_form k v x bp bc bg wp wc wg r_best_global r_best_current r_best_personal
                  r_worst_global r_worst_current r_worst_personal)).
  Lemma six_draws {B} (K : T -> T -> T -> T -> T -> T -> outcome B) r :
    (do a <- unit_f64 np64 ;; do b <- unit_f64 np64 ;; do c <- unit_f64 np64 ;;
     do d <- unit_f64 np64 ;; do e <- unit_f64 np64 ;; do f <- unit_f64 np64 ;; cpure (K a b c d e f)) r
    = (K (unit64 np64 r 0) (unit64 np64 r 1) (unit64 np64 r 2) (unit64 np64 r 3) (unit64 np64 r 4) (unit64 np64 r 5),
       shift 6 r).
  Proof.
    do 6 (erewrite cbind_run by apply consumes_unit64). unfold cpure. rewrite !unit64_shift, !shift_shift. reflexivity.
  Qed.
  Definition six_ok (p bg bc wg wc : particle T) (i : nat) : bool :=
    forallb (fun l : list T => i <? length l)
      [velocity p; best_personal_coordinates p; worst_personal_coordinates p;
       coordinates bg; coordinates wg; coordinates bc; coordinates wc].
  Definition six_val k (p bg bc wg wc : particle T) (i : nat) (r : rng) : T :=
    match nth_error (velocity p) i, nth_error (coordinates p) i, nth_error (best_personal_coordinates p) i,
          nth_error (coordinates bc) i, nth_error (coordinates bg) i, nth_error (worst_personal_coordinates p) i,
          nth_error (coordinates wc) i, nth_error (coordinates wg) i with
    | Some v, Some x, Some bp, Some bc, Some bg, Some wp, Some wc, Some wg =>
        six_form k v x bp bc bg wp wc wg (unit64 np64 r 0) (unit64 np64 r 1) (unit64 np64 r 2)
          (unit64 np64 r 3) (unit64 np64 r 4) (unit64 np64 r 5)
    | _, _, _, _, _, _, _, _ => fzero
    end.
  Lemma six_body_cases k p bg bc wg wc i r : i < length (coordinates p) ->
    six_body k p bg bc wg wc i r =
      (if six_ok p bg bc wg wc i then Ret (six_val k p bg bc wg wc i r) else Panic, shift 6 r).
  Proof.
    intros Hi. unfold six_body. rewrite six_draws. f_equal. unfold six_ok, six_val. cbn [forallb].
    repeat match goal with
    | |- context [index ?l i] =>
        let L := fresh "L" in let x := fresh "x" in let E := fresh "E" in
        destruct (index_cases l i) as [[L [x [E ->]]]|[L ->]];
          [apply Nat.ltb_lt in L; rewrite ?L, ?E|apply Nat.ltb_ge in L; rewrite ?L];
          cbn [obind andb]; rewrite ?andb_false_r; try reflexivity
    end.
    apply Nat.ltb_ge in L0. lia.
  Qed.
  Definition six_run k (p bg bc wg wc : particle T) : comp rng (list T) :=
    cmapM (six_body k p bg bc wg wc) (seq 0 (length (coordinates p))).
  Lemma six_run_cases k p bg bc wg wc r :
    (forall i, i < length (coordinates p) -> six_ok p bg bc wg wc i = true) /\
    (exists y, six_run k p bg bc wg wc r = (Ret y, shift (6 * length (coordinates p)) r) /\
       length y = length (coordinates p) /\
       forall i, i < length (coordinates p) -> nth_error y i = Some (six_val k p bg bc wg wc i (shift (i * 6) r)))
    \/ (exists i, i < length (coordinates p) /\ six_ok p bg bc wg wc i = false) /\
       fst (six_run k p bg bc wg wc r) = Panic.
  Proof.
    set (d := length (coordinates p)).
    destruct (forallb (six_ok p bg bc wg wc) (seq 0 d)) eqn:A.
    - left. assert (A' : forall i, i < d -> six_ok p bg bc wg wc i = true).
      { intros i Hi. rewrite forallb_forall in A. apply A. apply in_seq. lia. }
      split; auto.
      destruct (dims_return (six_body k p bg bc wg wc) 6 (six_val k p bg bc wg wc) d r) as [y [E [Ly Ky]]].
      { intros i Hi r0. rewrite six_body_cases by auto. now rewrite A'. }
      exists y. split; auto. unfold six_run. fold d. rewrite E. do 2 f_equal. lia.
    - right. assert (E : exists i, i < d /\ six_ok p bg bc wg wc i = false).
      { assert (N : exists i, In i (seq 0 d) /\ six_ok p bg bc wg wc i = false).
        { revert A. generalize (seq 0 d). clear. induction l as [|i l IH]; simpl; [discriminate|].
          destruct (six_ok p bg bc wg wc i) eqn:E; [|exists i; auto]. intros H. destruct (IH H) as [j [Hj Ej]].
          exists j. auto. }
        destruct N as [i [Hi Ei]]. apply in_seq in Hi. exists i. split; [lia|auto]. }
      split; auto. apply first_failure in E. destruct E as [i [Hi [Ei Hj]]].
      apply (dims_panic (six_body k p bg bc wg wc) 6 (six_val k p bg bc wg wc) d r i Hi).
      + intros j Hji r0. rewrite six_body_cases by (fold d; lia). now rewrite Hj.
      + intros r0. rewrite six_body_cases by auto. now rewrite Ei.
  Qed.
  Lemma negative_eq k s p : negative_velocity np64 k s p
    = (do bg <- cpure (unwrap (best_particle s)) ;;
       do bc <- cpure (let! o := find_best_particle (particles s) in unwrap o) ;;
       do wg <- cpure (unwrap (worst_particle s)) ;;
       do wc <- cpure (let! o := find_worst_particle (particles s) in unwrap o) ;;
       six_run k p bg bc wg wc).
  Proof. reflexivity. Qed.
  Lemma current_best (l : list (particle T)) b : first_least value l b ->
    (let! o := find_best_particle l in unwrap o) = Ret b.
  Proof.
    intros H. pose proof (find_best_spec l) as K. destruct l as [|a l].
    - destruct H as [n [H _]]. destruct n; discriminate.
    - destruct K as [b' [-> H']]. simpl. f_equal. eapply first_least_unique; eauto.
  Qed.
  Lemma current_worst (l : list (particle T)) b : last_greatest value l b ->
    (let! o := find_worst_particle l in unwrap o) = Ret b.
  Proof.
    intros H. pose proof (find_worst_spec l) as K. destruct l as [|a l].
    - destruct H as [n [H _]]. destruct n; discriminate.
    - destruct K as [b' [-> H']]. simpl. f_equal. eapply PsoRuns.last_greatest_unique; eauto.
  Qed.
  Lemma six_ok_covers p bg bc wg wc :
    (forall i, i < length (coordinates p) -> six_ok p bg bc wg wc i = true) <->
    covers p (velocity p) /\ covers p (best_personal_coordinates p) /\ covers p (worst_personal_coordinates p) /\
      covers p (coordinates bg) /\ covers p (coordinates wg) /\
      covers p (coordinates bc) /\ covers p (coordinates wc).
  Proof.
    unfold covers. split.
    - intros H.
      assert (G : forall l, In l [velocity p; best_personal_coordinates p; worst_personal_coordinates p;
          coordinates bg; coordinates wg; coordinates bc; coordinates wc] -> length (coordinates p) <= length l).
      { intros l Hl. apply Nat.nlt_ge. intros N. specialize (H _ N). unfold six_ok in H.
        rewrite forallb_forall in H. specialize (H l Hl). rewrite Nat.ltb_irrefl in H. discriminate. }
      repeat split; apply G; simpl; tauto.
    - intros H i Hi. unfold six_ok. apply forallb_forall. intros l Hl. apply Nat.ltb_lt. simpl in Hl.
      intuition (subst; lia).
  Qed.

  Lemma negative_returns k s p r bg wg bc wc :
    best_particle s = Some bg -> worst_particle s = Some wg ->
    first_least value (particles s) bc -> last_greatest value (particles s) wc ->
    covers p (velocity p) -> covers p (best_personal_coordinates p) -> covers p (worst_personal_coordinates p) ->
    covers p (coordinates bg) -> covers p (coordinates wg) ->
    covers p (coordinates bc) -> covers p (coordinates wc) ->
    exists y, negative_velocity np64 k s p r = (Ret y, shift (6 * length (coordinates p)) r) /\
      length y = length (coordinates p) /\
      forall i v x bpi bci bgi wpi wci wgi,
        nth_error (velocity p) i = Some v -> nth_error (coordinates p) i = Some x ->
        nth_error (best_personal_coordinates p) i = Some bpi -> nth_error (coordinates bc) i = Some bci ->
        nth_error (coordinates bg) i = Some bgi -> nth_error (worst_personal_coordinates p) i = Some wpi ->
        nth_error (coordinates wc) i = Some wci -> nth_error (coordinates wg) i = Some wgi ->
        let u := unit64 np64 r in
        nth_error y i = Some
          (fmul (nr_xi k)
            (fsub (fsub (fsub
              (fadd (fadd (fadd v
                (fmul (fmul (nr_phi_best_personal k) (u (6 * i + 2))) (fsub bpi x)))
                (fmul (fmul (nr_phi_best_current k) (u (6 * i + 1))) (fsub bci x)))
                (fmul (fmul (nr_phi_best_global k) (u (6 * i))) (fsub bgi x)))
              (fmul (fmul (nr_phi_worst_personal k) (u (6 * i + 5))) (fsub wpi x)))
              (fmul (fmul (nr_phi_worst_current k) (u (6 * i + 4))) (fsub wci x)))
              (fmul (fmul (nr_phi_worst_global k) (u (6 * i + 3))) (fsub wgi x)))).
  Proof.
    intros Hb Hw Hbc Hwc C1 C2 C3 C4 C5 C6 C7. rewrite negative_eq.
    unfold cbind, cpure. rewrite Hb. simpl unwrap. rewrite (current_best _ _ Hbc), Hw. simpl unwrap.
    rewrite (current_worst _ _ Hwc).
    destruct (six_run_cases k p bg bc wg wc r) as [[_ [y [E [L K]]]]|[[i [Hi Ei]] _]].
    - exists y. split; [exact E|]. split; auto. intros i v x bpi bci bgi wpi wci wgi E1 E2 E3 E4 E5 E6 E7 E8.
      rewrite K by (apply nth_error_Some; congruence). unfold six_val.
      rewrite E1, E2, E3, E4, E5, E6, E7, E8, !unit64_shift. unfold six_form.
      replace (i * 6 + 0) with (6 * i) by lia. rewrite (Nat.mul_comm i 6). reflexivity.
    - exfalso. assert (A : six_ok p bg bc wg wc i = true) by (apply six_ok_covers; auto 10). congruence.
  Qed.
  Lemma negative_panics k s p r : fst (negative_velocity np64 k s p r) = Panic <-> ~ six_usable s p.
  Proof.
    split.
    - intros H [bg [wg [bc [wc [Hb [Hw [Hbc [Hwc [C1 [C2 [C3 [C4 [C5 [C6 C7]]]]]]]]]]]]]].
      destruct (negative_returns k s p r bg wg bc wc) as [y [E _]]; auto. rewrite E in H. discriminate.
    - intros H. rewrite negative_eq. unfold cbind, cpure.
      destruct (best_particle s) as [bg|] eqn:Hb; [|reflexivity]. simpl unwrap.
      pose proof (find_best_spec (particles s)) as Kb. pose proof (find_worst_spec (particles s)) as Kw.
      destruct (particles s) as [|a l] eqn:Ep.
      + rewrite Kb. reflexivity.
      + destruct Kb as [bc [-> Hbc]]. destruct Kw as [wc [-> Hwc]]. simpl obind.
        destruct (worst_particle s) as [wg|] eqn:Hw; [|reflexivity]. simpl unwrap.
        destruct (six_run_cases k p bg bc wg wc r) as [[A _]|[_ P]]; auto.
        exfalso. apply H. unfold six_usable. rewrite Ep. exists bg, wg, bc, wc. apply six_ok_covers in A. tauto.
  Qed.
End Calculators.

(** ** At the attractors (C42): the attraction terms vanish *)
Section Fixed.
  Context {prec emax : Z} {Hp : Prec_gt_0 prec} {He : Prec_lt_emax prec emax}.
  Variable np : nan_policy prec emax.
  Notation F := (bfloat prec emax).
  Notation B2R := (Binary.B2R prec emax).

  Definition is_zero (x : F) : Prop := is_finite x = true /\ B2R x = 0%R.
  Lemma is_zero_eq (x : F) : is_zero x -> exists s, x = Binary.B754_zero s.
  Proof.
    intros [H E]. destruct x as [s|s|s pl h|s m e h]; try discriminate; [now exists s|]. exfalso.
    simpl in E. apply eq_0_F2R in E. destruct s; discriminate.
  Qed.
  Lemma zero_is (s : bool) : is_zero (Binary.B754_zero s).
  Proof. split; reflexivity. Qed.

  Lemma same_refl (x : F) : same_number x x.
  Proof.
    unfold same_number. destruct (is_nan x) eqn:N; auto. left. rewrite partial_cmp_key by auto.
    f_equal. now apply Rcompare_Eq.
  Qed.
  Lemma same_cases (x y : F) : same_number x y ->
    x = y \/ (is_zero x /\ is_zero y) \/ (is_nan x = true /\ is_nan y = true).
  Proof.
    intros [H|H]; auto.
    assert (Nx : is_nan x = false /\ is_nan y = false).
    { destruct (is_nan x) eqn:Nx; [|destruct (is_nan y) eqn:Ny; auto].
      - assert (K : partial_cmp x y = None) by (apply partial_cmp_nan; auto). congruence.
      - assert (K : partial_cmp x y = None) by (apply partial_cmp_nan; auto). congruence. }
    destruct Nx as [Nx Ny]. rewrite partial_cmp_key in H by auto. injection H as H. apply Rcompare_Eq_inv in H.
    destruct (is_finite x) eqn:Fx, (is_finite y) eqn:Fy.
    - rewrite !key_finite in H by auto. destruct (Req_dec (B2R x) 0) as [Z|Z].
      + right. left. split; split; auto. congruence.
      + left. apply Binary.B2R_inj; auto; unfold is_finite in *.
        * destruct x as [s|s|s pl h|s m e h]; try discriminate; auto; simpl in Z; lra.
        * rewrite H in Z. destruct y as [s|s|s pl h|s m e h]; try discriminate; auto; simpl in Z; lra.
    - pose proof (key_bound x Fx). exfalso. destruct y as [s|[|]|s pl h|s m e h]; try discriminate; simpl in *; lra.
    - pose proof (key_bound y Fy). exfalso. destruct x as [s|[|]|s pl h|s m e h]; try discriminate; simpl in *; lra.
    - left. pose proof (bpow_gt_0 radix2 emax).
      destruct x as [s|[|]|s pl h|s m e h], y as [s'|[|]|s' pl' h'|s' m' e' h']; try discriminate; auto;
        simpl in *; lra.
  Qed.
  Lemma zero_same (x y : F) : is_zero x -> is_zero y -> same_number x y.
  Proof.
    intros [F1 E1] [F2 E2]. left. rewrite partial_cmp_key by now apply finite_not_nan.
    rewrite !key_finite, E1, E2 by auto. f_equal. now apply Rcompare_Eq.
  Qed.
  Lemma same_sym (x y : F) : same_number x y -> same_number y x.
  Proof.
    intros H. destruct (same_cases x y H) as [->|[[A B]|[A B]]]; [apply same_refl|now apply zero_same|now right].
  Qed.
  Lemma same_trans (x y z : F) : same_number x y -> same_number y z -> same_number x z.
  Proof.
    intros H K. destruct (same_cases x y H) as [->|[[A B]|[A B]]]; auto.
    - destruct (same_cases y z K) as [->|[[C D]|[C D]]]; auto; [now apply zero_same|].
      destruct B as [B _]. apply finite_not_nan in B. congruence.
    - destruct (same_cases y z K) as [->|[[C D]|[C D]]]; auto; [|now right].
      destruct C as [C _]. apply finite_not_nan in C. congruence.
  Qed.

  (** Adding or subtracting a zero. *)
  Lemma add_zero (v z : F) : is_zero z -> same_number (b_add np v z) v.
  Proof.
    intros Hz. apply is_zero_eq in Hz. destruct Hz as [s ->].
    destruct v as [s'|s'|s' pl h|s' m e h].
    - apply zero_same; [|apply zero_is]. destruct s', s; split; reflexivity.
    - apply same_refl.
    - right. auto.
    - apply same_refl.
  Qed.
  Lemma sub_zero (v z : F) : is_zero z -> same_number (b_sub np v z) v.
  Proof.
    intros Hz. apply is_zero_eq in Hz. destruct Hz as [s ->].
    destruct v as [s'|s'|s' pl h|s' m e h].
    - apply zero_same; [|apply zero_is]. destruct s', s; split; reflexivity.
    - apply same_refl.
    - right. auto.
    - apply same_refl.
  Qed.
  (** Multiplication respects the relation. *)
  Lemma mul_same (c x y : F) : same_number x y -> same_number (b_mul np c x) (b_mul np c y).
  Proof.
    intros H. destruct (same_cases x y H) as [->|[[A B]|[A B]]]; [apply same_refl| |].
    - apply is_zero_eq in A, B. destruct A as [s ->], B as [s' ->].
      destruct c as [s0|s0|s0 pl h|s0 m e h]; try (now right); apply zero_same; split; reflexivity.
    - right. destruct x; try discriminate. destruct y; try discriminate.
      destruct c; split; reflexivity.
  Qed.
  Lemma mul_zero (c z : F) : is_finite c = true -> is_zero z -> is_zero (b_mul np c z).
  Proof.
    intros Fc Hz. apply is_zero_eq in Hz. destruct Hz as [s ->].
    destruct c as [s0|s0|s0 pl h|s0 m e h]; try discriminate; split; reflexivity.
  Qed.
  (** A weight times a number between 0 and 1 stays finite. *)
  Lemma weight_finite (phi u : F) : is_finite phi = true -> is_finite u = true -> (0 <= B2R u <= 1)%R ->
    is_finite (b_mul np phi u) = true.
  Proof.
    intros Fp Fu Hu. apply (mul_correct np phi u Fp Fu).
    apply Rle_lt_trans with (Rabs (B2R phi)); [|apply B2R_bound].
    apply abs_round_le_generic; [apply BinarySingleNaN.fexp_correct; auto|apply (valid_rnd_round_mode mode_NE)| |].
    - apply generic_format_abs, format_B2R.
    - rewrite Rabs_mult, (Rabs_pos_eq (B2R u)) by lra. pose proof (Rabs_pos (B2R phi)). nra.
  Qed.
  Lemma unit_range {p1 e1} {Hp1 : Prec_gt_0 p1} {He1 : Prec_lt_emax p1 e1} (np1 : nan_policy p1 e1) {SA : Sampler (bfloat p1 e1)}
    (nan : bfloat p1 e1 -> a_nan prec emax) r k :
    let u := fconv nan (@drawn_incl (bfloat p1 e1) (FloatIEEE np1) SA (b_of_Z 0) (b_of_Z 1) r k) in
    is_finite u = true /\ (0 <= B2R u <= 1)%R.
  Proof.
    assert (P : forall p, Prec_gt_0 p -> (Z.abs 1 <= 2 ^ p)%Z).
    { intros p Hp0. assert (0 < p)%Z by exact Hp0. assert (2 ^ 0 <= 2 ^ p)%Z by (apply Z.pow_le_mono_r; lia). simpl in *. lia. }
    destruct (of_Z_exact (prec := p1) (emax := e1) 0) as [F0 E0]; [simpl; apply Z.pow_nonneg; lia|].
    destruct (of_Z_exact (prec := p1) (emax := e1) 1) as [F1 E1]; [auto|].
    destruct (of_Z_exact (prec := prec) (emax := emax) 0) as [G0 D0]; [simpl; apply Z.pow_nonneg; lia|].
    destruct (of_Z_exact (prec := prec) (emax := emax) 1) as [G1 D1]; [auto|].
    assert (W : is_finite (b_sub np1 (b_of_Z 1) (b_of_Z 0)) = true).
    { apply sub_correct; auto. rewrite E0, E1. replace (1 - 0)%R with (IZR 1) by (simpl; ring).
      rewrite rnd_format by (apply format_IZR; auto). apply IZR_bound. auto. }
    destruct (drawn_incl_in np1 (b_of_Z 0) (b_of_Z 1) r k) as [A B]; auto.
    { apply leb_key. rewrite !key_finite, E0, E1 by auto.
      split; [now apply finite_not_nan|]. split; [now apply finite_not_nan|]. lra. }
    set (x := @drawn_incl (bfloat p1 e1) (FloatIEEE np1) SA (b_of_Z 0) (b_of_Z 1) r k) in *. intros u.
    apply leb_key in A, B. destruct A as [_ [Nx A]], B as [_ [_ B]].
    rewrite (key_finite (b_of_Z 0)), E0 in A by auto. rewrite (key_finite (b_of_Z 1)), E1 in B by auto.
    assert (Fx : is_finite x = true).
    { apply finite_key; auto. rewrite Rabs_pos_eq by auto. apply Rle_lt_trans with 1%R; auto.
      change 1%R with (bpow radix2 0). apply bpow_lt. assert (0 < p1)%Z by exact Hp1. assert (p1 < e1)%Z by exact He1. lia. }
    rewrite (key_finite x) in A, B by auto.
    destruct (fconv_between nan x (b_of_Z 0) (b_of_Z 1) Fx G0 G1) as [Fu Ku].
    { rewrite D0, D1. lra. }
    rewrite D0, D1 in Ku. auto.
  Qed.

  (** One attraction term at its attractor. *)
  Lemma pull_zero (phi u a x : F) : is_finite phi = true -> is_finite u = true -> (0 <= B2R u <= 1)%R ->
    is_finite a = true -> is_finite x = true -> partial_cmp a x = Some Eq ->
    is_zero (b_mul np (b_mul np phi u) (b_sub np a x)).
  Proof.
    intros Fp Fu Hu Fa Fx E. apply mul_zero; [now apply weight_finite|].
    rewrite partial_cmp_key in E by now apply finite_not_nan. injection E as E. apply Rcompare_Eq_inv in E.
    rewrite !key_finite in E by auto.
    assert (Z : (B2R a - B2R x = 0)%R) by lra.
    destruct (sub_correct np a x Fa Fx) as [F0 E0].
    - rewrite Z, rnd_0, Rabs_R0. apply bpow_gt_0.
    - rewrite Z, rnd_0 in E0. split; auto.
  Qed.
End Fixed.

(** The three calculators with two attractors, and NegativeReinforcement. *)
Section FixedPoints.
  Context {prec emax : Z} {Hp : Prec_gt_0 prec} {He : Prec_lt_emax prec emax}.
  Variable np : nan_policy prec emax.
  Variable np32 : nan_policy 24 128.
  Variable np64 : nan_policy 53 1024.
  Notation F := (bfloat prec emax).
  Notation FI := (FloatIEEE np).
  Notation u32 r k := (@unit32 F FI np32 r k).
  Notation u64 r k := (@unit64 F FI np64 r k).

  Lemma same_point_covers (p : particle F) a : same_point a (coordinates p) -> covers p a.
  Proof. intros H. unfold covers. apply Nat.eq_le_incl. symmetry. eapply Forall2_length; eauto. Qed.
  Lemma same_point_nth (a x : list F) k ak xk : same_point a x -> nth_error a k = Some ak -> nth_error x k = Some xk ->
    is_finite ak = true /\ is_finite xk = true /\ partial_cmp ak xk = Some Eq.
  Proof.
    intros H. revert k. induction H as [|u v l l' H _ IH]; intros [|k]; simpl; try discriminate; eauto. congruence.
  Qed.

  Lemma classic_fixed_form phi_p phi_g v b x g r k j :
    is_finite phi_p = true -> is_finite phi_g = true ->
    is_finite b = true -> is_finite x = true -> partial_cmp b x = Some Eq ->
    is_finite g = true -> partial_cmp g x = Some Eq ->
    same_number (@classic_form F FI phi_p phi_g v b x g (u32 r k) (u32 r j)) v.
  Proof.
    intros F1 F2 Fb Fx E1 Fg E2. unfold classic_form. cbn [fadd fmul fsub FloatIEEE].
    destruct (unit_range (prec := prec) (emax := emax) np32 (np_of32 np) r k) as [U1 U2].
    destruct (unit_range (prec := prec) (emax := emax) np32 (np_of32 np) r j) as [U3 U4].
    eapply same_trans; [apply add_zero; now apply pull_zero|]. apply add_zero. now apply pull_zero.
  Qed.

  Lemma nth_in_bounds {A} (l : list A) k : k < length l -> exists x, nth_error l k = Some x.
  Proof. intros H. apply nth_error_Some in H. destruct (nth_error l k) as [x|]; [now exists x|congruence]. Qed.

  Lemma classic_fixed phi_p phi_g (s : swarm F) p r b y r' :
    best_particle s = Some b -> is_finite phi_p = true -> is_finite phi_g = true ->
    same_point (best_personal_coordinates p) (coordinates p) -> same_point (coordinates b) (coordinates p) ->
    length (velocity p) = length (coordinates p) ->
    @classic_velocity F FI np32 phi_p phi_g s p r = (Ret y, r') ->
    Forall2 same_number y (velocity p).
  Proof.
    intros Hb F1 F2 S1 S2 Lv E.
    destruct (@classic_returns F FI np32 phi_p phi_g s p r b Hb) as [y' [E' [L K]]];
      [unfold covers; lia|now apply same_point_covers|now apply same_point_covers|].
    rewrite E' in E. injection E as -> _.
    apply Forall2_nth'; [congruence|]. intros k yk vk Hy Hv.
    destruct (nth_in_bounds (coordinates p) k) as [x Hx]; [rewrite <- Lv; apply nth_error_Some; congruence|].
    destruct (nth_in_bounds (best_personal_coordinates p) k) as [b' Hb'].
    { rewrite (Forall2_length _ _ _ S1). apply nth_error_Some. congruence. }
    destruct (nth_in_bounds (coordinates b) k) as [g Hg].
    { rewrite (Forall2_length _ _ _ S2). apply nth_error_Some. congruence. }
    rewrite (K k vk b' x g Hv Hb' Hx Hg) in Hy. apply some_eq in Hy. rewrite <- Hy. clear Hy.
    destruct (same_point_nth _ _ _ _ _ S1 Hb' Hx) as [A1 [A2 A3]].
    destruct (same_point_nth _ _ _ _ _ S2 Hg Hx) as [B1 [B2 B3]].
    now apply classic_fixed_form.
  Qed.
  Lemma canonical_fixed phi_p phi_g xi (s : swarm F) p r b y r' :
    best_particle s = Some b -> is_finite phi_p = true -> is_finite phi_g = true ->
    same_point (best_personal_coordinates p) (coordinates p) -> same_point (coordinates b) (coordinates p) ->
    length (velocity p) = length (coordinates p) ->
    @canonical_velocity F FI np32 phi_p phi_g xi s p r = (Ret y, r') ->
    Forall2 (fun y v => same_number y (b_mul np xi v)) y (velocity p).
  Proof.
    intros Hb F1 F2 S1 S2 Lv E.
    destruct (@canonical_returns F FI np32 phi_p phi_g xi s p r b Hb) as [y' [E' [L K]]];
      [unfold covers; lia|now apply same_point_covers|now apply same_point_covers|].
    rewrite E' in E. injection E as -> _.
    apply Forall2_nth'; [congruence|]. intros k yk vk Hy Hv.
    destruct (nth_in_bounds (coordinates p) k) as [x Hx]; [rewrite <- Lv; apply nth_error_Some; congruence|].
    destruct (nth_in_bounds (best_personal_coordinates p) k) as [b' Hb'].
    { rewrite (Forall2_length _ _ _ S1). apply nth_error_Some. congruence. }
    destruct (nth_in_bounds (coordinates b) k) as [g Hg].
    { rewrite (Forall2_length _ _ _ S2). apply nth_error_Some. congruence. }
    rewrite (K k vk b' x g Hv Hb' Hx Hg) in Hy. apply some_eq in Hy. rewrite <- Hy. clear Hy.
    destruct (same_point_nth _ _ _ _ _ S1 Hb' Hx) as [A1 [A2 A3]].
    destruct (same_point_nth _ _ _ _ _ S2 Hg Hx) as [B1 [B2 B3]].
    cbn [fmul FloatIEEE]. apply mul_same. now apply classic_fixed_form.
  Qed.
  Lemma inertia_fixed {U} (L : lens U rng) (HL : lens_ok L) phi_p phi_g (inertia : nat -> comp U F)
    (s : swarm F) p u b w u1 y u' :
    best_particle s = Some b -> is_finite phi_p = true -> is_finite phi_g = true ->
    same_point (best_personal_coordinates p) (coordinates p) -> same_point (coordinates b) (coordinates p) ->
    length (velocity p) = length (coordinates p) -> inertia (sw_iteration s) u = (Ret w, u1) ->
    @inertia_velocity F FI np32 U L phi_p phi_g inertia s p u = (Ret y, u') ->
    Forall2 (fun y v => same_number y (b_mul np w v)) y (velocity p).
  Proof.
    intros Hb F1 F2 S1 S2 Lv Hi E.
    destruct (@inertia_returns F FI np32 U L HL phi_p phi_g inertia s p u b w u1 Hb) as [y' [E' [Ly K]]];
      [unfold covers; lia|now apply same_point_covers|now apply same_point_covers|auto|].
    rewrite E' in E. injection E as -> _.
    apply Forall2_nth'; [congruence|]. intros k yk vk Hy Hv.
    destruct (nth_in_bounds (coordinates p) k) as [x Hx]; [rewrite <- Lv; apply nth_error_Some; congruence|].
    destruct (nth_in_bounds (best_personal_coordinates p) k) as [b' Hb'].
    { rewrite (Forall2_length _ _ _ S1). apply nth_error_Some. congruence. }
    destruct (nth_in_bounds (coordinates b) k) as [g Hg].
    { rewrite (Forall2_length _ _ _ S2). apply nth_error_Some. congruence. }
    rewrite (K k vk b' x g Hv Hb' Hx Hg) in Hy. apply some_eq in Hy. rewrite <- Hy. clear Hy.
    destruct (same_point_nth _ _ _ _ _ S1 Hb' Hx) as [A1 [A2 A3]].
    destruct (same_point_nth _ _ _ _ _ S2 Hg Hx) as [B1 [B2 B3]].
    now apply (classic_fixed_form phi_p phi_g (b_mul np w vk) b' x g).
  Qed.
  Lemma negative_fixed (k : @negative_reinforcement F) (s : swarm F) p r bg wg bc wc y r' :
    best_particle s = Some bg -> worst_particle s = Some wg ->
    first_least value (particles s) bc -> last_greatest value (particles s) wc ->
    Forall (fun phi => is_finite phi = true)
      [nr_phi_best_personal k; nr_phi_best_current k; nr_phi_best_global k;
       nr_phi_worst_personal k; nr_phi_worst_current k; nr_phi_worst_global k] ->
    Forall (fun a => same_point a (coordinates p))
      [best_personal_coordinates p; worst_personal_coordinates p;
       coordinates bg; coordinates wg; coordinates bc; coordinates wc] ->
    length (velocity p) = length (coordinates p) ->
    @negative_velocity F FI np64 k s p r = (Ret y, r') ->
    Forall2 (fun y v => same_number y (b_mul np (nr_xi k) v)) y (velocity p).
  Proof.
    intros Hb Hw Hbc Hwc HF HS Lv E.
    repeat match goal with H : Forall _ (_ :: _) |- _ => apply Forall_cons_iff in H; destruct H as [? H] end.
    destruct (@negative_returns F FI np64 k s p r bg wg bc wc Hb Hw Hbc Hwc) as [y' [E' [L K]]];
      try (now apply same_point_covers); [unfold covers; lia|].
    rewrite E' in E. injection E as -> _.
    apply Forall2_nth'; [congruence|]. intros i yi vi Hy Hv.
    destruct (nth_in_bounds (coordinates p) i) as [x Hx]; [rewrite <- Lv; apply nth_error_Some; congruence|].
    assert (G : forall a, same_point a (coordinates p) -> exists ai, nth_error a i = Some ai /\
              is_finite ai = true /\ is_finite x = true /\ partial_cmp ai x = Some Eq).
    { intros a Ha. destruct (nth_in_bounds a i) as [ai Hai].
      { rewrite (Forall2_length _ _ _ Ha). apply nth_error_Some. congruence. }
      exists ai. split; auto. eapply same_point_nth; eauto. }
    destruct (G (best_personal_coordinates p)) as [a1 [N1 [A1 [_ C1]]]]; auto.
    destruct (G (worst_personal_coordinates p)) as [a2 [N2 [A2 [_ C2]]]]; auto.
    destruct (G (coordinates bg)) as [a3 [N3 [A3 [_ C3]]]]; auto.
    destruct (G (coordinates wg)) as [a4 [N4 [A4 [_ C4]]]]; auto.
    destruct (G (coordinates bc)) as [a5 [N5 [A5 [_ C5]]]]; auto.
    destruct (G (coordinates wc)) as [a6 [N6 [A6 [Fx C6]]]]; auto.
    rewrite (K i vi x a1 a5 a3 a2 a6 a4) in Hy by auto. apply some_eq in Hy. rewrite <- Hy. clear Hy.
    cbn [fmul fadd fsub FloatIEEE]. apply mul_same.
    assert (UR : forall j, is_finite (u64 r j) = true /\ (0 <= Binary.B2R prec emax (u64 r j) <= 1)%R)
      by (intros j; apply (unit_range np64)).
    eapply same_trans; [apply sub_zero; apply pull_zero; auto; apply UR|].
    eapply same_trans; [apply sub_zero; apply pull_zero; auto; apply UR|].
    eapply same_trans; [apply sub_zero; apply pull_zero; auto; apply UR|].
    eapply same_trans; [apply add_zero; apply pull_zero; auto; apply UR|].
    eapply same_trans; [apply add_zero; apply pull_zero; auto; apply UR|].
    apply add_zero; apply pull_zero; auto; apply UR.
  Qed.
End FixedPoints.
