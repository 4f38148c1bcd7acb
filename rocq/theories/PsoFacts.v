(** * Facts about the order of particles and about moves *)

From Coq Require Import List Arith ZArith Bool Reals Lia Lra.
From Verif Require Import Base Logic FloatModel GaModel PsoModel SpecGa SpecPso FloatFacts GaBest.
Import ListNotations.

(** ** The order *)
Lemma le_fin_refl a : le_fin a a.
Proof.
  unfold le_fin. destruct (is_finite a) eqn:F; auto. right. split; auto.
  apply leb_key. pose proof (finite_not_nan a F). repeat split; auto. lra.
Qed.
Lemma le_fin_trans a b c : le_fin a b -> le_fin b c -> le_fin a c.
Proof.
  unfold le_fin. intros [H|[F H]] [K|[F2 K]]; auto; try congruence.
  right. split; auto. fkeys. apply leb_key. repeat split; auto. lra.
Qed.
Lemma le_fin_total a b : le_fin a b \/ le_fin b a.
Proof.
  unfold le_fin. destruct (is_finite a) eqn:Fa, (is_finite b) eqn:Fb; auto.
  pose proof (finite_not_nan a Fa). pose proof (finite_not_nan b Fb).
  destruct (leb a b) eqn:E; auto. right. right. split; auto. fkeys.
  apply leb_key. repeat split; auto. lra.
Qed.
Lemma lt_le_fin a b : lt_fin a b -> le_fin a b.
Proof.
  unfold lt_fin, le_fin. intros [F [H|H]]; auto. right. split; auto. fkeys.
  apply leb_key. repeat split; auto. lra.
Qed.
Lemma lt_le_fin_trans a b c : lt_fin a b -> le_fin b c -> lt_fin a c.
Proof.
  unfold lt_fin, le_fin. intros [F [H|H]] [K|[F2 K]]; split; auto; try congruence.
  right. fkeys. apply ltb_key. repeat split; auto. lra.
Qed.
Lemma le_lt_fin_trans a b c : le_fin a b -> lt_fin b c -> lt_fin a c.
Proof.
  unfold lt_fin, le_fin. intros [H|[F H]] [K [L|L]]; try congruence; split; auto.
  right. fkeys. apply ltb_key. repeat split; auto. lra.
Qed.
Lemma not_lt_fin a b : ~ lt_fin a b <-> le_fin b a.
Proof.
  unfold lt_fin, le_fin. destruct (is_finite a) eqn:Fa; [|split; [auto|intros _ [H _]; discriminate]].
  destruct (is_finite b) eqn:Fb.
  - pose proof (finite_not_nan a Fa). pose proof (finite_not_nan b Fb). split.
    + intros H1. right. split; auto. apply leb_key. repeat split; auto.
      apply Rnot_lt_le. intros L. apply H1. split; auto. right. apply ltb_key. auto.
    + intros [K|[_ K]]; [discriminate|]. intros [_ [L|L]]; [discriminate|]. fkeys. lra.
  - split; [intros H; exfalso; apply H; auto|]. intros [K|[K _]]; discriminate.
Qed.
Lemma not_le_fin a b : ~ le_fin a b -> lt_fin b a.
Proof.
  intros H. destruct (le_fin_total a b) as [K|K]; [contradiction|].
  unfold lt_fin, le_fin in *. destruct K as [K|[F K]].
  - destruct (is_finite b) eqn:Fb; [auto|]. exfalso. apply H. auto.
  - split; auto. destruct (is_finite a) eqn:Fa; auto. right.
    fkeys. apply ltb_key. repeat split; auto. apply Rnot_le_lt. intros L. apply H. right. split; auto.
    apply leb_key. auto.
Qed.

(** ** [compare_floats] decides it *)
Lemma compare_lt a b : compare_floats a b = Lt <-> lt_fin a b.
Proof.
  unfold compare_floats, lt_fin.
  destruct (is_finite a) eqn:Fa, (is_finite b) eqn:Fb; simpl;
    try (split; [discriminate|intros [H [K|K]]; discriminate]); auto.
  - pose proof (finite_not_nan a Fa). pose proof (finite_not_nan b Fb).
    destruct (ltb b a) eqn:E1; [|destruct (ltb a b) eqn:E2].
    + split; [discriminate|]. intros [_ [K|K]]; [discriminate|]. fkeys. lra.
    + split; auto.
    + split; [discriminate|]. intros [_ [K|K]]; congruence.
  - split; auto.
Qed.
Lemma compare_gt a b : compare_floats a b = Gt <-> lt_fin b a.
Proof.
  unfold compare_floats, lt_fin.
  destruct (is_finite a) eqn:Fa, (is_finite b) eqn:Fb; simpl;
    try (split; [discriminate|intros [H [K|K]]; discriminate]); auto.
  - destruct (ltb b a) eqn:E1; [|destruct (ltb a b) eqn:E2].
    + split; auto.
    + split; [discriminate|]. intros [_ [K|K]]; congruence.
    + split; [discriminate|]. intros [_ [K|K]]; congruence.
  - split; auto.
Qed.
Lemma compare_eq a b : compare_floats a b = Eq <-> le_fin a b /\ le_fin b a.
Proof.
  split.
  - intros H. split; apply not_lt_fin; intros K.
    + apply compare_gt in K. congruence.
    + apply compare_lt in K. congruence.
  - intros [H K]. apply not_lt_fin in H, K. destruct (compare_floats a b) eqn:E; auto.
    + apply compare_lt in E. contradiction.
    + apply compare_gt in E. contradiction.
Qed.

(** ** Extremes of a list *)
Section Lists.
  Context {A : Type}.
  Variable f : A -> f64.

  Lemma first_least_one a : first_least f [a] a.
  Proof.
    exists 0. split; [reflexivity|split].
    - intros b [<-|[]]. apply le_fin_refl.
    - intros; lia.
  Qed.
  Lemma greatest_one a : greatest f [a] a.
  Proof. split; [now left|]. intros b [<-|[]]. apply le_fin_refl. Qed.
  Lemma first_greatest_one a : first_greatest f [a] a.
  Proof.
    exists 0. split; [reflexivity|split].
    - intros b [<-|[]]. apply le_fin_refl.
    - intros; lia.
  Qed.
  Lemma last_greatest_one a : last_greatest f [a] a.
  Proof.
    exists 0. split; [reflexivity|split].
    - intros b [<-|[]]. apply le_fin_refl.
    - intros [|[|]] b Hj E; simpl in E; try discriminate; lia.
  Qed.

  Lemma first_least_in l a : first_least f l a -> In a l.
  Proof. intros [k [H _]]. eapply nth_error_In; eauto. Qed.

  Lemma first_least_unique l a b : first_least f l a -> first_least f l b -> a = b.
  Proof.
    intros [k [Hk [Lk Ek]]] [j [Hj [Lj Ej]]].
    destruct (lt_eq_lt_dec k j) as [[H|Ekj]|H]; [|subst; congruence|]; exfalso.
    - specialize (Ej k a H Hk). eapply not_lt_fin; [|exact Ej]. apply Lk. eapply nth_error_In; eauto.
    - specialize (Ek j b H Hj). eapply not_lt_fin; [|exact Ek]. apply Lj. eapply nth_error_In; eauto.
  Qed.

  (** The least of two parts. *)
  Lemma first_least_app l1 l2 a b :
    first_least f l1 a -> first_least f l2 b ->
    (lt_fin (f b) (f a) -> first_least f (l1 ++ l2) b) /\
    (~ lt_fin (f b) (f a) -> first_least f (l1 ++ l2) a).
  Proof.
    intros [k [Hk [Lk Ek]]] [j [Hj [Lj Ej]]].
    assert (k < length l1) by (apply nth_error_Some; congruence).
    split; intros H0.
    - exists (length l1 + j). split; [|split].
      + rewrite nth_error_app2 by lia. now rewrite Nat.add_comm, Nat.add_sub.
      + intros c Hc. apply in_app_or in Hc. destruct Hc as [Hc|Hc]; auto.
        apply lt_le_fin. eapply lt_le_fin_trans; eauto.
      + intros i c Hi E. destruct (le_lt_dec (length l1) i) as [Hl|Hl].
        * rewrite nth_error_app2 in E by lia. eapply Ej; [|eauto]. lia.
        * rewrite nth_error_app1 in E by lia. eapply lt_le_fin_trans; eauto.
          apply Lk. eapply nth_error_In; eauto.
    - exists k. split; [|split].
      + now rewrite nth_error_app1 by lia.
      + intros c Hc. apply in_app_or in Hc. destruct Hc as [Hc|Hc]; auto.
        eapply le_fin_trans; [|apply Lj; auto]. now apply not_lt_fin.
      + intros i c Hi E. rewrite nth_error_app1 in E by lia. eapply Ek; eauto.
  Qed.

  Lemma first_greatest_app l1 l2 a b :
    first_greatest f l1 a -> first_greatest f l2 b ->
    (lt_fin (f a) (f b) -> first_greatest f (l1 ++ l2) b) /\
    (~ lt_fin (f a) (f b) -> first_greatest f (l1 ++ l2) a).
  Proof.
    intros [k [Hk [Lk Ek]]] [j [Hj [Lj Ej]]].
    assert (k < length l1) by (apply nth_error_Some; congruence).
    split; intros H0.
    - exists (length l1 + j). split; [|split].
      + rewrite nth_error_app2 by lia. now rewrite Nat.add_comm, Nat.add_sub.
      + intros c Hc. apply in_app_or in Hc. destruct Hc as [Hc|Hc]; auto.
        apply lt_le_fin. eapply le_lt_fin_trans; eauto.
      + intros i c Hi E. destruct (le_lt_dec (length l1) i) as [Hl|Hl].
        * rewrite nth_error_app2 in E by lia. eapply Ej; [|eauto]. lia.
        * rewrite nth_error_app1 in E by lia. eapply le_lt_fin_trans; eauto.
          apply Lk. eapply nth_error_In; eauto.
    - exists k. split; [|split].
      + now rewrite nth_error_app1 by lia.
      + intros c Hc. apply in_app_or in Hc. destruct Hc as [Hc|Hc]; auto.
        eapply le_fin_trans; [apply Lj; auto|]. now apply not_lt_fin.
      + intros i c Hi E. rewrite nth_error_app1 in E by lia. eapply Ek; eauto.
  Qed.

  Lemma last_greatest_app l1 l2 a b :
    last_greatest f l1 a -> last_greatest f l2 b ->
    (lt_fin (f b) (f a) -> last_greatest f (l1 ++ l2) a) /\
    (~ lt_fin (f b) (f a) -> last_greatest f (l1 ++ l2) b).
  Proof.
    intros [k [Hk [Lk Ek]]] [j [Hj [Lj Ej]]].
    assert (k < length l1) by (apply nth_error_Some; congruence).
    split; intros H0.
    - exists k. split; [|split].
      + now rewrite nth_error_app1 by lia.
      + intros c Hc. apply in_app_or in Hc. destruct Hc as [Hc|Hc]; auto.
        apply lt_le_fin. eapply le_lt_fin_trans; eauto.
      + intros i c Hi E. destruct (le_lt_dec (length l1) i) as [Hl|Hl].
        * rewrite nth_error_app2 in E by lia. eapply le_lt_fin_trans; eauto.
          apply Lj. eapply nth_error_In; eauto.
        * rewrite nth_error_app1 in E by lia. eapply Ek; eauto.
    - exists (length l1 + j). split; [|split].
      + rewrite nth_error_app2 by lia. now rewrite Nat.add_comm, Nat.add_sub.
      + intros c Hc. apply in_app_or in Hc. destruct Hc as [Hc|Hc]; auto.
        eapply le_fin_trans; [apply Lk; auto|]. now apply not_lt_fin.
      + intros i c Hi E. rewrite nth_error_app2 in E by lia. eapply Ej; [|eauto]. lia.
  Qed.

  Lemma greatest_app l1 l2 a b :
    greatest f l1 a -> greatest f l2 b ->
    (lt_fin (f a) (f b) -> greatest f (l1 ++ l2) b) /\
    (~ lt_fin (f a) (f b) -> greatest f (l1 ++ l2) a).
  Proof.
    intros [Ia La] [Ib Lb]. split; intros H0; split.
    - apply in_or_app; auto.
    - intros c Hc. apply in_app_or in Hc. destruct Hc as [Hc|Hc]; auto.
      apply lt_le_fin. eapply le_lt_fin_trans; eauto.
    - apply in_or_app; auto.
    - intros c Hc. apply in_app_or in Hc. destruct Hc as [Hc|Hc]; auto.
      eapply le_fin_trans; [apply Lb; auto|]. now apply not_lt_fin.
  Qed.

  Lemma last_greatest_greatest l a : last_greatest f l a -> greatest f l a.
  Proof. intros [k [Hk [L _]]]. split; auto. eapply nth_error_In; eauto. Qed.
End Lists.

Section Maps.
  Context {A B : Type}.
  Variables (g : A -> B) (f : B -> f64).
  Lemma first_least_map l a : first_least (fun x => f (g x)) l a -> first_least f (map g l) (g a).
  Proof.
    intros [k [Hk [L E]]]. exists k. split; [|split].
    - now apply map_nth_error.
    - intros b Hb. apply in_map_iff in Hb. destruct Hb as [c [<- Hc]]. auto.
    - intros j b Hj Eb. rewrite nth_error_map in Eb.
      destruct (nth_error l j) eqn:El; inversion Eb; subst. eauto.
  Qed.
  Lemma greatest_map l a : greatest (fun x => f (g x)) l a -> greatest f (map g l) (g a).
  Proof.
    intros [Ia L]. split; [now apply in_map|].
    intros b Hb. apply in_map_iff in Hb. destruct Hb as [c [<- Hc]]. auto.
  Qed.
End Maps.

(** ** Moves *)
Section Moves.
  Context {T : Type}.
  Implicit Types (p : particle T).

  Lemma moved_spec p v x y : moved p (move_to (set_velocity p v) x y) v x y.
  Proof.
    unfold moved. repeat split.
    - unfold best_memory, move_to. simpl.
      destruct (first_least_app snd [best_memory p] [(x, y)] _ _
                  (first_least_one snd _) (first_least_one snd _)) as [H1 H2].
      simpl in *. pose proof (compare_lt y (best_personal_value p)) as Hc.
      destruct (compare_floats y (best_personal_value p)).
      + apply H2. intros K. apply Hc in K. discriminate.
      + apply H1. now apply Hc.
      + apply H2. intros K. apply Hc in K. discriminate.
    - unfold worst_memory, move_to. simpl.
      destruct (first_greatest_app snd [worst_memory p] [(x, y)] _ _
                  (first_greatest_one snd _) (first_greatest_one snd _)) as [H1 H2].
      simpl in *. pose proof (compare_gt y (worst_personal_value p)) as Hc.
      destruct (compare_floats y (worst_personal_value p)).
      + apply H2. intros K. apply Hc in K. discriminate.
      + apply H2. intros K. apply Hc in K. discriminate.
      + apply H1. now apply Hc.
  Qed.

  Lemma remembers_new (x v : list T) y : remembers [(x, y)] (particle_new x v y).
  Proof. split; [apply (first_least_one snd)|apply (first_greatest_one snd)]. Qed.

  Lemma remembers_moved places p p' v x y :
    remembers places p -> moved p p' v x y -> remembers (places ++ [(x, y)]) p'.
  Proof.
    intros [H1 H2] [_ [_ [_ [M1 M2]]]].
    assert (some : forall (A : Type) (a b : A), Some a = Some b -> b = a) by (intros; congruence).
    split.
    - destruct (first_least_app snd places [(x, y)] _ _ H1 (first_least_one snd _)) as [A B].
      destruct M1 as [[|[|[]]] M1]; simpl nth_error in M1; destruct M1 as [E [L F]];
        try discriminate; apply some in E; rewrite E in *.
      + apply B. intros K. eapply not_lt_fin; [|exact K]. apply L. right. now left.
      + apply A. apply (F 0 (best_memory p)); auto.
    - destruct (first_greatest_app snd places [(x, y)] _ _ H2 (first_greatest_one snd _)) as [A B].
      destruct M2 as [[|[|[]]] M2]; simpl nth_error in M2; destruct M2 as [E [L F]];
        try discriminate; apply some in E; rewrite E in *.
      + apply B. intros K. eapply not_lt_fin; [|exact K]. apply L. right. now left.
      + apply A. apply (F 0 (worst_memory p)); auto.
  Qed.

  (** ** The best and the worst of a list of particles *)
  Lemma find_best_spec (l : list (particle T)) :
    match l with
    | [] => find_best_particle l = Ret None
    | _ => exists b, find_best_particle l = Ret (Some b) /\ first_least value l b
    end.
  Proof.
    destruct l as [|x l]; [reflexivity|]. unfold find_best_particle, min_by.
    set (g := fun x y : particle T =>
                let! c := Ret (compare_floats (value x) (value y)) in
                Ret match c with Gt => y | _ => x end).
    destruct (ofold_total g (fun done s => first_least value (x :: done) s) l x) as [b [E Hb]].
    - intros done y rest s _ Hs. unfold g. simpl. eexists; split; [reflexivity|].
      destruct (first_least_app value (x :: done) [y] s y Hs (first_least_one value y)) as [A B].
      pose proof (compare_gt (value s) (value y)) as Hc.
      destruct (compare_floats (value s) (value y)); simpl in *.
      + apply B. intros K. apply Hc in K. discriminate.
      + apply B. intros K. apply Hc in K. discriminate.
      + apply A. now apply Hc.
    - apply first_least_one.
    - exists b. rewrite E. simpl. auto.
  Qed.

  Lemma find_worst_spec (l : list (particle T)) :
    match l with
    | [] => find_worst_particle l = Ret None
    | _ => exists b, find_worst_particle l = Ret (Some b) /\ last_greatest value l b
    end.
  Proof.
    destruct l as [|x l]; [reflexivity|]. unfold find_worst_particle, max_by.
    set (g := fun x y : particle T =>
                let! c := Ret (compare_floats (value x) (value y)) in
                Ret match c with Gt => x | _ => y end).
    destruct (ofold_total g (fun done s => last_greatest value (x :: done) s) l x) as [b [E Hb]].
    - intros done y rest s _ Hs. unfold g. simpl. eexists; split; [reflexivity|].
      destruct (last_greatest_app value (x :: done) [y] s y Hs (last_greatest_one value y)) as [A B].
      pose proof (compare_gt (value s) (value y)) as Hc.
      destruct (compare_floats (value s) (value y)); simpl in *.
      + apply B. intros K. apply Hc in K. discriminate.
      + apply B. intros K. apply Hc in K. discriminate.
      + apply A. now apply Hc.
    - apply last_greatest_one.
    - exists b. rewrite E. simpl. auto.
  Qed.
End Moves.
