(** * Selections and pre-births: the property theorems in the form they are published *)

From Coq Require Import List Arith ZArith Bool Lia Reals Lra.
From Flocq Require Import Core.FLX IEEE754.BinarySingleNaN.
From Verif Require Import Base Logic FloatModel GaModel GaComponents SpecGa SpecSel FloatFacts GaFacts
  GaTheorems GaMore SelFacts.
Import ListNotations.

Lemma nth_Forall2 {A B} (R : A -> B -> Prop) l l' : length l' = length l ->
  (forall n x y, nth_error l n = Some x -> nth_error l' n = Some y -> R x y) -> Forall2 R l l'.
Proof.
  revert l'. induction l as [|x l IH]; intros [|y l'] Hl H; simpl in *; try discriminate; constructor.
  - apply (H 0); reflexivity.
  - apply IH; [lia|]. intros n. apply (H (S n)).
Qed.

Lemma filter_length_le' {A} (f : A -> bool) l : length (filter f l) <= length l.
Proof. induction l as [|x l IH]; simpl; auto. destruct (f x); simpl; lia. Qed.

Section Marked.
  Context {T : Type}.
  Implicit Types l : list (individual T).

  Lemma marked_killed_from l K l' : marked l K l' -> Forall2 killed_from l l'.
  Proof.
    intros [Hl Hm]. apply nth_Forall2; auto. intros n x y Hx Hy. rewrite Hm, Hx in Hy.
    destruct (in_dec _ _ _); simpl in Hy; inversion Hy; subst; split; [|split| |split]; auto; discriminate.
  Qed.

  Lemma marked_killed l K l' n i : marked l K l' -> killed_at l l' n i -> In n K.
  Proof.
    intros [Hl Hm] [Hi [Ha [j [Hj Hd]]]]. rewrite Hm, Hi in Hj.
    destruct (in_dec Nat.eq_dec n K) as [H|H]; auto. inversion Hj; congruence.
  Qed.

  Lemma marked_survives l K l' n i : marked l K l' -> survives_at l l' n i -> ~ In n K.
  Proof.
    intros [Hl Hm] [Hi [Ha Hj]] H. rewrite Hm, Hi in Hj.
    destruct (in_dec Nat.eq_dec n K) as [H'|H']; [|contradiction]. simpl in Hj.
    inversion Hj as [E]. rewrite <- E in Ha. discriminate.
  Qed.

  Lemma marked_kills l K l' n i : marked l K l' -> In n K -> nth_error l n = Some i ->
    alive i = true -> killed_at l l' n i.
  Proof.
    intros [Hl Hm] Hn Hi Ha. split; [auto|]. split; [auto|]. exists (kill i). rewrite Hm, Hi.
    destruct (in_dec Nat.eq_dec n K) as [H|H]; [auto|contradiction].
  Qed.
End Marked.

Section KillWorst.
  Context {T : Type}.
  Implicit Types l : list (individual T).

  Lemma alives_tail l i t : l = i :: t ->
    live l = (if alive i then 1 else 0) + alives l (seq 1 (length l - 1)).
  Proof.
    intros ->. rewrite <- live_seq. unfold alives.
    replace (length (i :: t)) with (S (length t)) by reflexivity.
    replace (S (length t) - 1) with (length t) by lia. simpl.
    change (alive_at (i :: t) 0) with (alive i). destruct (alive i); reflexivity.
  Qed.

  (** How many of the kill list were alive. *)
  Lemma kill_list_alive l K : NoDup K ->
    (forall n, In n K -> n = 0 \/ alive_at l n = true) ->
    length (filter (alive_at l) K) <= length K <= length (filter (alive_at l) K) + 1 /\
    (alive_at l 0 = true -> length (filter (alive_at l) K) = length K).
  Proof.
    intros HN Hf.
    assert (G : forall K, ~ In 0 K -> (forall n, In n K -> n = 0 \/ alive_at l n = true) ->
                  filter (alive_at l) K = K).
    { induction K0 as [|k K0 IH]; intros H0 H; simpl; auto.
      destruct (H k (or_introl eq_refl)) as [->|Hk]; [destruct H0; now left|].
      rewrite Hk, IH; auto; [intros ?; apply H0; now right|intros n Hn; apply H; now right]. }
    split.
    - split; [apply filter_length_le'|].
      induction HN as [|k K Hk HN IH]; simpl; [lia|].
      destruct (alive_at l k) eqn:E; simpl.
      + assert (length K <= length (filter (alive_at l) K) + 1); [|lia].
        apply IH. intros n Hn. apply Hf. now right.
      + destruct (Hf k (or_introl eq_refl)) as [->|H]; [|congruence].
        rewrite G; auto; [lia|]. intros n Hn. apply Hf. now right.
    - intros H0. f_equal. clear HN. induction K as [|k K IH]; simpl; auto.
      destruct (Hf k (or_introl eq_refl)) as [->|H]; [rewrite H0|rewrite H];
        (rewrite IH; [reflexivity|intros n Hn; apply Hf; now right]).
  Qed.

  Lemma kill_worst_only_kills l count l' : kill_worst l count = Ret l' -> Forall2 killed_from l l'.
  Proof.
    destruct l as [|i t]; [discriminate|]. intros H.
    destruct (kill_worst_spec (i :: t) count) as [K [l2 [E [Hm _]]]]; [discriminate|].
    rewrite E in H. inversion H; subst. eapply marked_killed_from; eauto.
  Qed.

  Lemma kill_worst_panics l count : kill_worst l count = Panic <-> l = [].
  Proof.
    split; [|intros ->; reflexivity]. intros H. destruct l as [|i t]; auto.
    destruct (kill_worst_spec (i :: t) count) as [K [l2 [E _]]]; [discriminate|]. congruence.
  Qed.

  Lemma kill_worst_count l count : first_alive l -> 1 <= count <= live l ->
    exists l', kill_worst l count = Ret l' /\ live l' + count = live l.
  Proof.
    intros [i [t [El Ha]]] Hc.
    destruct (kill_worst_spec l count) as [K [l' [E [Hm [HN [Hlive [Hf [HB [Hlen _]]]]]]]]];
      [rewrite El; discriminate|].
    exists l'. split; auto.
    destruct (kill_list_alive l K HN Hf) as [_ H]. rewrite H in Hlive by (rewrite El; exact Ha).
    pose proof (alives_tail l i t El) as Ht. rewrite Ha in Ht. lia.
  Qed.

  (** Without assuming that the first individual is alive. *)
  Lemma kill_worst_count_bound l count : l <> [] ->
    exists l', kill_worst l count = Ret l' /\
      live l <= live l' + Nat.max 1 count /\ live l' + Nat.min count (live l) <= live l + 1.
  Proof.
    intros Hl. destruct l as [|i t] eqn:El; [congruence|]. rewrite <- El in *.
    destruct (kill_worst_spec l count) as [K [l' [E [Hm [HN [Hlive [Hf [HB [Hlen _]]]]]]]]]; auto.
    exists l'. split; auto.
    destruct (kill_list_alive l K HN Hf) as [[H1 H2] H3].
    pose proof (alives_tail l i t El) as Ht.
    assert (E0 : alive_at l 0 = alive i) by (rewrite El; reflexivity).
    destruct (alive i); lia.
  Qed.

  Lemma fit_nth l n i : nth_error l n = Some i -> fit l n = key (fitness i).
  Proof. intros H. unfold fit. now rewrite H. Qed.

  Lemma kill_worst_order l count l' : no_nan l -> kill_worst l count = Ret l' ->
    forall n s m k, survives_at l l' n s -> killed_at l l' m k ->
      leb (fitness s) (fitness k) = true \/
      exists f, nth_error l 0 = Some f /\ leb (fitness s) (fitness f) = true.
  Proof.
    intros HN H n s m k Hs Hk. destruct l as [|i t] eqn:El; [discriminate|]. rewrite <- El in *.
    destruct (kill_worst_spec l count) as [K [l2 [E [Hm [_ [_ [Hf [HB [_ Ho]]]]]]]]]; [congruence|].
    rewrite E in H. inversion H; subst l2.
    pose proof (marked_survives _ _ _ _ _ Hm Hs) as HsK.
    pose proof (marked_killed _ _ _ _ _ Hm Hk) as HkK.
    destruct Hs as [Hs1 [Hs2 _]], Hk as [Hk1 [Hk2 _]].
    destruct (Ho HN) as [_ Ho'].
    assert (Hnl : n < length l) by (apply nth_error_Some; congruence).
    destruct (Ho' n m Hnl) as [G|G]; auto.
    - right. unfold alive_at. now rewrite Hs1.
    - left. rewrite (fit_nth l n s), (fit_nth l m k) in G by auto.
      apply leb_key. split; [apply (HN n s); auto|]. split; [apply (HN m k); auto|auto].
    - right. assert (H0 : nth_error l 0 = Some i) by (rewrite El; reflexivity).
      exists i. split; [auto|]. rewrite (fit_nth l n s), (fit_nth l 0 i) in G by auto.
      apply leb_key. split; [apply (HN n s); auto|]. split; [apply (HN 0 i); auto|auto].
  Qed.

  (** A worst individual is among the killed. *)
  Lemma kill_worst_kills_a_worst l count l' : no_nan l -> first_alive l ->
    kill_worst l count = Ret l' ->
    exists m k, killed_at l l' m k /\
      forall n s, nth_error l n = Some s -> alive s = true -> leb (fitness s) (fitness k) = true.
  Proof.
    intros HN [i [t [El Ha]]] H.
    destruct (kill_worst_spec l count) as [K [l2 [E [Hm [HNd [_ [Hf [HB [_ Ho]]]]]]]]]; [congruence|].
    rewrite E in H. inversion H; subst l2. clear H.
    destruct (Ho HN) as [[e0 [He0 He0']] Ho'].
    assert (H0 : nth_error l 0 = Some i) by (rewrite El; reflexivity).
    assert (Hmax : exists e, In e K /\ forall k, In k K -> (fit l k <= fit l e)%R).
    { clear -He0. assert (HK : K <> []) by (intros ->; destruct He0). clear He0.
      induction K as [|k K IH]; [congruence|]. destruct K as [|k2 K].
      - exists k. split; [now left|]. intros k' [<-|[]]. lra.
      - destruct IH as [e [He Hm]]; [discriminate|].
        destruct (Rle_dec (fit l k) (fit l e)) as [H|H].
        + exists e. split; [now right|]. intros k' [<-|Hk']; auto.
        + exists k. split; [now left|]. intros k' [<-|Hk']; [lra|]. specialize (Hm k' Hk'). lra. }
    destruct Hmax as [e [He Hmax]].
    assert (Hall : forall n, In n K -> exists j, nth_error l n = Some j /\ alive j = true).
    { intros n Hn. destruct (Hf n Hn) as [->|Hal]; [eauto|].
      unfold alive_at in Hal. destruct (nth_error l n) as [j|]; [eauto|discriminate]. }
    destruct (Hall e He) as [k [Hk Hka]]. exists e, k.
    split; [eapply marked_kills; eauto|].
    intros n s Hs Hsa.
    assert (Hle : (fit l n <= fit l e)%R).
    { destruct (in_dec Nat.eq_dec n K) as [HnK|HnK]; [auto|].
      assert (Hnl : n < length l) by (apply nth_error_Some; congruence).
      destruct (Ho' n e Hnl) as [G|G]; auto.
      - right. unfold alive_at. now rewrite Hs.
      - specialize (Hmax e0 He0). lra. }
    rewrite (fit_nth l n s), (fit_nth l e k) in Hle by auto.
    apply leb_key. split; [apply (HN n s); auto|]. split; [apply (HN e k); auto|auto].
  Qed.

  (** Killing one kills a worst one. *)
  Lemma kill_worst_one l l' : no_nan l -> first_alive l -> kill_worst l 1 = Ret l' ->
    forall n s m k, survives_at l l' n s -> killed_at l l' m k ->
      leb (fitness s) (fitness k) = true.
  Proof.
    intros HN HF H n s m k Hs Hk.
    destruct (kill_worst_kills_a_worst l 1 l' HN HF H) as [m' [k' [Hk' Hw]]].
    destruct HF as [i [t [El Ha]]].
    destruct (kill_worst_spec l 1) as [K [l2 [E [Hm [HNd [_ [Hf [HB [Hlen _]]]]]]]]]; [congruence|].
    rewrite E in H. inversion H; subst l2.
    pose proof (marked_killed _ _ _ _ _ Hm Hk) as H1. pose proof (marked_killed _ _ _ _ _ Hm Hk') as H2.
    assert (HK1 : length K = 1) by lia.
    destruct K as [|a [|]]; simpl in HK1; try lia. destruct H1 as [<-|[]], H2 as [<-|[]].
    destruct Hk as [Hk _], Hk' as [Hk' _]. assert (k = k') by congruence. subst.
    destruct Hs as [Hs1 [Hs2 _]]. eauto.
  Qed.

  (** When the first individual is a best one the order is right for every count. *)
  Lemma kill_worst_first_best l count l' f t : no_nan l -> l = f :: t ->
    (forall n s, nth_error l n = Some s -> alive s = true -> leb (fitness f) (fitness s) = true) ->
    kill_worst l count = Ret l' ->
    forall n s m k, survives_at l l' n s -> killed_at l l' m k ->
      leb (fitness s) (fitness k) = true.
  Proof.
    intros HN El Hb H n s m k Hs Hk.
    destruct (kill_worst_order l count l' HN H n s m k Hs Hk) as [G|[f' [Hf G]]]; auto.
    rewrite El in Hf. inversion Hf; subst f'.
    destruct Hk as [Hk1 [Hk2 _]]. specialize (Hb m k Hk1 Hk2).
    apply leb_key in Hb. apply leb_key in G. apply leb_key. intuition lra.
  Qed.

  (** ** LimitPopulation *)
  Lemma limit_population_spec max (p : population T) :
    exists l', limit_population max p = Ret l' /\ Forall2 killed_from (individuals p) l' /\
      (live (individuals p) <= max -> l' = individuals p) /\
      (max < live (individuals p) -> max <= live l' <= max + 1) /\
      (max < live (individuals p) -> first_alive (individuals p) -> live l' = max).
  Proof.
    unfold limit_population, len_alive. rewrite <- live_filter.
    set (l := individuals p). destruct (max <? live l) eqn:E.
    - apply Nat.ltb_lt in E.
      assert (Hne : l <> []) by (intros H; rewrite H in E; simpl in E; unfold live in E; simpl in E; lia).
      destruct (kill_worst_count_bound l (live l - max) Hne) as [l' [E1 [B1 B2]]].
      exists l'. split; [exact E1|]. split; [eapply kill_worst_only_kills; eauto|].
      split; [lia|]. split; [lia|].
      intros _ HF. destruct (kill_worst_count l (live l - max) HF) as [l2 [E2 H2]]; [lia|].
      rewrite E1 in E2. inversion E2; subst. lia.
    - apply Nat.ltb_ge in E. exists l. split; [reflexivity|]. split; [|split; [auto|lia]].
      clear. induction l; constructor; auto. repeat split; auto.
  Qed.

  (** ** KillFitnessNaN *)
  Lemma kill_fitness_nan_spec (p : population T) :
    Forall2 (fun i j => chromosomes j = chromosomes i /\ fitness j = fitness i /\
               alive j = (alive i && is_finite (fitness i))%bool)
            (individuals p) (kill_fitness_nan p).
  Proof.
    unfold kill_fitness_nan. induction (individuals p) as [|i l IH]; simpl; constructor; auto.
    destruct (is_finite (fitness i)); simpl; rewrite ?andb_true_r, ?andb_false_r; auto.
  Qed.
End KillWorst.

(** ** The interval checks *)
Section Check.
  Context {T : Type} {FT : FloatTrait T}.

  Lemma genes_ok_spec intervals (c : list T) : length c = length intervals ->
    (genes_ok intervals c = true <-> genes_in c intervals).
  Proof.
    unfold genes_ok, genes_in. revert intervals.
    induction c as [|x c IH]; intros [|i intervals] Hl; simpl in *; try discriminate.
    - split; auto.
    - rewrite andb_true_iff, IH by lia. unfold gene_in. split.
      + intros [H1 H2]. constructor; auto.
        apply negb_true_iff in H1. apply orb_false_iff in H1. destruct H1 as [H1 H3].
        apply orb_false_iff in H1. destruct H1 as [H0 H1]. apply negb_false_iff in H0. auto.
      + intros H. inversion H; subst. split; auto.
        destruct H3 as [-> [-> ->]]. reflexivity.
  Qed.

  Lemma pre_birth_interval_spec intervals p (cs : list (list T)) :
    (exists cs', pre_birth_interval intervals p cs = Ret cs' /\
       (forall c, In c cs -> length c = length intervals) /\
       exists keep : list bool, length keep = length cs /\
         cs' = map fst (filter snd (combine cs keep)) /\
         Forall2 (fun c b => b = true <-> genes_in c intervals) cs keep) \/
    (pre_birth_interval intervals p cs = Panic /\
       exists c, In c cs /\ length c <> length intervals).
  Proof.
    unfold pre_birth_interval. induction cs as [|c cs IH]; simpl.
    - left. exists []. split; [reflexivity|]. split; [tauto|]. exists []. auto.
    - assert (Hc : check_chromo intervals c =
                   if length c =? length intervals then Ret (genes_ok intervals c) else Panic)
        by (unfold check_chromo; destruct (_ =? _); reflexivity).
      rewrite Hc. destruct (length c =? length intervals) eqn:E; simpl.
      + apply Nat.eqb_eq in E. destruct IH as [[cs' [E1 [H1 [keep [H2 [H3 H4]]]]]]|[E1 [c' [H1 H2]]]].
        * left. rewrite E1. simpl. eexists. split; [reflexivity|]. split.
          -- intros c' [<-|H]; auto.
          -- exists (genes_ok intervals c :: keep). split; [simpl; lia|]. split.
             ++ simpl. destruct (genes_ok intervals c); simpl; now rewrite H3.
             ++ constructor; auto. apply genes_ok_spec; auto.
        * right. rewrite E1. split; [reflexivity|]. exists c'. auto.
      + apply Nat.eqb_neq in E. right. split; [reflexivity|]. exists c. auto.
  Qed.

  Lemma selection_interval_spec intervals (p : population (list T)) :
    (exists l', selection_interval intervals p = Ret l' /\
       (forall i, In i (individuals p) -> length (chromosomes i) = length intervals) /\
       Forall2 (fun i j => chromosomes j = chromosomes i /\ fitness j = fitness i /\
                  (alive j = true <-> alive i = true /\ genes_in (chromosomes i) intervals))
               (individuals p) l') \/
    (selection_interval intervals p = Panic /\
       exists i, In i (individuals p) /\ length (chromosomes i) <> length intervals).
  Proof.
    unfold selection_interval. induction (individuals p) as [|i l IH]; simpl.
    - left. exists []. split; [reflexivity|]. split; [tauto|constructor].
    - destruct (length (chromosomes i) =? length intervals) eqn:E; simpl.
      + apply Nat.eqb_eq in E. destruct IH as [[l' [E1 [H1 H2]]]|[E1 [j [H1 H2]]]].
        * left. rewrite E1. simpl. eexists. split; [reflexivity|]. split.
          -- intros j [<-|H]; auto.
          -- constructor; auto. pose proof (genes_ok_spec intervals (chromosomes i) E) as G.
             destruct (genes_ok intervals (chromosomes i)); simpl.
             ++ split; [auto|]. split; [auto|]. split; [intros ->; split; auto; now apply G|tauto].
             ++ split; [auto|]. split; [auto|]. split; [discriminate|].
                intros [_ H]. apply G in H. discriminate.
        * right. rewrite E1. split; [reflexivity|]. exists j. auto.
      + apply Nat.eqb_neq in E. right. split; [reflexivity|]. exists i. auto.
  Qed.
End Check.

(** ** Selections inside a run *)
Section InRun.
  Context {U T : Type}.
  Implicit Types (cfg : ga_config U T) (p : population T).

  Lemma limit_population_kills max :
    @selection_kills T U (fun p => cpure (limit_population max p)).
  Proof.
    intros p u l u' H. apply cpure_ret in H. destruct H as [H _].
    destruct (limit_population_spec max p) as [l' [E [HF _]]]. rewrite E in H. inversion H; now subst.
  Qed.
  Lemma kill_fitness_nan_kills : @selection_kills T U (fun p => cret (kill_fitness_nan p)).
  Proof.
    intros p u l u' H. apply cret_ret in H. destruct H as [<- _].
    eapply Forall2_impl; [|apply kill_fitness_nan_spec]. simpl. intros i j [H1 [H2 H3]].
    split; [auto|]. split; [auto|]. rewrite H3. intros H. now apply andb_prop in H.
  Qed.

  (** Among the selections there is one that leaves no live individual with a
      non-finite fitness. *)
  Definition filters_finite cfg : Prop :=
    In (fun p => cret (kill_fitness_nan p)) (ga_selections cfg) /\
    Forall selection_kills (ga_selections cfg).

  Definition finite_pop (p : population T) : Prop :=
    forall i, In i (individuals p) -> alive i = true -> is_finite (fitness i) = true.

  (** The selections as run, with the selections of the configuration. *)
  Lemma selections_finite sels : 
    Forall (@selection_kills T U) sels ->
    forall q u q' u' (t : list (ga_event T)),
    mfold (fun q selection =>
             emit (ESee q) ;;;
             l <- call_comp (CSelect q) (selection q) ;;
             mret (set_individuals q l)) sels q u = (Ret q', u', t) ->
    (finite_pop q -> finite_pop q') /\
    (In (fun p => cret (kill_fitness_nan p)) sels -> finite_pop q').
  Proof.
    induction 1 as [|s sels Hs Hsels IH]; intros q u q' u' t H; simpl in H.
    - minv H. split; [auto|intros []].
    - minv H. callinv. simpl in *.
      match goal with h : s q _ = (Ret ?l, _) |- _ => rename h into Hq; rename l into lq end.
      assert (K : finite_pop q -> finite_pop (set_individuals q lq)).
      { intros Hf i Hi Ha. simpl in Hi. apply Hs in Hq.
        assert (G : forall l1 l2, Forall2 (@killed_from T) l1 l2 -> In i l2 ->
                  exists j, In j l1 /\ killed_from j i).
        { induction 1; intros Hin; [destruct Hin|].
          destruct Hin as [E|E]; subst; [eexists; split; [now left|auto]|].
          destruct IHForall2 as [j [? ?]]; auto. exists j. split; [now right|auto]. }
        destruct (G _ _ Hq Hi) as [j [Hj [_ [E1 E2]]]]. rewrite E1. apply Hf; auto. }
      match goal with h : mfold _ sels _ _ = _ |- _ => destruct (IH _ _ _ _ _ h) as [I1 I2] end.
      split; [auto|]. intros [->|Hin]; [|auto].
      apply I1. apply cret_ret in Hq. destruct Hq as [<- _].
      intros i Hi Ha. simpl in Hi. unfold kill_fitness_nan in Hi. apply in_map_iff in Hi.
      destruct Hi as [j [<- Hj]]. destruct (is_finite (fitness j)) eqn:F; [auto|discriminate].
  Qed.

  Lemma iteration_finite cfg p u p' u' g : filters_finite cfg ->
    ga_iteration cfg p u = (Ret p', u', g) ->
    (forall i, In i (individuals p') -> is_finite (fitness i) = true).
  Proof.
    intros [Hin Hk] H i Hi. unfold ga_iteration in H. minv H.
    match goal with h : mfold _ (ga_selections cfg) _ _ = _ |- _ =>
      destruct (selections_finite _ Hk _ _ _ _ _ h) as [_ Hf] end.
    specialize (Hf Hin).
    match goal with h : update_best_worst _ = Ret _ |- _ => rename h into Hu end.
    unfold update_best_worst in Hu. apply obind_ret in Hu. destruct Hu as [best [_ Hu]].
    apply obind_ret in Hu. destruct Hu as [worst [_ Hu]]. inversion Hu; subst.
    assert (Hi' : In i (filter alive (individuals a3))).
    { destruct best, worst; exact Hi. }
    apply filter_In in Hi'. destruct Hi'. auto.
  Qed.

  Definition best_finite (p : population T) : Prop :=
    forall b, best_individual p = Some b -> is_finite (fitness b) = true.

  Lemma iteration_best_finite cfg p u p' u' g : filters_finite cfg -> best_finite p ->
    ga_iteration cfg p u = (Ret p', u', g) -> best_finite p'.
  Proof.
    intros Hc Hb H b Eb. pose proof (iteration_finite _ _ _ _ _ _ Hc H) as Hf.
    apply ga_iteration_ret in H. destruct H as [born [vals [after Hg]]]. destruct Hg.
    unfold extremes in gen_extremes. destruct (individuals p') as [|i l] eqn:El.
    - destruct gen_extremes as [E _]. rewrite E in Eb. auto.
    - destruct gen_extremes as [[b' [E [k [Hn _]]]] _]. rewrite E in Eb. inversion Eb; subst.
      apply Hf. eapply nth_error_In; eauto.
  Qed.

  Lemma loop_best_finite cfg fuel : filters_finite cfg -> forall p u p' u' t, best_finite p ->
    ga_loop cfg fuel p u = (Ret p', u', t) -> best_finite p'.
  Proof.
    intros Hc. induction fuel as [|fuel IH]; intros p u p' u' t Hb H; [discriminate|].
    simpl in H. minv H. callinv. destruct a; minv H; auto.
    eapply IH; [|eassumption]. eapply iteration_best_finite; eauto.
  Qed.

  Lemma next_best_finite cfg fuel p u r p' u' t : filters_finite cfg -> best_finite p ->
    ga_next_iterations cfg fuel p u = (Ret (r, p'), u', t) ->
    best_finite p' /\ (forall x v, r = Some (x, v) -> is_finite v = true).
  Proof.
    intros Hc Hb H. assert (G : best_finite p').
    { unfold ga_next_iterations in H. minv H.
      match goal with h : (_, _) = (_, _) |- _ => inversion h; subst end.
      eapply loop_best_finite; eauto. }
    split; [exact G|]. intros x v ->. apply ga_next_ret in H. destruct H as [H _].
    unfold solution in H. destruct (best_individual p') as [b|] eqn:Eb; [|discriminate].
    inversion H; subst. auto.
  Qed.

  Lemma find_best_finite cfg fuel p u r p' u' t : filters_finite cfg ->
    ga_find_min cfg fuel p u = (Ret (r, p'), u', t) ->
    best_finite p' /\ (forall x v, r = Some (x, v) -> is_finite v = true).
  Proof.
    intros Hc H. unfold ga_find_min in H. cbv zeta in H.
    apply mbind_ret in H. destruct H as [xs [u1 [t1 [t2 [_ [H _]]]]]].
    apply mbind_ret in H. destruct H as [p1 [u2 [t3 [t4 [Hp [H _]]]]]].
    apply mbind_ret in H. destruct H as [? [u3 [t5 [t6 [_ [H _]]]]]].
    eapply next_best_finite; [exact Hc| |exact H].
    apply pop_append_ret in Hp. destruct Hp as [vs [_ [-> _]]]. intros b Hb. discriminate.
  Qed.

  (** After any history with such configurations. *)
  Lemma results_finite (ok : ga_config U T -> Prop) p h cfg fuel u x v p' u' t :
    (forall cfg, ok cfg -> filters_finite cfg) ->
    ga_reach ok p h -> ok cfg ->
    ga_find_min cfg fuel p u = (Ret (Some (x, v), p'), u', t) \/
    ga_next_iterations cfg fuel p u = (Ret (Some (x, v), p'), u', t) -> is_finite v = true.
  Proof.
    intros Hok Hr Hc H.
    assert (Hb : best_finite p).
    { clear - Hok Hr. induction Hr.
      - intros b Hb. discriminate.
      - eapply find_best_finite; eauto.
      - eapply next_best_finite; eauto. }
    destruct H as [H|H].
    - apply find_best_finite in H; auto. destruct H as [_ H]. eauto.
    - apply next_best_finite in H; auto. destruct H as [_ H]. eauto.
  Qed.
End InRun.

(** What [gene_in] means for IEEE floats. *)
Lemma gene_in_ieee {prec emax : Z} (Hp : FLX.Prec_gt_0 prec) (He : BinarySingleNaN.Prec_lt_emax prec emax)
  (np : nan_policy prec emax) (x lo hi : bfloat prec emax) :
  is_nan lo = false -> is_nan hi = false ->
  (@gene_in _ (FloatIEEE np) x (lo, hi) <->
   is_finite x = true /\ leb lo x = true /\ leb x hi = true).
Proof.
  intros Hl Hh. unfold gene_in. simpl. split.
  - intros [Hx [H1 H2]]. pose proof (finite_not_nan _ Hx) as Nx.
    apply ltb_false in H1; auto. apply ltb_false in H2; auto.
    split; [auto|]. rewrite !leb_key. auto.
  - intros [Hx [H1 H2]]. pose proof (finite_not_nan _ Hx) as Nx.
    apply leb_key in H1. apply leb_key in H2.
    split; [auto|]. rewrite !ltb_false by auto. tauto.
Qed.
