(** * What get_agents shows during a run *)

From Coq Require Import List Arith ZArith Bool Lia.
From Verif Require Import Base Logic FloatModel GaModel PsoModel SpecGa SpecPso ApiModel SpecApi ApiFacts GaProofs PsoProofs.
Import ListNotations.

Lemma pop_accessors {T} (p : population T) :
  length (pop_get_agents p) = pop_len p /\
  (forall n i, pop_index p n = Ret i <-> nth_error (pop_get_agents p) n = Some i) /\
  (forall n, pop_index p n = Panic <-> pop_len p <= n).
Proof.
  rewrite pop_agents. unfold pop_len, pop_index. split; [reflexivity|]. split; intros n.
  - intros i. apply index_ret.
  - unfold index. split.
    + intros H. apply nth_error_None. now destruct (nth_error (individuals p) n).
    + intros H. apply nth_error_None in H. now rewrite H.
Qed.
Lemma swarm_accessors {T} (s : swarm T) :
  length (swarm_get_agents s) = swarm_len s /\ swarm_get_agents s = particles s.
Proof. rewrite swarm_agents. auto. Qed.

(** [population[n].kill()] *)
Lemma pop_kill_spec {T} (p : population T) n :
  (pop_kill p n = Panic <-> pop_len p <= n) /\
  forall q, pop_kill p n = Ret q ->
    best_individual q = best_individual p /\ worst_individual q = worst_individual p /\ iteration q = iteration p /\
    pop_len q = pop_len p /\
    (exists i, nth_error (individuals p) n = Some i /\ nth_error (individuals q) n = Some (Individual (chromosomes i) (fitness i) false)) /\
    forall m, m <> n -> nth_error (individuals q) m = nth_error (individuals p) m.
Proof.
  assert (S : forall (l : list (individual T)) m x, m < length l -> exists l', update l m x = Ret l' /\ length l' = length l /\
      nth_error l' m = Some x /\ forall j, j <> m -> nth_error l' j = nth_error l j).
  { induction l as [|a l IH]; intros m x Hm; simpl in Hm; [lia|]. destruct m as [|m]; simpl.
    - eexists. split; [reflexivity|]. split; [reflexivity|]. split; [reflexivity|]. intros [|j] Hj; [congruence|reflexivity].
    - destruct (IH m x ltac:(lia)) as [l' [E [E1 [E2 E3]]]]. rewrite E. simpl. eexists. split; [reflexivity|]. simpl. split; [lia|].
      split; [exact E2|]. intros [|j] Hj; [reflexivity|]. simpl. apply E3. congruence. }
  unfold pop_kill, pop_store, pop_index, pop_len, index.
  destruct (nth_error (individuals p) n) as [i|] eqn:Ei; cbn [obind].
  - assert (Hn : n < length (individuals p)) by (apply nth_error_Some; congruence).
    destruct (S (individuals p) n (kill i) Hn) as [l' [E [E1 [E2 E3]]]]. rewrite E. cbn [obind]. split.
    + split; [discriminate|lia].
    + intros q Hq. injection Hq as <-. cbn. repeat split; auto. exists i. auto.
  - apply nth_error_None in Ei. split; [split; auto|discriminate].
Qed.

Section Ga.
  Context {U T : Type}.
  Variable ok : ga_config U T -> Prop.
  Hypothesis ok_legal : forall cfg, ok cfg -> Forall selection_copies (ga_selections cfg).
  Lemma ga_agents p h cfg fuel u o u' t : ga_reach ok p h -> ok cfg ->
    ga_find_min cfg fuel p u = (o, u', t) ->
    forall t1 e t2 q a, t = t1 ++ e :: t2 -> shows e = Some q -> In a (pop_get_agents q) ->
      evaluated t1 (ind_get_parameter a) (ind_get_goal a).
  Proof.
    intros Hr Hc H t1 e t2 q a E Hs Ha. rewrite pop_agents in Ha.
    destruct (proj1 (observed_valued ok ok_legal p h cfg fuel u o u' t Hr Hc) H t1 e t2 q E Hs) as [G _].
    exact (G a Ha).
  Qed.
  Lemma ga_best_agent p h cfg fuel u o u' t q : ga_reach ok p h -> ok cfg ->
    ga_find_min cfg fuel p u = (o, u', t) \/ ga_next_iterations cfg fuel p u = (o, u', t) ->
    reported t q -> iteration q > 0 -> pop_get_agents q <> [] ->
    exists a, In a (pop_get_agents q) /\ as_best (pop_view q) = Some (ind_get_parameter a, ind_get_goal a) /\
      forall b, In b (pop_get_agents q) -> le_nan_last (ind_get_goal a) (ind_get_goal b).
  Proof.
    intros Hr Hc H Hq Hi. rewrite pop_agents. intros Hne.
    destruct (reports_settled ok ok_legal p h cfg fuel u o u' t q Hr Hc H Hq Hi Hne) as [[b [Eb [k [Hk [Hb _]]]]] _].
    exists b. split; [eapply nth_error_In; eauto|]. split; [unfold pop_view; rewrite Eb; reflexivity|exact Hb].
  Qed.
End Ga.

Section Pso.
  Context {U T : Type} {FT : FloatTrait T}.
  Lemma pso_agents (ok : pso_config U T -> Prop) s h (cfg : pso_config U T) fuel u o u' t : pso_reach ok s h ->
    pso_find_min cfg fuel s u = (o, u', t) ->
    forall t1 e t2 q a, t = t1 ++ e :: t2 -> shows e = Some q -> In a (swarm_get_agents q) ->
      evaluated t1 (par_get_parameter a) (par_get_goal a).
  Proof.
    intros Hr H t1 e t2 q a E Hs Ha. rewrite swarm_agents in Ha.
    destruct (proj1 (pso_observations ok s h cfg fuel u o u' t Hr) H) as [G _].
    apply (G t1 e t2 q E Hs a). now left.
  Qed.
  Lemma answers_in {S X} (t : list (event (list T) S X)) x v : evaluated t x v -> In (x, v) (answers t).
  Proof.
    induction t as [|e t IH]; [intros []|]. intros [->|Hin]; [left; reflexivity|].
    destruct e; cbn [answers]; try (now apply IH). right. now apply IH.
  Qed.
  Lemma pso_best_agent (ok : pso_config U T -> Prop) s h (cfg : pso_config U T) fuel u o u' t : pso_reach ok s h ->
    pso_find_min cfg fuel s u = (o, u', t) ->
    forall q a, reported t q -> In a (swarm_get_agents q) ->
      exists x v, as_best (swarm_view q) = Some (x, v) /\ le_fin v (par_get_goal a).
  Proof.
    intros Hr H q a Hq Ha. rewrite swarm_agents in Ha.
    destruct (proj1 (pso_observations ok s h cfg fuel u o u' t Hr) H) as [G1 [G2 _]].
    assert (Hs : exists t1 e t2, t = t1 ++ e :: t2 /\ shows e = Some q /\ reported [e] q).
    { destruct Hq as [[b Hb]|[k [i Hb]]]; apply in_split in Hb; destruct Hb as [t1 [t2 ->]];
        eexists t1, _, t2; (split; [reflexivity|]); (split; [reflexivity|]); [left; exists b|right; exists k, i]; now left. }
    destruct Hs as [t1 [e [t2 [E [Hsh Hre]]]]].
    destruct (G1 t1 e t2 q E Hsh a (or_introl Ha)) as [Hv _]. apply answers_in in Hv.
    specialize (G2 t1 e t2 q E Hre). unfold extremes_of in G2.
    destruct (answers t1) as [|z l]; [destruct Hv|]. destruct G2 as [[b [Eb [k [_ [Hb _]]]]] _].
    exists (coordinates b), (value b). unfold swarm_view. rewrite Eb. split; [reflexivity|]. apply (Hb _ Hv).
  Qed.
End Pso.
