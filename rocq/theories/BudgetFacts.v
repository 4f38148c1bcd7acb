(** * How often the goal is called *)

From Coq Require Import List Arith ZArith Bool Lia.
From Verif Require Import Base Logic FloatModel Rng GaModel GaComponents SpecGa SpecPso SpecSel SpecBudget
  GaBest GaFacts GaTheorems GaSafety GaMore GaProofs SelFacts SelProofs PairFacts CreateFacts.
Import ListNotations.

Section Budget.
  Context {U T : Type} (room : nat -> Prop) (n m c : nat) (cfg : ga_config U T).
  Hypothesis eco : ga_economy room n m c cfg.
  Notation ev := (ga_event T).

  Lemma prebirths_length p k (xs : list T) t ys : prebirths p k xs t ys -> Forall (genuine cfg) t -> length ys <= length xs.
  Proof.
    induction 1 as [|k xs ys zs t H IH]; intros G; [auto|].
    inversion G as [|? ? _ G1]; subst. inversion G1 as [|? ? Gc G2]; subst. destruct Gc as [pb [u [u' [Hi E]]]].
    pose proof (eco_pre_births _ _ _ _ _ eco _ _ _ _ _ _ Hi E). specialize (IH G2). lia.
  Qed.
  Lemma children_length (fams chs : list (list T)) : length chs = length fams ->
    Forall (genuine cfg) (map (fun fc => ECall (CCross (fst fc) (snd fc))) (combine fams chs)) ->
    length (concat chs) <= length fams * c.
  Proof.
    revert chs. induction fams as [|f fams IH]; intros [|ch chs] L G; try discriminate; [simpl; lia|].
    simpl in *. inversion G as [|? ? Gc G']; subst. destruct Gc as [u [u' E]]. rewrite app_length.
    pose proof (eco_cross _ _ _ _ _ eco _ _ _ _ E). specialize (IH chs ltac:(lia) G'). lia.
  Qed.
  Lemma generation_budget npre nsel nlog p g p' born vals after :
    generation npre nsel nlog p g p' born vals after -> Forall (genuine cfg) g -> room (length (individuals p)) ->
    length born <= m * c.
  Proof.
    intros [] G Hr. subst g. repeat (apply Forall_app in G; destruct G as [? G]).
    match goal with h : Forall _ [_; _] |- _ => inversion h as [|? ? _ h1]; subst; inversion h1 as [|? ? Gc _]; subst end.
    destruct Gc as [u [u' E]].
    pose proof (eco_pairing _ _ _ _ _ eco _ _ _ _ Hr E) as Hp.
    assert (Lf : length families = length pairs) by (clear - gen_families; induction gen_families; simpl; congruence).
    match goal with h : Forall _ (map _ (combine families children)) |- _ => pose proof (children_length _ _ gen_children h) end.
    pose proof (prebirths_length _ _ _ _ _ gen_pre ltac:(assumption)). rewrite Lf in *. nia.
  Qed.

  Lemma last_selection (sels : list (population T -> comp U (list (individual T)))) f q u q' u' (t : list ev) :
    (forall p u l u', f p u = (Ret l, u') -> room (live l)) ->
    mfold (fun q selection => emit (ESee q) ;;; l <- call_comp (CSelect q) (selection q) ;; mret (set_individuals q l))
      (sels ++ [f]) q u = (Ret q', u', t) -> room (live (individuals q')).
  Proof.
    intros Hf. revert q u t. induction sels as [|s sels IH]; intros q u t H; simpl in H.
    - minv H. callinv. simpl. eauto.
    - minv H. callinv. eapply IH; eauto.
  Qed.
  Lemma iteration_room p u p' u' g : ga_iteration cfg p u = (Ret p', u', g) -> room (length (individuals p')).
  Proof.
    intros H. destruct (eco_room _ _ _ _ _ eco) as [Hr|[earlier [f [Es Hf]]]]; [apply Hr|].
    unfold ga_iteration in H. rewrite Es in H. minv H.
    match goal with h : mfold _ (earlier ++ [f]) _ _ = _ |- _ => apply (last_selection _ _ _ _ _ _ _ Hf) in h; rename h into Hl end.
    match goal with h : update_best_worst (remove_dead ?q) = Ret _ |- _ => rename h into Hu; rename q into last_seen end.
    destruct (update_best_worst_spec (remove_dead last_seen)) as [p3 [E3 [Hi _]]]. rewrite Hu in E3. injection E3 as <-.
    simpl. rewrite Hi. simpl. rewrite live_filter in Hl. exact Hl.
  Qed.
  Lemma iteration_budget p u p' u' g : ga_iteration cfg p u = (Ret p', u', g) -> room (length (individuals p)) ->
    length (evals g) <= m * c /\ room (length (individuals p')) /\ iteration p' = iteration p + 1 /\ consulted g = [].
  Proof.
    intros H Hr. pose proof (genuine_iteration_trace _ _ _ _ _ _ H) as G. pose proof (iteration_room _ _ _ _ _ H) as R.
    apply ga_iteration_ret in H. destruct H as [born [vals [after H]]].
    destruct (generation_reading _ _ _ _ _ _ _ _ _ 0 H) as [_ [_ E]]. rewrite E.
    split; [eapply generation_budget; eauto|]. split; [exact R|]. split; [now destruct H|].
    assert (N : forall q b, ~ In (EStop q b) g) by (intros q b; eapply generation_no_stop; eauto).
    clear - N. induction g as [|e g IH]; [reflexivity|]. destruct e; simpl; try (apply IH; intros q b Hi; apply (N q b); simpl; auto).
    exfalso. eapply N. simpl. eauto.
  Qed.
  Lemma consulted_app (t1 t2 : list ev) : consulted (t1 ++ t2) = consulted t1 ++ consulted t2.
  Proof. induction t1 as [|[] t1 IH]; simpl; congruence. Qed.
  Lemma loop_budget fuel p u p' u' t : ga_loop cfg fuel p u = (Ret p', u', t) -> room (length (individuals p)) ->
    iteration p <= iteration p' /\ length (evals t) <= m * c * (iteration p' - iteration p) /\
    room (length (individuals p')) /\ Forall (fun q => room (length (individuals q))) (consulted t).
  Proof.
    revert p u t. induction fuel as [|fuel IH]; intros p u t H Hr; simpl in H; [discriminate|].
    minv H. callinv. destruct a.
    - minv H. simpl. split; [lia|]. split; [lia|]. auto.
    - minv H. match goal with h : ga_iteration _ _ _ = _ |- _ => destruct (iteration_budget _ _ _ _ _ h Hr) as [B [R [I C]]] end.
      destruct (IH _ _ _ H R) as [I2 [B2 [R2 C2]]]. simpl. rewrite evals_app, app_length, consulted_app, C. simpl.
      split; [lia|]. split; [|split; [exact R2|constructor; [exact Hr|exact C2]]].
      replace (iteration p' - iteration p) with (S (iteration p' - iteration a)) by lia. rewrite Nat.mul_succ_r. lia.
  Qed.
  Lemma logs_consult k ls (p : population T) : evals (@log_events T _ (ga_call T) k ls p) = [] /\ consulted (@log_events T _ (ga_call T) k ls p) = [].
  Proof.
    split; [exact (proj2 (proj2 (@log_events_reading T _ (ga_call T) (fun p : population T => iteration p) 0 k ls p)))|].
    unfold log_events. generalize (seq 0 ls). intros l. induction l; simpl; auto.
  Qed.
  Lemma next_budget fuel p u r p' u' t : ga_next_iterations cfg fuel p u = (Ret (r, p'), u', t) -> room (length (individuals p)) ->
    iteration p <= iteration p' /\ length (evals t) <= m * c * (iteration p' - iteration p) /\
    room (length (individuals p')) /\ Forall (fun q => room (length (individuals q))) (consulted t).
  Proof.
    intros H Hr. unfold ga_next_iterations in H. minv H. callinv.
    match goal with h : ga_loop _ _ _ _ = _ |- _ => destruct (loop_budget _ _ _ _ _ _ h Hr) as [A [B [C D]]] end.
    inversion H; subst. rewrite !evals_app, !consulted_app, !app_length.
    rewrite !(proj1 (logs_consult _ _ _)), !(proj2 (logs_consult _ _ _)). simpl. rewrite ?app_nil_r, ?Nat.add_0_r. auto.
  Qed.
  Lemma evals_find (xs : list T) vs : length vs = length xs -> evals (@eval_events T (population T) (ga_call T) xs vs) = xs /\ consulted (@eval_events T (population T) (ga_call T) xs vs) = [].
  Proof.
    intros L. split; [exact (proj2 (proj2 (@eval_events_reading T _ (ga_call T) (fun p : population T => iteration p) 0 xs vs L)))|].
    unfold eval_events. generalize (combine xs vs). intros l. induction l as [|[x v] l IH]; simpl; auto.
  Qed.
  Theorem find_budget fuel p u r p' u' t : ga_find_min cfg fuel p u = (Ret (r, p'), u', t) ->
    n <= length (evals t) <= n + m * c * iteration p' /\
    room (length (individuals p')) /\ Forall (fun q => room (length (individuals q))) (consulted t).
  Proof.
    intros H. unfold ga_find_min in H. minv H. callinv.
    match goal with h : ga_creator _ _ = _ |- _ => pose proof (eco_creator _ _ _ _ _ eco _ _ _ h) as Ln end.
    match goal with h : pop_append _ _ _ _ = _ |- _ => apply pop_append_ret in h; destruct h as [vs [Hv [-> ->]]] end.
    apply next_budget in H.
    - destruct H as [A [B [C D]]]. simpl in B. rewrite Nat.sub_0_r in B.
      simpl. rewrite !evals_app, !consulted_app, !app_length.
      destruct (evals_find a vs Hv) as [-> ->]. rewrite !(proj1 (logs_consult _ _ _)), !(proj2 (logs_consult _ _ _)). simpl. split; [lia|auto].
    - simpl. replace (length (newborns a vs)) with n; [exact (eco_first _ _ _ _ _ eco)|].
      unfold newborns. rewrite map_length, combine_length. lia.
  Qed.
End Budget.

(** ** The standard components *)
Lemma cross_one {U G} (single : list G -> comp U (list G)) parents u ys u' :
  vec_cross_all_genes single parents u = (Ret ys, u') -> length ys = 1.
Proof.
  unfold vec_cross_all_genes, cbind. intros H.
  repeat (match type of H with
          | (let (_, _) := ?c in _) = _ => destruct c as [[?| |] ?]; try discriminate
          end).
  injection H as <- _. reflexivity.
Qed.
Lemma retain_fewer {A} (f : A -> outcome bool) l l' : oretain f l = Ret l' -> length l' <= length l.
Proof.
  revert l'. induction l as [|a l IH]; intros l' H; simpl in H; [injection H as <-; auto|].
  destruct (f a) as [b| |]; try discriminate. simpl in H. destruct (oretain f l) as [l1| |]; try discriminate.
  simpl in H. specialize (IH l1 eq_refl). destruct b; injection H as <-; simpl; lia.
Qed.
Lemma limit_room {T} max (p : population T) l : limit_population max p = Ret l -> live l <= max + 1.
Proof.
  intros H. destruct (limit_population_spec max p) as [l' [E [_ [A [B _]]]]]. rewrite H in E. injection E as <-.
  destruct (le_lt_dec (live (individuals p)) max) as [Hl|Hl]; [rewrite (A Hl); lia|apply (B Hl)].
Qed.
Lemma tournament_count {T} tr (p : population T) r l r' : tournament_pairs tr p r = (Ret l, r') -> length l = families_count tr.
Proof.
  intros H. destruct (tournament_spec tr p r) as [A B]. destruct (individuals p) as [|i is].
  - rewrite H in A. discriminate (A eq_refl).
  - destruct (B ltac:(discriminate)) as [fams [E [L _]]]. rewrite H in E. injection E as <- _. exact L.
Qed.
Lemma random_pairing_count {T} (p : population T) r l r' : random_pairing p r = (Ret l, r') -> length l = length (individuals p) / 2.
Proof.
  intros H. destruct (random_pairing_spec p r) as [A B]. destruct (individuals p) as [|i is].
  - rewrite H in A. discriminate (A eq_refl).
  - destruct (B ltac:(discriminate)) as [pairs [E [L _]]]. rewrite H in E. injection E as <- _. exact L.
Qed.
Lemma zoomed {U G A} (L : lens U G) (c : comp G A) u a u' : zoom L c u = (Ret a, u') -> exists g', c (lget L u) = (Ret a, g').
Proof. unfold zoom. destruct (c (lget L u)) as [o g'] eqn:E. intros H. injection H as -> _. eauto. Qed.

Section Standard.
  Context {U G : Type} {FT : FloatTrait G} (L : lens U rng) (n : nat) (intervals : list (G * G)) (cfg : ga_config U (list G)).
  Hypothesis Hcreator : forall u xs u', ga_creator cfg u = (Ret xs, u') -> length xs = n.
  Hypothesis Hcross : exists single, ga_cross cfg = vec_cross_all_genes single.
  Hypothesis Hpre : forall f, In f (ga_pre_births cfg) -> f = (fun p xs => cpure (pre_birth_interval intervals p xs)).

  Lemma standard_cross xs u ys u' : ga_cross cfg xs u = (Ret ys, u') -> length ys <= 1.
  Proof. destruct Hcross as [single ->]. intros H. apply cross_one in H. lia. Qed.
  Lemma standard_pre f p xs u ys u' : In f (ga_pre_births cfg) -> f p xs u = (Ret ys, u') -> length ys <= length xs.
  Proof. intros Hf H. rewrite (Hpre f Hf) in H. injection H as H _. exact (retain_fewer _ _ _ H). Qed.

  Theorem tournament_economy tr : ga_pairing cfg = (fun p => zoom L (tournament_pairs tr p)) ->
    ga_economy (fun _ => True) n (families_count tr) 1 cfg.
  Proof.
    intros Ep. constructor; auto.
    - intros p u l u' _ H. rewrite Ep in H. apply zoomed in H. destruct H as [g' H]. apply tournament_count in H. lia.
    - exact standard_cross.
    - exact standard_pre.
  Qed.
  Theorem limited_economy max m earlier (pairing : population (list G) -> comp rng (list (list nat))) :
    ga_pairing cfg = (fun p => zoom L (pairing p)) ->
    (forall p r l r', length (individuals p) <= max + 1 -> pairing p r = (Ret l, r') -> length l <= m) ->
    ga_selections cfg = earlier ++ [fun p => cpure (limit_population max p)] -> n <= max + 1 ->
    ga_economy (fun k => k <= max + 1) n m 1 cfg.
  Proof.
    intros Ep Hm Es Hn. constructor; auto.
    - intros p u l u' Hr H. rewrite Ep in H. apply zoomed in H. destruct H as [g' H]. exact (Hm _ _ _ _ Hr H).
    - exact standard_cross.
    - exact standard_pre.
    - right. eexists _, _. split; [exact Es|]. intros p u l u' H. injection H as H _. exact (limit_room _ _ _ H).
  Qed.
  Lemma random_pairing_few max (p : population (list G)) r l r' : length (individuals p) <= max + 1 ->
    random_pairing p r = (Ret l, r') -> length l <= (max + 1) / 2.
  Proof. intros Hp H. apply random_pairing_count in H. rewrite H. apply Nat.div_le_mono; lia. Qed.
  Theorem random_pairing_economy max earlier : ga_pairing cfg = (fun p => zoom L (random_pairing p)) ->
    ga_selections cfg = earlier ++ [fun p => cpure (limit_population max p)] -> n <= max + 1 ->
    ga_economy (fun k => k <= max + 1) n ((max + 1) / 2) 1 cfg.
  Proof. intros Ep Es Hn. eapply limited_economy; eauto. intros p r l r'. apply random_pairing_few. Qed.
End Standard.
