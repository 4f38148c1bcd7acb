(** * The programs that collect statistics: threads and reports *)

From Coq Require Import List Arith ZArith Bool Reals Lia Lra Permutation.
From Flocq Require Import Core.Core IEEE754.BinarySingleNaN IEEE754.Binary.
From Verif Require Import Base FloatModel FloatFacts Rng StatModel ExampleModel StatProgramModel
  SpecStat SpecExample SpecStatProgram ArithFacts StatFacts.
Import ListNotations.
Local Open Scope nat_scope.

(** What is collected about some runs. *)
Definition data_of (runs : list stat_run) : run_data :=
  (Statistics (map (fun r => Some (sr_point r)) runs) (map (fun r => map Some (sr_row r)) runs),
   map sr_calls runs).
Lemma unite_data a b : unite_both (data_of a) (data_of b) = data_of (a ++ b).
Proof. unfold unite_both, data_of, unite, ccd_unite. simpl. now rewrite !map_app. Qed.

(** ** The report *)
Section Report.
  Variables (np32 : nan_policy 24 128) (np64 : nan_policy 53 1024).

  Lemma omap_results (l pre : list (option (list f32 * f64))) :
    omap (fun n => let! r := index (pre ++ l) n in Ret (n, r)) (seq (length pre) (length l)) = Ret (combine (seq (length pre) (length l)) l).
  Proof.
    revert pre. induction l as [|a l IH]; intros pre; [reflexivity|]. cbn [length seq omap combine].
    assert (E : index (pre ++ a :: l) (length pre) = Ret a).
    { unfold index. now rewrite nth_error_app2, Nat.sub_diag by lia. }
    rewrite E. cbn [obind]. specialize (IH (pre ++ [a])). rewrite <- app_assoc in IH. simpl in IH.
    rewrite app_length in IH. simpl in IH. rewrite Nat.add_1_r in IH. rewrite IH. reflexivity.
  Qed.
  Lemma present_some {A} (l : list A) : present (map Some l) = l.
  Proof. induction l as [|a l IH]; simpl; [reflexivity|now rewrite IH]. Qed.
  Lemma present_runs {A B} (g : A -> B) (l : list A) : present (map (fun a => Some (g a)) l) = map g l.
  Proof. rewrite <- (map_map g Some). apply present_some. Qed.
  Lemma goals_runs (l : list stat_run) : goals (map (fun r => Some (sr_point r)) l) = map (fun r => snd (sr_point r)) l.
  Proof. unfold goals. rewrite present_runs, map_map. reflexivity. Qed.

  Lemma shortest_map {A B} (f : A -> B) (l : list (list A)) n : shortest (map (map f) l) n -> shortest l n.
  Proof.
    intros [[E ->]|[[row [Hi <-]] H]].
    - left. split; [destruct l; [reflexivity|discriminate]|reflexivity].
    - right. apply in_map_iff in Hi. destruct Hi as [row' [<- Hi]]. rewrite map_length. split; [eauto|].
      intros row Hr. rewrite <- (map_length f row'), <- (map_length f row). apply H. now apply in_map.
  Qed.
  Lemma column_runs (l : list stat_run) i : (forall r, In r l -> i < length (sr_row r)) ->
    column (map (fun r => map Some (sr_row r)) l) i = map (fun r => snd (nth i (sr_row r) (sr_point r))) l.
  Proof.
    intros H. unfold column. induction l as [|r l IH]; simpl; [reflexivity|].
    rewrite IH by (intros; apply H; simpl; auto).
    rewrite (nth_error_nth' (map Some (sr_row r)) (Some (sr_point r))) by (rewrite map_length; apply H; simpl; auto).
    rewrite (map_nth Some). destruct (nth i (sr_row r) (sr_point r)). reflexivity.
  Qed.
  Lemma average_lines (l pre : list (option f64)) (vs : list f64) acc : l = map Some vs ->
    ofold (fun lines n => let! cell := index (pre ++ l) n in
             Ret (match cell with Some g => lines ++ [(n, g)] | None => lines end))
          (seq (length pre) (length l)) acc = Ret (acc ++ combine (seq (length pre) (length l)) vs).
  Proof.
    intros ->. revert pre acc. induction vs as [|a l IH]; intros pre acc; [simpl; now rewrite app_nil_r|].
    cbn [map length seq ofold combine].
    assert (E : index (pre ++ Some a :: map Some l) (length pre) = Ret (Some a)).
    { unfold index. now rewrite nth_error_app2, Nat.sub_diag by lia. }
    rewrite E. cbn [obind]. specialize (IH (pre ++ [Some a]) (acc ++ [(length pre, a)])). rewrite <- app_assoc in IH. simpl in IH.
    rewrite app_length in IH. simpl in IH. rewrite Nat.add_1_r in IH. rewrite IH. rewrite <- app_assoc. reflexivity.
  Qed.
  Lemma combine_map {A B} (f : nat -> B) (l : list A) n : combine (seq n (length l)) (map f (seq n (length l))) = map (fun i => (i, f i)) (seq n (length l)).
  Proof. revert n. induction l as [|a l IH]; intros n; simpl; [reflexivity|]. now rewrite IH. Qed.

  (** ** The success predicate *)
  Lemma near_predicate (answer delta : f32) (d : nat) (r : stat_run) : is_finite answer = true -> is_nan delta = false ->
    length (fst (sr_point r)) = d -> Forall (fun x => is_finite x = true) (fst (sr_point r)) ->
    @predicate_success_vec f32 (FloatIEEE np32) (repeat answer d, repeat delta d) (sr_point r) = near np32 answer delta r.
  Proof.
    intros Fa Fd Hl Hx. unfold predicate_success_vec, near. cbn [fst snd]. revert d Hl Hx. generalize (fst (sr_point r)).
    intros l. induction l as [|x xs IH]; intros d Hl Hx; [reflexivity|]. apply Forall_cons_iff in Hx. destruct Hx as [Fx Fxs].
    destruct d as [|d]; [discriminate|]. injection Hl as Hl. cbn [repeat combine forallb].
    rewrite (IH d Hl Fxs). f_equal. simpl flt. simpl fabs. simpl fsub.
    assert (N : is_nan (b_sub np32 x answer) = false) by (apply sub_not_nan; [assumption|now apply finite_not_nan]).
    assert (Na : is_nan (b_abs (b_sub np32 x answer)) = false) by (rewrite (proj1 (abs_key _)); exact N).
    destruct (leb (b_abs (b_sub np32 x answer)) delta) eqn:El.
    - apply leb_key in El. destruct El as [_ [_ El]]. apply negb_true_iff.
      apply (ltb_false delta (b_abs (b_sub np32 x answer)) Fd Na). exact El.
    - apply (leb_false _ _ Na Fd) in El. apply negb_false_iff. apply ltb_key. auto.
  Qed.
  Lemma filter_runs (p : list f32 * f64 -> bool) q (l : list stat_run) : (forall r, In r l -> p (sr_point r) = q r) ->
    length (filter p (map sr_point l)) = length (filter q l).
  Proof.
    intros H. induction l as [|r l IH]; simpl; [reflexivity|]. rewrite (H r) by (simpl; auto).
    assert (E : length (filter p (map sr_point l)) = length (filter q l)) by (apply IH; intros; apply H; simpl; auto).
    destruct (q r); simpl; now rewrite E.
  Qed.

  Theorem print_report_runs (answer delta : f32) (runs : list stat_run) :
    is_finite answer = true -> is_nan delta = false -> 2 <= length runs -> (Z.of_nat (length runs) <= 2 ^ 53)%Z ->
    Forall (fun r => length (fst (sr_point r)) = 3 /\ Forall (fun x => is_finite x = true) (fst (sr_point r))) runs ->
    exists rp, print_report np32 np64 answer delta 3 (data_of runs) = Ret rp /\ reports np32 np64 answer delta runs rp.
  Proof.
    intros Fa Fd H2 Hn Hr. unfold print_report, data_of.
    set (res := map (fun r => Some (sr_point r)) runs). set (rows := map (fun r => map Some (sr_row r)) runs).
    assert (Lr : length res = length runs) by apply map_length.
    assert (E1 : print_solution (Statistics res rows) = Ret (combine (seq 0 (length runs)) res)).
    { unfold print_solution, get_run_count. cbn [results]. rewrite <- Lr. exact (omap_results res []). }
    rewrite E1. cbn [obind]. clear E1.
    destruct (average_convergence np64 rows) as [l [El [Sl Hl]]].
    assert (Rm : forall i r, i < length l -> In r runs -> i < length (sr_row r)).
    { intros i r Hi Hin. destruct Sl as [[_ E]|[_ S]]; [lia|]. specialize (S (map Some (sr_row r))).
      rewrite map_length in S. pose proof (S (in_map (fun r => map Some (sr_row r)) runs r Hin)). lia. }
    set (avg := fun i => mean64 np64 (map (fun r => snd (nth i (sr_row r) (sr_point r))) runs)).
    assert (Ea : l = map Some (map avg (seq 0 (length l)))).
    { apply (nth_ext _ _ None None); [now rewrite !map_length, seq_length|]. intros i Hi.
      pose proof (proj2 (Hl i Hi)) as C. unfold rows in C.
      rewrite (column_runs runs i (fun r => Rm i r Hi)) in C.
      rewrite map_map. rewrite (nth_indep (map _ (seq 0 (length l))) None (Some (avg i))) by (now rewrite map_length, seq_length).
      rewrite (map_nth (fun k => Some (avg k)) (seq 0 (length l)) i). rewrite seq_nth by exact Hi.
      apply (nth_error_nth l i None). rewrite C; [reflexivity|]. destruct runs; [simpl in H2; lia|discriminate]. }
    assert (E2 : print_convergence_statistics np64 (Statistics res rows) = Ret (map (fun i => (i, avg i)) (seq 0 (length l)))).
    { unfold print_convergence_statistics. cbn [convergence]. rewrite El. cbn [obind].
      pose proof (average_lines l [] _ [] Ea) as A. simpl in A. rewrite A. now rewrite (combine_map avg l 0). }
    rewrite E2. cbn [obind]. clear E2.
    assert (E3 : @predicate_success_vec_new f32 (repeat answer 3) (repeat delta 3) = Ret (repeat answer 3, repeat delta 3)) by reflexivity.
    rewrite E3. cbn [obind]. clear E3.
    set (pr := @predicate_success_vec f32 (FloatIEEE np32) (repeat answer 3, repeat delta 3)). cbn [results].
    assert (Np : res <> []) by (unfold res; destruct runs; [simpl in H2; lia|discriminate]).
    assert (Np' : Forall (fun r => pr (sr_point r) = near np32 answer delta r) runs).
    { eapply Forall_impl; [|exact Hr]. intros r [A B]. now apply near_predicate. }
    destruct (rate_value np64 pr res Np ltac:(rewrite Lr; exact Hn)) as [rate [Er [Fr [_ [Br _]]]]].
    assert (Erate : rate = b_div np64 (float_count (length (filter (near np32 answer delta) runs))) (float_count (length runs))).
    { clear - Er Np' Lr Np. unfold get_success_rate in Er. destruct (length res) as [|n] eqn:En; [destruct res; [congruence|discriminate]|].
      rewrite <- Lr. injection Er as <-. rewrite somes_present. unfold res. rewrite present_runs.
      rewrite (filter_runs pr (near np32 answer delta)); [reflexivity|]. now apply Forall_forall. }
    rewrite Er. cbn [unwrap obind].
    assert (Eav : get_average_goal np64 res = Some (mean64 np64 (map (fun r => snd (sr_point r)) runs))).
    { destruct (get_average_goal np64 res) as [a|] eqn:E.
      - apply average_value in E. rewrite E. unfold res. now rewrite goals_runs.
      - exfalso. pose proof (proj1 (average_none np64 res) E) as A. unfold res in A. destruct runs as [|r runs']; [simpl in H2; lia|].
        discriminate (A (Some (sr_point r)) (or_introl eq_refl)). }
    rewrite Eav. cbn [unwrap obind]. clear Eav.
    assert (Edv : get_standard_deviation_goal np64 res = Some (deviation64 np64 (map (fun r => snd (sr_point r)) runs))).
    { destruct (get_standard_deviation_goal np64 res) as [a|] eqn:E.
      - apply deviation_value in E. rewrite E. unfold res. now rewrite goals_runs.
      - exfalso. pose proof (proj1 (deviation_none np64 res) E) as A. unfold res in A. rewrite present_runs, map_length in A. lia. }
    rewrite Edv. cbn [unwrap obind]. clear Edv.
    assert (Eca : get_average_call_count np64 (map sr_calls runs) =
      Some (b_div np64 (float_count (list_sum (map sr_calls runs))) (float_count (length runs)))).
    { unfold get_average_call_count. rewrite fold_sum, map_length. destruct (Nat.eqb_spec (length runs) 0); [lia|reflexivity]. }
    rewrite Eca. cbn [unwrap obind]. clear Eca.
    eexists. split; [reflexivity|].
    unfold reports. cbn [rp_run_count rp_solutions rp_convergence rp_success_rate rp_average_goal rp_standard_deviation rp_average_calls get_run_count results].
    split; [exact Lr|]. split; [reflexivity|].
    split; [exists (length l); split; [|reflexivity]; apply (shortest_map Some); rewrite map_map; exact Sl|].
    split; [exact Erate|].
    assert (Z0 : is_finite (b_of_Z 0 : f64) = true /\ Binary.B2R 53 1024 (b_of_Z 0) = 0%R) by (apply (of_Z_exact (prec := 53) (emax := 1024) 0); lia).
    assert (Z1 : is_finite (b_of_Z 1 : f64) = true /\ Binary.B2R 53 1024 (b_of_Z 1) = 1%R) by (apply (of_Z_exact (prec := 53) (emax := 1024) 1); lia).
    destruct Z0 as [Z0 V0], Z1 as [Z1 V1].
    split; [|split; [|auto]]; apply leb_key; (split; [now apply finite_not_nan|]); (split; [now apply finite_not_nan|]);
      rewrite !key_finite by assumption; rewrite ?V0, ?V1; apply Br.
  Qed.
  Lemma print_report_ends answer delta d : print_report np32 np64 answer delta 3 d <> NoFuel.
  Proof.
    destruct d as [st cc]. unfold print_report.
    assert (U : forall {A B} (x : option A) (k : A -> outcome B), (forall a, k a <> NoFuel) -> (let! a := unwrap x in k a) <> NoFuel).
    { intros A B [a|] k Hk; cbn [unwrap obind]; [apply Hk|discriminate]. }
    assert (E1 : print_solution st = Ret (combine (seq 0 (length (results st))) (results st))) by exact (omap_results (results st) []).
    rewrite E1. cbn [obind]. unfold print_convergence_statistics.
    destruct (average_convergence np64 (convergence st)) as [l [El _]]. rewrite El. cbn [obind].
    set (o := ofold _ _ _). assert (Eo : o <> NoFuel).
    { subst o. match goal with |- ofold ?g _ _ <> _ => enough (G : forall ns acc, ofold g ns acc <> NoFuel) by apply G end.
      intros ns. induction ns as [|k ns IH]; intros acc; cbn [ofold]; [discriminate|].
      unfold index. destruct (nth_error l k); cbn [obind]; [apply IH|discriminate]. }
    destruct o as [lines| |]; try congruence; cbn [obind]; [|discriminate].
    unfold predicate_success_vec_new. cbn [repeat length Nat.eqb oassert obind].
    repeat (apply U; intros ?). discriminate.
  Qed.
End Report.

(** ** Threads *)
Section Threads.
  Variables (np32 : nan_policy 24 128) (np64 : nan_policy 53 1024).
  Variables (single : comp rng run_data) (good : stat_run -> Prop).
  Hypothesis Hgood : forall r d r', single r = (Ret d, r') -> exists run, good run /\ d = data_of [run].

  Notation new := ((statistics_new, ccd_new) : run_data).
  Lemma thread_from m n r runs d r' : Forall good runs ->
    cfold (fun local _ => do d <- single ;; cret (unite_both local d)) (seq m n) (data_of runs) r = (Ret d, r') ->
    exists more, d = data_of (runs ++ more) /\ length more = n /\ Forall good more.
  Proof.
    revert m r runs. induction n as [|n IH]; intros m r runs Hr E; cbn [seq cfold] in E.
    - injection E as <- _. exists []. rewrite app_nil_r. auto.
    - unfold cbind at 1 in E. unfold cbind at 1 in E. destruct (single r) as [[d1| |] r1] eqn:E1; try discriminate.
      destruct (Hgood _ _ _ E1) as [run [G ->]]. unfold cret in E at 1. rewrite unite_data in E.
      assert (G2 : Forall good (runs ++ [run])) by (apply Forall_app; auto).
      destruct (IH (S m) r1 _ G2 E) as [more [-> [<- K]]].
      exists (run :: more). rewrite <- app_assoc. split; [reflexivity|]. split; [reflexivity|]. constructor; auto.
  Qed.
  Lemma thread_good n r d r' : thread single n r = (Ret d, r') -> exists runs, d = data_of runs /\ length runs = n /\ Forall good runs.
  Proof. intros E. destruct (thread_from 0 n r [] d r' (Forall_nil _) E) as [runs H]. exists runs. exact H. Qed.
  Lemma thread_returns n : (forall r, exists d r', single r = (Ret d, r')) -> forall r, exists d r', thread single n r = (Ret d, r').
  Proof.
    intros H. unfold thread. generalize new 0. induction n as [|n IH]; intros x m r; cbn [seq cfold].
    - eexists _, _. reflexivity.
    - destruct (H r) as [d [r1 E]]. destruct (IH (unite_both x d) (S m) r1) as [d2 [r2 E2]]. exists d2, r2.
      unfold cbind at 1. unfold cbind at 1. rewrite E. exact E2.
  Qed.

  (** What the threads send. *)
  Definition sent n streams := map (fun r => fst (thread single n r)) streams.
  (** The runs of a thread that ends. *)
  Definition sends n (o : outcome run_data) (runs : list stat_run) : Prop :=
    match o with Ret d => d = data_of runs /\ length runs = n /\ Forall good runs | _ => True end.
  Lemma sent_runs n streams : exists per, Forall2 (sends n) (sent n streams) per.
  Proof.
    induction streams as [|r l [per IH]]; simpl; [exists []; constructor|].
    destruct (thread single n r) as [[d| |] r'] eqn:E; simpl.
    - destruct (thread_good _ _ _ _ E) as [runs H]. exists (runs :: per). now constructor.
    - exists ([] :: per). now constructor.
    - exists ([] :: per). now constructor.
  Qed.

  Notation gather per arrivals := (concat (map (fun i => nth i per []) arrivals)).
  Lemma collect_from n msgs per arrivals runs d : Forall2 (sends n) msgs per ->
    ofold (fun full i => let! d := match nth_error msgs i with Some (Ret d) => Ret d | _ => NoFuel end in
                         Ret (unite_both full d)) arrivals (data_of runs) = Ret d ->
    d = data_of (runs ++ gather per arrivals) /\
    Forall (fun i => i < length msgs /\ length (nth i per []) = n /\ Forall good (nth i per [])) arrivals.
  Proof.
    intros H. revert runs. induction arrivals as [|i l IH]; intros runs E; cbn [ofold] in E.
    - injection E as <-. simpl. rewrite app_nil_r. auto.
    - destruct (nth_error msgs i) as [o|] eqn:Ei; [|discriminate].
      assert (Hs : sends n o (nth i per []) /\ i < length msgs).
      { split; [|apply nth_error_Some; congruence]. clear - H Ei. revert i Ei. induction H as [|o' p' ms ps H HF IH]; intros [|i] Ei; try discriminate.
        - simpl in Ei. injection Ei as ->. exact H.
        - simpl. now apply IH. }
      destruct o as [d1| |]; cbn [obind] in E; try discriminate. destruct Hs as [[-> [Hn Hg]] Hi].
      rewrite unite_data in E. destruct (IH _ E) as [-> K]. simpl. rewrite <- app_assoc. split; [reflexivity|]. constructor; auto.
  Qed.
  Lemma gather_length n per arrivals : Forall (fun i => length (nth i per (@nil stat_run)) = n) arrivals -> length (gather per arrivals) = n * length arrivals.
  Proof. induction 1 as [|i l E H IH]; simpl; [lia|]. rewrite app_length, E, IH. lia. Qed.
  Lemma gather_good per arrivals : Forall (fun i => Forall good (nth i per [])) arrivals -> Forall good (gather per arrivals).
  Proof. induction 1 as [|i l E H IH]; simpl; [constructor|]. apply Forall_app. auto. Qed.

  Lemma collect_never_panics msgs arrivals s : ofold (fun full i => let! d := match nth_error msgs i with Some (Ret d) => Ret d | _ => NoFuel end in
                         Ret (unite_both full d)) arrivals s <> Panic.
  Proof.
    revert s. induction arrivals as [|i l IH]; intros s; cbn [ofold]; [discriminate|].
    destruct (nth_error msgs i) as [[d| |]|]; cbn [obind]; try discriminate. apply IH.
  Qed.
  Lemma collect_returns msgs arrivals s : (forall i, In i arrivals -> exists d, nth_error msgs i = Some (Ret d)) ->
    exists d, ofold (fun full i => let! d := match nth_error msgs i with Some (Ret d) => Ret d | _ => NoFuel end in
                         Ret (unite_both full d)) arrivals s = Ret d.
  Proof.
    revert s. induction arrivals as [|i l IH]; intros s H; cbn [ofold]; [eauto|].
    destruct (H i (or_introl eq_refl)) as [d E]. rewrite E. cbn [obind]. apply IH. intros j Hj. apply H. simpl. auto.
  Qed.

  (** ** The programs *)
  Variables (total : nat) (answer delta : f32).
  Hypothesis Hanswer : is_finite answer = true.
  Hypothesis Hdelta : is_nan delta = false.
  Hypothesis Htotal : 2 <= total.
  Hypothesis Hmany : (Z.of_nat total <= 2 ^ 53)%Z.
  Hypothesis Hpoint : forall run, good run -> length (fst (sr_point run)) = 3 /\ Forall (fun x => is_finite x = true) (fst (sr_point run)).
  Notation main := (stat_main np32 np64 single total answer delta).

  Lemma total_runs cpu : 0 < cpu <= total -> 2 <= (total / cpu) * cpu <= total.
  Proof.
    intros H. pose proof (Nat.mul_div_le total cpu ltac:(lia)). split; [|lia].
    assert (1 <= total / cpu) by (apply Nat.div_le_lower_bound; lia).
    destruct (Nat.eq_dec cpu 1) as [->|]; [rewrite Nat.div_1_r; lia|nia].
  Qed.

  (** The runs [per] of the threads, however they are collected. *)
  Definition accounts (streams : list rng) (per : list (list stat_run)) : Prop :=
    forall arrivals, Permutation arrivals (seq 0 (length streams)) ->
      main streams arrivals = NoFuel \/
      exists rp, main streams arrivals = Ret rp /\ reports np32 np64 answer delta (gather per arrivals) rp /\
        Forall (fun runs => length runs = total / length streams /\ Forall good runs) per.

  Theorem main_accounts streams : 0 < length streams <= total -> exists per, length per = length streams /\ accounts streams per.
  Proof.
    intros Hc. set (n := total / length streams). destruct (sent_runs n streams) as [per Hper].
    assert (Lp : length per = length streams).
    { transitivity (length (sent n streams)); [|apply map_length]. symmetry. clear - Hper. induction Hper; simpl; congruence. }
    exists per. split; [exact Lp|]. intros arrivals Ha.
    unfold stat_main. replace (length streams =? 0) with false by (symmetry; apply Nat.eqb_neq; lia). cbn [obind].
    fold n. fold (sent n streams). unfold collect.
    set (o := ofold _ arrivals _). assert (Eo : o <> Panic) by apply collect_never_panics.
    destruct o as [d| |] eqn:E; [|congruence|left; reflexivity]. right. cbn [obind]. subst o.
    destruct (collect_from n (sent n streams) per arrivals [] d Hper E) as [-> K]. rewrite Forall_forall in K.
    assert (La : length arrivals = length streams) by (rewrite (Permutation_length Ha); apply seq_length).
    assert (Lg : length (gather per arrivals) = n * length streams).
    { rewrite <- La. apply gather_length. apply Forall_forall. intros i Hi. now apply K. }
    assert (Gg : Forall good (gather per arrivals)) by (apply gather_good; apply Forall_forall; intros i Hi; now apply K).
    pose proof (total_runs _ Hc) as Ht. fold n in Ht.
    destruct (print_report_runs np32 np64 answer delta (gather per arrivals)) as [rp [Ep Hp]]; try assumption.
    - lia.
    - lia.
    - eapply Forall_impl; [|exact Gg]. exact Hpoint.
    - exists rp. split; [exact Ep|]. split; [exact Hp|]. apply Forall_forall. intros runs Hi.
      apply (In_nth _ _ []) in Hi. destruct Hi as [i [Hi <-]].
      assert (In i arrivals) by (apply (Permutation_in i (Permutation_sym Ha)); apply in_seq; lia).
      split; now apply K.
  Qed.
  Theorem main_never_panics streams arrivals : 0 < length streams <= total -> Permutation arrivals (seq 0 (length streams)) ->
    main streams arrivals <> Panic.
  Proof.
    intros Hc Ha. destruct (main_accounts streams Hc) as [per [_ H]]. destruct (H arrivals Ha) as [->|[rp [-> _]]]; discriminate.
  Qed.
  Theorem main_ends streams arrivals : (forall r, exists d r', single r = (Ret d, r')) -> length streams <> 0 ->
    Permutation arrivals (seq 0 (length streams)) -> main streams arrivals <> NoFuel.
  Proof.
    intros Hs Hc Ha. unfold stat_main. replace (length streams =? 0) with false by (symmetry; apply Nat.eqb_neq; lia). cbn [obind].
    unfold collect. edestruct (collect_returns (map (fun r => fst (thread single (total / length streams) r)) streams) arrivals) as [d E].
    - intros i Hi. apply (Permutation_in i Ha) in Hi. apply in_seq in Hi.
      destruct (nth_error streams i) as [r|] eqn:Er; [|apply nth_error_None in Er; lia].
      destruct (thread_returns (total / length streams) Hs r) as [d [r' Ed]]. exists d.
      rewrite (map_nth_error _ _ _ Er). now rewrite Ed.
    - rewrite E. cbn [obind]. apply print_report_ends.
  Qed.
  Theorem main_returns streams : (forall r, exists d r', single r = (Ret d, r')) -> 0 < length streams <= total ->
    exists per, length per = length streams /\ Forall (fun runs => length runs = total / length streams /\ Forall good runs) per /\
      forall arrivals, Permutation arrivals (seq 0 (length streams)) ->
        exists rp, main streams arrivals = Ret rp /\ reports np32 np64 answer delta (gather per arrivals) rp.
  Proof.
    intros Hs Hc. destruct (main_accounts streams Hc) as [per [Lp H]]. exists per. split; [exact Lp|].
    assert (K : forall arrivals, Permutation arrivals (seq 0 (length streams)) ->
      exists rp, main streams arrivals = Ret rp /\ reports np32 np64 answer delta (gather per arrivals) rp /\
        Forall (fun runs => length runs = total / length streams /\ Forall good runs) per).
    { intros arrivals Ha. destruct (H arrivals Ha) as [E|E]; [|exact E]. exfalso. revert E. apply main_ends; auto. lia. }
    split.
    - destruct (K _ (Permutation_refl _)) as [rp [_ [_ F]]]. exact F.
    - intros arrivals Ha. destruct (K arrivals Ha) as [rp [A [B _]]]. eauto.
  Qed.
  (** More threads than runs. *)
  Lemma thread_none r : thread single 0 r = (Ret new, r).
  Proof. reflexivity. Qed.
  Theorem main_too_many streams arrivals : total < length streams -> Forall (fun i => i < length streams) arrivals ->
    main streams arrivals = Panic.
  Proof.
    intros Hc Ha. unfold stat_main. replace (length streams =? 0) with false by (symmetry; apply Nat.eqb_neq; lia). cbn [obind].
    rewrite Nat.div_small by lia. unfold collect.
    assert (E : ofold (fun full i => let! d := match nth_error (map (fun r => fst (thread single 0 r)) streams) i with Some (Ret d) => Ret d | _ => NoFuel end in
                         Ret (unite_both full d)) arrivals new = Ret new).
    { induction Ha as [|i l Hi H IH]; cbn [ofold]; [reflexivity|].
      destruct (nth_error streams i) as [r|] eqn:Er; [|apply nth_error_None in Er; lia].
      rewrite (map_nth_error _ _ _ Er). exact IH. }
    rewrite E. reflexivity.
  Qed.
End Threads.

(** ** The order of arrival *)
Lemma filter_permuted {A} (f : A -> bool) l1 l2 : Permutation l1 l2 -> length (filter f l1) = length (filter f l2).
Proof.
  induction 1 as [|x l1 l2 H IH|x y l|l1 l2 l3 H1 IH1 H2 IH2]; simpl; auto; try congruence.
  - destruct (f x); simpl; congruence.
  - destruct (f x), (f y); reflexivity.
Qed.
Lemma sum_permuted l1 l2 : Permutation l1 l2 -> list_sum l1 = list_sum l2.
Proof. induction 1; simpl; lia. Qed.
Lemma shortest_unique {A} (c : list (list A)) m n : shortest c m -> shortest c n -> m = n.
Proof.
  intros [[E ->]|[[r1 [I1 L1]] H1]] [[E' ->]|[[r2 [I2 L2]] H2]]; subst; try reflexivity; try contradiction.
  pose proof (H1 r2 I2). pose proof (H2 r1 I1). lia.
Qed.
Lemma shortest_permuted {A} (c1 c2 : list (list A)) n : Permutation c1 c2 -> shortest c1 n -> shortest c2 n.
Proof.
  intros P [[-> ->]|[[r [I L]] H]].
  - left. split; [|reflexivity]. now apply Permutation_nil.
  - right. split; [exists r; split; [now apply (Permutation_in r P)|exact L]|].
    intros row Hr. apply H. now apply (Permutation_in row (Permutation_sym P)).
Qed.
Lemma reports_permuted np32 np64 answer delta runs1 runs2 rp1 rp2 : Permutation runs1 runs2 ->
  reports np32 np64 answer delta runs1 rp1 -> reports np32 np64 answer delta runs2 rp2 ->
  rp_run_count rp1 = rp_run_count rp2 /\ rp_success_rate rp1 = rp_success_rate rp2 /\
  rp_average_calls rp1 = rp_average_calls rp2 /\ map fst (rp_convergence rp1) = map fst (rp_convergence rp2) /\
  Permutation (map snd (rp_solutions rp1)) (map snd (rp_solutions rp2)).
Proof.
  intros P (A1 & B1 & (m1 & S1 & C1) & D1 & _ & _ & _ & _ & G1) (A2 & B2 & (m2 & S2 & C2) & D2 & _ & _ & _ & _ & G2).
  pose proof (Permutation_length P) as L. split; [congruence|]. split; [|split; [|split]].
  - rewrite D1, D2, L. f_equal. f_equal. now apply filter_permuted.
  - rewrite G1, G2, L. f_equal. f_equal. apply sum_permuted. now apply Permutation_map.
  - rewrite C1, C2, !map_map. simpl. rewrite !map_id. f_equal.
    eapply shortest_unique; [|exact S2]. eapply shortest_permuted; [|exact S1]. now apply Permutation_map.
  - assert (K : forall (l : list stat_run), map snd (combine (seq 0 (length l)) (map (fun r => Some (sr_point r)) l)) = map (fun r => Some (sr_point r)) l).
    { intros l. generalize 0. induction l as [|r l IH]; intros k; simpl; [reflexivity|]. now rewrite IH. }
    rewrite B1, B2, !K. now apply Permutation_map.
Qed.
Lemma gather_permuted {A} (per : list (list A)) a1 a2 : Permutation a1 a2 ->
  Permutation (concat (map (fun i => nth i per []) a1)) (concat (map (fun i => nth i per []) a2)).
Proof.
  induction 1 as [|x l1 l2 H IH|x y l|l1 l2 l3 H1 IH1 H2 IH2]; simpl; auto.
  - now apply Permutation_app_head.
  - rewrite !app_assoc. apply Permutation_app_tail. apply Permutation_app_comm.
  - now transitivity (concat (map (fun i => nth i per []) l2)).
Qed.
Lemma any_order np32 np64 answer delta total good main streams a1 a2 rp1 rp2 :
  reports_all np32 np64 answer delta total good main -> 0 < length streams <= total ->
  Permutation a1 (seq 0 (length streams)) -> Permutation a2 (seq 0 (length streams)) ->
  main streams a1 = Ret rp1 -> main streams a2 = Ret rp2 -> same_summary rp1 rp2.
Proof.
  intros H Hs P1 P2 E1 E2. destruct (H streams Hs) as [per [_ [_ R]]].
  destruct (R a1 P1) as [r1 [F1 R1]], (R a2 P2) as [r2 [F2 R2]]. rewrite F1 in E1. rewrite F2 in E2.
  injection E1 as ->. injection E2 as ->.
  assert (P : Permutation (concat (map (fun i => nth i per []) a1)) (concat (map (fun i => nth i per []) a2))).
  { apply gather_permuted. now rewrite P1, P2. }
  destruct (reports_permuted _ _ _ _ _ _ _ _ P R1 R2) as (A & B & C & D & G). repeat split; auto.
  destruct R1 as (_ & -> & _), R2 as (_ & -> & _). rewrite (Permutation_length P).
  assert (K : forall {A} (l : list A), map fst (combine (seq 0 (length l)) l) = seq 0 (length l)).
  { intros X l. generalize 0. induction l as [|x l IH]; intros k; simpl; [reflexivity|]. now rewrite IH. }
  pose proof (Permutation_length P) as L.
  pose proof (K _ (map (fun r => Some (sr_point r)) (concat (map (fun i => nth i per []) a1)))) as K1.
  pose proof (K _ (map (fun r => Some (sr_point r)) (concat (map (fun i => nth i per []) a2)))) as K2.
  rewrite map_length in K1, K2. rewrite L in K1. congruence.
Qed.
