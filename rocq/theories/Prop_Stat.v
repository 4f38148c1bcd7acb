(** * Properties C56-C63: statistics of results *)

From Coq Require Import List Arith ZArith Bool Lia Reals Lra.
From Flocq Require Import Core IEEE754.BinarySingleNaN IEEE754.Binary.
From Verif Require Import Base FloatModel GaModel StatModel SpecStat SpecReal StatFacts ArithFacts DemoFloats.
Import ListNotations.

(** ** C56: unite appends *)
Theorem C56_unite_statistics :
  forall (T : Type) (a b : statistics T),
    get_run_count (unite a b) = get_run_count a + get_run_count b /\
    length (convergence (unite a b)) = length (convergence a) + length (convergence b) /\
    (forall i, i < get_run_count a -> nth_error (results (unite a b)) i = nth_error (results a) i) /\
    (forall i, nth_error (results (unite a b)) (get_run_count a + i) = nth_error (results b) i) /\
    (forall i, i < length (convergence a) ->
       nth_error (convergence (unite a b)) i = nth_error (convergence a) i) /\
    (forall i, nth_error (convergence (unite a b)) (length (convergence a) + i) = nth_error (convergence b) i).
Proof. exact @unite_runs. Qed.
Print Assumptions C56_unite_statistics.
Theorem C56_unite_statistics_laws :
  forall (T : Type) (a b c : statistics T),
    unite a (unite b c) = unite (unite a b) c /\ unite statistics_new a = a /\ unite a statistics_new = a.
Proof. exact @unite_laws. Qed.
Print Assumptions C56_unite_statistics_laws.
Theorem C56_unite_counts :
  forall a b : call_count_data,
    length (ccd_unite a b) = length a + length b /\
    (forall i, i < length a -> nth_error (ccd_unite a b) i = nth_error a i) /\
    (forall i, nth_error (ccd_unite a b) (length a + i) = nth_error b i).
Proof. exact ccd_unite_runs. Qed.
Print Assumptions C56_unite_counts.
Theorem C56_unite_counts_laws :
  forall a b c : call_count_data,
    ccd_unite a (ccd_unite b c) = ccd_unite (ccd_unite a b) c /\
    ccd_unite ccd_new a = a /\ ccd_unite a ccd_new = a.
Proof. exact ccd_unite_laws. Qed.
Print Assumptions C56_unite_counts_laws.
Example C56_nonvacuous :
  let a := Statistics [Some (10, one64)] [[None; Some (10, one64)]] in
  let b := Statistics [None] [[]] in
  nth_error (results (unite a b)) 1 = Some None /\ nth_error (convergence (unite a b)) 1 = Some [].
Proof. split; reflexivity. Qed.

(** ** C57: average convergence *)
Theorem C57_average_convergence :
  forall (T : Type) (np64 : nan_policy 53 1024) (c : list (list (option (T * f64)))),
    exists l,
      get_average_convergence np64 c = Ret l /\ shortest c (length l) /\
      forall i, i < length l ->
        (column c i = [] -> nth_error l i = Some None) /\
        (column c i <> [] -> nth_error l i =
           Some (Some (b_div np64 (float_sum np64 (column c i)) (float_count (length (column c i)))))).
Proof. exact @average_convergence. Qed.
Print Assumptions C57_average_convergence.
(** Data whose sums are representable give the correctly rounded mean. *)
Theorem C57_exact_data :
  forall (np64 : nan_policy 53 1024) (gs : list f64),
    Forall (fun g => is_finite g = true) gs -> gs <> [] -> (Z.of_nat (length gs) <= 2 ^ 53)%Z ->
    exact_sums 53 1024 (values64 gs) ->
    let m := b_div np64 (float_sum np64 gs) (float_count (length gs)) in
    is_finite m = true /\
    value64 m = rounded (prec:=53) (emax:=1024) (real_sum (values64 gs) / INR (length gs)).
Proof. exact mean_exact. Qed.
Print Assumptions C57_exact_data.
Definition demo_table : list (list (option (nat * f64))) :=
  [[None; Some (7, one64); Some (8, one64)]; [None; Some (9, three64)]; [None; None; None]].
Example C57_nonvacuous :
  shortest demo_table 2 /\ column demo_table 0 = [] /\ column demo_table 1 = [one64; three64] /\
  exists l, get_average_convergence np64_default demo_table = Ret l /\
    map (option_map to_bits64) l = [None; Some (to_bits64 two64)].
Proof.
  split; [right; split; [exists [None; Some (9, three64)]; simpl; auto|]|].
  - intros row [<-|[<-|[<-|[]]]]; simpl; lia.
  - split; [reflexivity|]. split; [reflexivity|].
    apply (show_ret (map (option_map to_bits64))). vm_compute. reflexivity.
Qed.
Lemma representable_Z n : (Z.abs n <= 2 ^ 53)%Z -> @representable 53 1024 (IZR n).
Proof. intros H. destruct (of_Z_exact (prec:=53) (emax:=1024) n H). eexists. split; eauto. Qed.
Lemma exact_sums_Z (zs : list Z) :
  (forall k, (Z.abs (fold_right Z.add 0 (firstn k zs)) <= 2 ^ 53)%Z) -> exact_sums 53 1024 (map IZR zs).
Proof.
  intros H k. specialize (H k). rewrite firstn_map.
  replace (real_sum (map IZR (firstn k zs))) with (IZR (fold_right Z.add 0%Z (firstn k zs))).
  - now apply representable_Z.
  - clear H. induction (firstn k zs) as [|z l IH]; simpl; auto. rewrite plus_IZR, IH. reflexivity.
Qed.
Lemma values_13 : values64 [one64; three64] = map IZR [1; 3]%Z.
Proof. simpl. unfold F2R. simpl. repeat f_equal; lra. Qed.
Example C57_exact_nonvacuous : exact_sums 53 1024 (values64 [one64; three64]).
Proof.
  rewrite values_13. apply exact_sums_Z. intros [|[|[|k]]]; simpl; lia.
Qed.

(** ** C58: "Value is None if Solution is None for any running" is not what the code does *)
Theorem C58_none_for_any_refuted :
  exists (c : list (list (option (nat * f64)))) l i row,
    get_average_convergence np64_default c = Ret l /\ i < length l /\
    In row c /\ nth_error row i = Some None /\ nth_error l i <> Some None.
Proof.
  set (c := [[None]; [Some (5, one64)]] : list (list (option (nat * f64)))).
  destruct (average_convergence np64_default c) as [l [E [S H]]].
  assert (L : length l = 1).
  { destruct S as [[S _]|[[row [Hr Hl]] _]]; [discriminate|]. destruct Hr as [<-|[<-|[]]]; auto. }
  exists c, l, 0, [None]. split; auto. split; [lia|]. split; [left; auto|]. split; auto.
  destruct (H 0) as [_ H2]; [lia|]. rewrite H2 by discriminate. discriminate.
Qed.
Print Assumptions C58_none_for_any_refuted.
(** It holds when all runs lack a solution (and only then, by C57). *)
Theorem C58_none_for_all_partial :
  forall (T : Type) (np64 : nan_policy 53 1024) (c : list (list (option (T * f64)))) l i,
    get_average_convergence np64 c = Ret l -> i < length l ->
    (nth_error l i = Some None <-> forall row, In row c -> nth_error row i = Some None).
Proof. exact @average_convergence_none. Qed.
Print Assumptions C58_none_for_all_partial.
(** Two runs over two iterations: no solution in iteration 0, one of two in iteration 1. *)
Example C58_nonvacuous :
  exists l, get_average_convergence np64_default
      [[None; Some (5, one64)]; [None; None]] = Ret l /\ length l = 2 /\
    nth_error l 0 = Some None /\ nth_error l 1 <> Some None.
Proof.
  set (c := [[None; Some (5, one64)]; [None; None]] : list (list (option (nat * f64)))).
  destruct (average_convergence np64_default c) as [l [E [S H]]].
  assert (L : length l = 2).
  { destruct S as [[S _]|[[row [Hr Hl]] _]]; [discriminate|]. destruct Hr as [<-|[<-|[]]]; auto. }
  exists l. split; [exact E|]. split; [exact L|].
  destruct (H 0) as [H1 _]; [lia|]. destruct (H 1) as [_ H2]; [lia|].
  rewrite H1 by reflexivity. split; [reflexivity|]. rewrite H2 by discriminate. discriminate.
Qed.

(** ** C59: average and standard deviation *)
Theorem C59_average_defined :
  forall (T : Type) (np64 : nan_policy 53 1024) (l : list (option (T * f64))),
    (get_average_goal np64 l = None <-> forall o, In o l -> o = None) /\
    (forall a, get_average_goal np64 l = Some a -> a = mean64 np64 (goals l)).
Proof. split; [apply average_none|apply average_value]. Qed.
Print Assumptions C59_average_defined.
Theorem C59_deviation_defined :
  forall (T : Type) (np64 : nan_policy 53 1024) (l : list (option (T * f64))),
    (get_standard_deviation_goal np64 l = None <-> length (present l) < 2) /\
    (forall d, get_standard_deviation_goal np64 l = Some d -> d = deviation64 np64 (goals l)).
Proof. split; [apply deviation_none|apply deviation_value]. Qed.
Print Assumptions C59_deviation_defined.
Theorem C59_deviation_not_negative :
  forall (T : Type) (np64 : nan_policy 53 1024) (l : list (option (T * f64))) d,
    usize (length l) -> Forall (fun g => is_finite g = true) (goals l) ->
    get_standard_deviation_goal np64 l = Some d -> non_negative d.
Proof. exact @deviation_non_negative. Qed.
Print Assumptions C59_deviation_not_negative.
Theorem C59_missing_results_ignored :
  forall (T : Type) (np64 : nan_policy 53 1024) (l1 l2 : list (option (T * f64))),
    get_average_goal np64 (l1 ++ None :: l2) = get_average_goal np64 (l1 ++ l2) /\
    get_standard_deviation_goal np64 (l1 ++ None :: l2) = get_standard_deviation_goal np64 (l1 ++ l2).
Proof. exact @missing_ignored. Qed.
Print Assumptions C59_missing_results_ignored.
Theorem C59_exact_deviation :
  forall (np64 : nan_policy 53 1024) (gs : list f64) (m : R),
    let sq := fun r => ((r - m) * (r - m))%R in
    Forall (fun g => is_finite g = true) gs -> 2 <= length gs -> (Z.of_nat (length gs) <= 2 ^ 53)%Z ->
    exact_sums 53 1024 (values64 gs) ->
    m = (real_sum (values64 gs) / INR (length gs))%R -> @representable 53 1024 m ->
    (forall g, In g gs -> @representable 53 1024 (value64 g - m) /\ @representable 53 1024 (sq (value64 g))) ->
    exact_sums 53 1024 (map sq (values64 gs)) ->
    is_finite (deviation64 np64 gs) = true /\
    value64 (deviation64 np64 gs) =
      rounded (prec:=53) (emax:=1024)
        (sqrt (rounded (prec:=53) (emax:=1024) (real_sum (map sq (values64 gs)) / INR (length gs - 1)))).
Proof. exact deviation_exact. Qed.
Print Assumptions C59_exact_deviation.
Example C59_nonvacuous :
  let l := [Some (7, one64); None; Some (8, three64)] in
  (exists a, get_average_goal np64_default l = Some a /\ to_bits64 a = to_bits64 two64) /\
  (exists d, get_standard_deviation_goal np64_default l = Some d /\ non_negative d).
Proof.
  split.
  - eexists. split; [reflexivity|]. vm_compute. reflexivity.
  - eexists. split; [reflexivity|]. vm_compute. reflexivity.
Qed.
Example C59_exact_nonvacuous :
  let gs := [one64; three64] in
  2%R = (real_sum (values64 gs) / INR (length gs))%R /\ @representable 53 1024 2 /\
  exact_sums 53 1024 (map (fun r => ((r - 2) * (r - 2))%R) (values64 gs)) /\
  forall g, In g gs -> @representable 53 1024 (value64 g - 2) /\
                       @representable 53 1024 ((value64 g - 2) * (value64 g - 2)).
Proof.
  cbv zeta. assert (E : map value64 [one64; three64] = [1%R; 3%R]) by (exact values_13).
  split; [rewrite E; simpl; lra|]. split; [apply (representable_Z 2); lia|]. split.
  - rewrite E. replace (map _ _) with (map IZR [1; 1]%Z).
    + apply exact_sums_Z. intros [|[|[|k]]]; simpl; lia.
    + simpl. repeat f_equal; lra.
  - assert (E1 : value64 one64 = 1%R) by (injection E; auto).
    assert (E3 : value64 three64 = 3%R) by (injection E; auto). intros g [<-|[<-|[]]]; [rewrite E1|rewrite E3]; split.
    + replace (1 - 2)%R with (IZR (-1)) by lra. apply representable_Z. lia.
    + replace ((1 - 2) * (1 - 2))%R with (IZR 1) by lra. apply representable_Z. lia.
    + replace (3 - 2)%R with (IZR 1) by lra. apply representable_Z. lia.
    + replace ((3 - 2) * (3 - 2))%R with (IZR 1) by lra. apply representable_Z. lia.
Qed.

(** ** C60: averages of vectors *)
Theorem C60_average :
  forall (T : Type) (FT : FloatTrait T) (np64 : nan_policy 53 1024) (l : list (option (list T * f64))),
    (get_average np64 l = Panic <-> mixed l) /\
    (~ mixed l ->
      (present l = [] -> get_average np64 l = Ret None) /\
      (forall s, In s (present l) -> exists v goal,
         get_average np64 l = Ret (Some (v, goal)) /\ get_average_goal np64 l = Some goal /\
         length v = length (fst s) /\
         forall j, j < length v -> nth_error v j = Some (mean_of (components j l)))).
Proof. split; [apply average_panic|apply average_spec]. Qed.
Print Assumptions C60_average.
Theorem C60_deviation :
  forall (T : Type) (FT : FloatTrait T) (np64 : nan_policy 53 1024) (l : list (option (list T * f64))),
    (get_standard_deviation np64 l = Panic <-> mixed l) /\
    (~ mixed l ->
      (length (present l) < 2 -> get_standard_deviation np64 l = Ret None) /\
      (2 <= length (present l) -> forall s, In s (present l) -> exists v goal,
         get_standard_deviation np64 l = Ret (Some (v, goal)) /\ get_standard_deviation_goal np64 l = Some goal /\
         length v = length (fst s) /\
         forall j, j < length v -> nth_error v j = Some (deviation_of (components j l)))).
Proof. split; [apply deviation_panic_iff|apply deviation_spec]. Qed.
Print Assumptions C60_deviation.
(** The formulas in exact arithmetic. *)
Theorem C60_exact_arithmetic :
  forall xs : list R,
    @mean_of R FloatR xs = (real_sum xs / INR (length xs))%R /\
    @deviation_of R FloatR xs =
      sqrt (real_sum (map (fun x => Rsqr (x - real_sum xs / INR (length xs))) xs) / INR (length xs - 1)).
Proof. split; [apply mean_real|apply deviation_real]. Qed.
Print Assumptions C60_exact_arithmetic.
Definition demo_results : list (option (list f64 * f64)) :=
  [Some ([one64; two64], one64); None; Some ([three64; two64], three64)].
Example C60_nonvacuous :
  ~ mixed demo_results /\ components 0 demo_results = [one64; three64] /\
  mixed (Some ([one64], one64) :: demo_results) /\
  option_map (option_map (fun s : list f64 * f64 => map to_bits64 (fst s)))
    (show (fun x => x) (@get_average f64 (FloatIEEE np64_default) np64_default demo_results)) =
    Some (Some [to_bits64 two64; to_bits64 two64]).
Proof.
  split; [|split; [reflexivity|split; [|vm_compute; reflexivity]]].
  - intros [p [q [Hp [Hq N]]]]. destruct Hp as [<-|[<-|[]]], Hq as [<-|[<-|[]]]; apply N; reflexivity.
  - exists ([one64], one64), ([one64; two64], one64). simpl. repeat split; auto.
Qed.

(** ** C61: success rate *)
Theorem C61_success_rate :
  forall (T : Type) (np64 : nan_policy 53 1024) (p : list T * f64 -> bool) (l : list (option (list T * f64))),
    (get_success_rate np64 p l = None <-> l = []) /\
    (l <> [] -> (Z.of_nat (length l) <= 2 ^ 53)%Z ->
     exists r, get_success_rate np64 p l = Some r /\ is_finite r = true /\
       value64 r = rounded (prec:=53) (emax:=1024)
         (INR (length (filter (succeeds p) l)) / INR (length l)) /\
       (0 <= value64 r <= 1)%R /\
       (value64 r = 1%R <-> forall o, In o l -> succeeds p o = true) /\
       (value64 r = 0%R <-> forall o, In o l -> succeeds p o = false)).
Proof. split; [apply rate_none|apply rate_value]. Qed.
Print Assumptions C61_success_rate.
Example C61_nonvacuous :
  exists r, get_success_rate np64_default (fun s => ltb (snd s) two64) demo_results = Some r /\
    to_bits64 r = to_bits64 (b_div np64_default one64 three64).
Proof. eexists. split; [reflexivity|]. vm_compute. reflexivity. Qed.

(** ** C62: success predicates *)
Theorem C62_goal :
  forall (X : Type) (np64 : nan_policy 53 1024) (expected delta : f64) (s : X * f64),
    is_finite (snd s) = true -> is_finite expected = true -> is_finite delta = true ->
    (predicate_success_goal np64 expected delta s = true <->
       (rounded (prec:=53) (emax:=1024) (distance (snd s) expected) < value64 delta)%R) /\
    (predicate_success_goal np64 expected delta s = true -> (distance (snd s) expected < value64 delta)%R) /\
    (@representable 53 1024 (value64 (snd s) - value64 expected) ->
       (predicate_success_goal np64 expected delta s = true <-> (distance (snd s) expected < value64 delta)%R)).
Proof. intros X np64 e d s. exact (predicate_goal_finite np64 e d s). Qed.
Print Assumptions C62_goal.
Theorem C62_goal_not_finite :
  forall (X : Type) (np64 : nan_policy 53 1024) (expected delta : f64) (s : X * f64),
    is_nan (snd s) = true \/ (is_finite (snd s) = false /\ is_finite expected = true) ->
    predicate_success_goal np64 expected delta s = false.
Proof. intros X np64 e d s [H|[H1 H2]]; [apply predicate_goal_nan; auto|now apply predicate_goal_infinite]. Qed.
Print Assumptions C62_goal_not_finite.
Example C62_goal_nonvacuous :
  predicate_success_goal np64_default two64 two64 (tt, one64) = true /\
  predicate_success_goal np64_default two64 one64 (tt, one64) = false.
Proof. split; vm_compute; reflexivity. Qed.

(** The vector predicate accepts solutions it should reject: a NaN component, *)
Theorem C62_vec_nan_refuted :
  exists (expected delta : list f64) (s : list f64 * f64) (x : f64),
    length (fst s) = length expected /\ length delta = length expected /\
    In x (fst s) /\ is_nan x = true /\
    @predicate_success_vec f64 (FloatIEEE np64_default) (expected, delta) s = true.
Proof.
  exists [one64], [one64], ([proj1_sig (np_const np64_default)], one64), (proj1_sig (np_const np64_default)).
  split; [reflexivity|]. split; [reflexivity|]. split; [left; reflexivity|]. split; vm_compute; reflexivity.
Qed.
Print Assumptions C62_vec_nan_refuted.
(** and a solution of the wrong dimension. *)
Theorem C62_vec_dimension_refuted :
  exists (expected delta : list f64) (s : list f64 * f64),
    length delta = length expected /\ length (fst s) <> length expected /\
    @predicate_success_vec f64 (FloatIEEE np64_default) (expected, delta) s = true.
Proof.
  exists [one64; two64], [one64; one64], ([one64], one64).
  split; [reflexivity|]. split; [discriminate|]. vm_compute. reflexivity.
Qed.
Print Assumptions C62_vec_dimension_refuted.
(** On finite data of the right dimension it accepts exactly the close solutions. *)
Theorem C62_vec_partial :
  forall (prec emax : Z) (Hp : FLX.Prec_gt_0 prec) (He : Prec_lt_emax prec emax) (np : nan_policy prec emax)
    (expected delta : list (bfloat prec emax)) (s : list (bfloat prec emax) * f64),
    length (fst s) = length expected -> length delta = length expected ->
    Forall (fun x => is_finite x = true) (fst s) -> Forall (fun x => is_finite x = true) expected ->
    Forall (fun x => is_finite x = true) delta ->
    let accepted := @predicate_success_vec (bfloat prec emax) (FloatIEEE np) (expected, delta) s = true in
    (accepted <->
       forall j x e d, nth_error (fst s) j = Some x -> nth_error expected j = Some e -> nth_error delta j = Some d ->
         (rounded (prec:=prec) (emax:=emax) (distance x e) <= Binary.B2R prec emax d)%R) /\
    ((forall j x e d, nth_error (fst s) j = Some x -> nth_error expected j = Some e -> nth_error delta j = Some d ->
        (distance x e <= Binary.B2R prec emax d)%R) -> accepted) /\
    ((forall j x e, nth_error (fst s) j = Some x -> nth_error expected j = Some e ->
        @representable prec emax (Binary.B2R prec emax x - Binary.B2R prec emax e)) ->
     (accepted <->
        forall j x e d, nth_error (fst s) j = Some x -> nth_error expected j = Some e -> nth_error delta j = Some d ->
          (distance x e <= Binary.B2R prec emax d)%R)).
Proof. intros. now apply predicate_vec_finite. Qed.
Print Assumptions C62_vec_partial.
Theorem C62_vec_constructor :
  forall (T : Type) (expected delta : list T),
    (length expected = length delta -> predicate_success_vec_new expected delta = Ret (expected, delta)) /\
    (length expected <> length delta -> predicate_success_vec_new expected delta = Panic).
Proof. exact @predicate_vec_new. Qed.
Print Assumptions C62_vec_constructor.
Example C62_vec_nonvacuous :
  @predicate_success_vec f64 (FloatIEEE np64_default) ([one64; two64], [one64; one64]) ([two64; two64], one64) = true /\
  @predicate_success_vec f64 (FloatIEEE np64_default) ([one64; two64], [one64; one64]) ([two64; four64], one64) = false.
Proof. split; vm_compute; reflexivity. Qed.

(** ** C63: call counters *)
Theorem C63_counts_per_run :
  forall ops : list count_op, ofold count_step ops ccd_new = Ret (calls_by_run ops).
Proof. exact counter_runs. Qed.
Print Assumptions C63_counts_per_run.
Theorem C63_average :
  forall (np64 : nan_policy 53 1024) (c : call_count_data),
    (get_average_call_count np64 c = None <-> c = []) /\
    (c <> [] -> (Z.of_nat (length c) <= 2 ^ 53)%Z -> (Z.of_nat (list_sum c) <= 2 ^ 53)%Z ->
     exists a, get_average_call_count np64 c = Some a /\ is_finite a = true /\
       value64 a = rounded (prec:=53) (emax:=1024) (INR (list_sum c) / INR (length c))).
Proof. exact average_calls. Qed.
Print Assumptions C63_average.
Example C63_nonvacuous :
  calls_by_run [Increment; Add 4; NextRun; NextRun; Increment; Unite [7; 8]; Increment] = [5; 0; 1; 7; 9] /\
  ofold count_step [Increment; Add 4; NextRun; NextRun; Increment; Unite [7; 8]; Increment] ccd_new =
    Ret [5; 0; 1; 7; 9].
Proof. split; reflexivity. Qed.
