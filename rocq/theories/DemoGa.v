(** * A small concrete genetic optimizer, used by the examples beside the theorems *)

From Coq Require Import List Arith ZArith Bool.
From Verif Require Import Base Logic FloatModel FloatFacts GaModel SpecGa GaComponents StopModel.
Import ListNotations.

(** Integer literals as f64. *)
Definition fl (n : Z) : f64 := b_of_Z n.

(** A logger that counts its calls. *)
Definition count_logger {T} : logger nat T :=
  let f (_ : alg_state T) : comp nat unit := fun u => (Ret tt, S u) in Logger f f f f.

(** Chromosomes are integers, the environment is a counter of calls. *)
Definition demo_goal (x : Z) : f64 := fl (x * x).
Definition demo_creator : comp nat (list Z) := fun u => (Ret [3; -2]%Z, S u).
Definition demo_pairing (p : population Z) : comp nat (list (list nat)) :=
  fun u => (Ret [[0; length (individuals p) - 1]], S u).
Definition demo_cross (parents : list Z) : comp nat (list Z) :=
  fun u => (match parents with
            | [a; b] => Ret [a + b; a - b]%Z
            | _ => Panic
            end, S u).
Definition demo_mutation (x : Z) : comp nat Z :=
  fun u => (Ret (if Nat.even u then x else - x)%Z, S u).
Definition demo_pre_birth (_ : population Z) (xs : list Z) : comp nat (list Z) :=
  cret (filter (fun x => Z.abs x <=? 6)%Z xs).
Definition demo_selection (p : population Z) : comp nat (list (individual Z)) :=
  cret (map (fun i => if leb (fitness i) (fl 9) then i else kill i) (individuals p)).

Definition demo : ga_config nat Z :=
  ga_set_loggers
    (ga_new (goal_from_function demo_goal) (max_iterations 3) demo_creator demo_pairing demo_cross
            demo_mutation [demo_selection; fun p => cret (kill_fitness_nan p)] [demo_pre_birth])
    [count_logger; count_logger].

Lemma demo_selection_copies : selection_copies demo_selection.
Proof.
  intros p u l u' H i Hi. inversion H; subst. apply in_map_iff in Hi.
  destruct Hi as [j [<- Hj]]. exists j. split; [now left|]. destruct (leb _ _); auto.
Qed.

Lemma kill_fitness_nan_copies {U T} :
  @selection_copies T U (fun p => cret (kill_fitness_nan p)).
Proof.
  intros p u l u' H i Hi. inversion H; subst. apply in_map_iff in Hi.
  destruct Hi as [j [<- Hj]]. exists j. split; [now left|]. destruct (is_finite _); auto.
Qed.

Lemma demo_legal : Forall selection_copies (ga_selections demo).
Proof. constructor; [apply demo_selection_copies|]. constructor; [apply kill_fitness_nan_copies|constructor]. Qed.

Lemma killed_map {T} (f : individual T -> individual T) l :
  (forall i, f i = i \/ f i = kill i) -> Forall2 killed_from l (map f l).
Proof.
  intros Hf. induction l as [|i l IH]; simpl; constructor; auto.
  destruct (Hf i) as [->| ->]; unfold killed_from; simpl; repeat split; auto; discriminate.
Qed.

Lemma demo_kills : Forall selection_kills (ga_selections demo).
Proof.
  constructor; [|constructor; [|constructor]]; intros p u l u' H; inversion H; subst;
    apply killed_map; intros i.
  - destruct (leb _ _); auto.
  - destruct (is_finite _); auto.
Qed.

(** Only booleans and numbers are computed: normalising a float would also
    normalise the proof it carries. *)
Definition returned {A} (o : outcome A) : bool := match o with Ret _ => true | _ => false end.
Lemma ret_parts {A B U E} (m : outcome (A * B) * U * list E) (d : A * B) :
  returned (fst (fst m)) = true ->
  m = (Ret (fst (match fst (fst m) with Ret r => r | _ => d end),
            snd (match fst (fst m) with Ret r => r | _ => d end)), snd (fst m), snd m).
Proof. destruct m as [[[[a b]| |] u] t]; simpl; congruence. Qed.
Definition found {A} (o : option (A * f64)) : option (A * Z) :=
  option_map (fun xv => (fst xv, to_bits64 (snd xv))) o.
Lemma found_some {A} (o : option (A * f64)) x z : found o = Some (x, z) ->
  exists v, o = Some (x, v) /\ to_bits64 v = z.
Proof. destruct o as [[y v]|]; simpl; intros H; inversion H; eauto. Qed.

Definition demo_start : population Z := Population [] None None 0.
Definition demo_run := ga_find_min demo 10 demo_start 0.
Lemma demo_run_eq : demo_run = ga_find_min demo 10 demo_start 0.
Proof. reflexivity. Qed.
Definition demo_result : option (Z * f64) * population Z :=
  match fst (fst demo_run) with Ret r => r | _ => (None, demo_start) end.
Definition demo_pop : population Z := snd demo_result.
Definition demo_state : nat := snd (fst demo_run).
Definition demo_trace : list (ga_event Z) := snd demo_run.

Lemma demo_ret : returned (fst (fst demo_run)) = true.
Proof. vm_compute. reflexivity. Qed.
(** The run returns after three generations. *)
Lemma demo_returns : ga_find_min demo 10 demo_start 0 = (Ret (fst demo_result, demo_pop), demo_state, demo_trace).
Proof.
  rewrite <- demo_run_eq. unfold demo_pop, demo_result, demo_state, demo_trace.
  exact (ret_parts demo_run (None, demo_start) demo_ret).
Qed.
Lemma demo_found : exists v, fst demo_result = Some ((-1)%Z, v) /\ to_bits64 v = to_bits64 (fl 1).
Proof. apply found_some. vm_compute. reflexivity. Qed.
Lemma demo_three : iteration demo_pop = 3 /\ 
  map chromosomes (individuals demo_pop) = [3; -2; -1; -2; -1]%Z.
Proof. vm_compute. auto. Qed.

Definition demo_ok (c : ga_config nat Z) : Prop :=
  Forall selection_copies (ga_selections c) /\ ga_goal c = goal_from_function demo_goal.

Lemma demo_is_ok : demo_ok demo.
Proof. split; [apply demo_legal|reflexivity]. Qed.

(** A history: find_min, then next_iterations with a higher limit. *)
Lemma demo_reach : ga_reach demo_ok demo_pop demo_trace.
Proof.
  exact (ga_reach_find demo_ok demo 10 0 demo_start [] _ demo_pop _ demo_trace
           demo_is_ok (ga_reach_new demo_ok) demo_returns).
Qed.

Definition demo_more : ga_config nat Z := ga_set_stop_checker demo (max_iterations 5).
Definition demo_run2 := ga_next_iterations demo_more 10 demo_pop demo_state.
Lemma demo_run2_eq : demo_run2 = ga_next_iterations demo_more 10 demo_pop demo_state.
Proof. reflexivity. Qed.
Definition demo_result2 : option (Z * f64) * population Z :=
  match fst (fst demo_run2) with Ret r => r | _ => (None, demo_start) end.
Lemma demo_ret2 : returned (fst (fst demo_run2)) = true.
Proof. vm_compute. reflexivity. Qed.
Lemma demo_returns2 :
  ga_next_iterations demo_more 10 demo_pop demo_state = (Ret (fst demo_result2, snd demo_result2), snd (fst demo_run2), snd demo_run2).
Proof.
  rewrite <- demo_run2_eq. unfold demo_result2.
  exact (ret_parts demo_run2 (None, demo_start) demo_ret2).
Qed.
Lemma demo_found2 : exists v, fst demo_result2 = Some ((-1)%Z, v) /\ to_bits64 v = to_bits64 (fl 1).
Proof. apply found_some. vm_compute. reflexivity. Qed.
Lemma demo_five : iteration (snd demo_result2) = 5.
Proof. vm_compute. reflexivity. Qed.

(** ** A run that loses its best point to LimitPopulation *)

(** Start with the point 5, bear the points 1 and 4 (goal: 2x, i.e. 10, 2 and 8), keep one
    individual. *)
Definition lose : ga_config nat Z :=
  ga_new (goal_from_function (fun x => fl (2 * x))) (max_iterations 1) (cret [5%Z])
         (fun _ => cret [[0; 0]]) (fun _ => cret [1; 4]%Z) (fun x => cret x)
         [fun p => cpure (limit_population 1 p)] [].
Definition lose_run := ga_find_min lose 5 demo_start 0.
Lemma lose_run_eq : lose_run = ga_find_min lose 5 demo_start 0.
Proof. reflexivity. Qed.
Definition lose_result : option (Z * f64) * population Z :=
  match fst (fst lose_run) with Ret r => r | _ => (None, demo_start) end.
Lemma lose_ret : returned (fst (fst lose_run)) = true.
Proof. vm_compute. reflexivity. Qed.
Lemma lose_returns : ga_find_min lose 5 demo_start 0 =
  (Ret (fst lose_result, snd lose_result), snd (fst lose_run), snd lose_run).
Proof.
  rewrite <- lose_run_eq. unfold lose_result. exact (ret_parts lose_run (None, demo_start) lose_ret).
Qed.
Lemma lose_found : exists v, fst lose_result = Some (4%Z, v) /\ to_bits64 v = to_bits64 (fl 8).
Proof. apply found_some. vm_compute. reflexivity. Qed.
(** The goal was called on 1 and returned 2. *)
Lemma lose_evaluated : exists v, In (EValue 1%Z v) (snd lose_run) /\ to_bits64 v = to_bits64 (fl 2).
Proof.
  assert (H : existsb (fun e : ga_event Z => match e with
             | EValue x v => (x =? 1)%Z && (to_bits64 v =? to_bits64 (fl 2))%Z
             | _ => false end) (snd lose_run) = true) by (vm_compute; reflexivity).
  apply existsb_exists in H. destruct H as [e [Hin H]].
  destruct e as [|x v| | | |]; try discriminate. apply andb_prop in H. destruct H as [H1 H2].
  apply Z.eqb_eq in H1, H2. subst. eauto.
Qed.

Lemma lose_witness :
  exists (cfg : ga_config nat Z) fuel u x v p' u' t y w,
    ga_selections cfg = [fun p => cpure (limit_population 1 p)] /\
    ga_find_min cfg fuel (Population [] None None 0) u = (Ret (Some (x, v), p'), u', t) /\
    evaluated t y w /\ is_finite w = true /\ ltb w v = true.
Proof.
  destruct lose_found as [v [Ev Bv]], lose_evaluated as [w [Hw Bw]].
  apply to_bits64_inj in Bv, Bw. subst v w.
  exists lose, 5, 0, 4%Z, (fl 8), (snd lose_result), (snd (fst lose_run)), (snd lose_run), 1%Z, (fl 2).
  split; [reflexivity|]. split.
  - rewrite <- Ev. exact lose_returns.
  - split; [exact Hw|]. split; vm_compute; reflexivity.
Qed.
