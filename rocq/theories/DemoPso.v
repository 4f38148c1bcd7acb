(** * A small concrete particle swarm, used by the examples beside the theorems *)

From Coq Require Import List Arith ZArith Bool RelationClasses.
From Verif Require Import Base Logic FloatModel FloatFacts GaModel PsoModel PsoComponents StopModel SpecGa
  SpecPso SpecRun SpecBox BoxFacts DemoGa DemoFloats.
Import ListNotations.

(** f64 with one way to make NaNs. *)
#[global] Instance Demo64 : FloatTrait f64 := FloatIEEE np64_default.

(** Two particles in the plane.  The environment counts the calls of components and,
    separately, of loggers. *)
Notation env := (nat * nat)%type.
Definition tick {A} (a : nat -> A) : comp env A := fun u => (Ret (a (fst u)), (S (fst u), snd u)).
Definition env_logger {T} : logger env T :=
  let f (_ : alg_state T) : comp env unit := fun u => (Ret tt, (fst u, S (snd u))) in Logger f f f f.

(** x^2 + 1 on the first coordinate; NaN would do as well. *)
Definition swarm_goal (x : list f64) : f64 :=
  match x with
  | x0 :: _ => b_add np64_default (b_mul np64_default x0 x0) one64
  | [] => one64
  end.
Definition swarm_coordinates : comp env (list (list f64)) :=
  tick (fun _ => [[three64; one64]; [ten64; two64]]).
Definition swarm_velocities : comp env (list (list f64)) :=
  tick (fun _ => [[one64; one64]; [one64; minus_two64]]).
(** Towards the best particle, or on with the old velocity. *)
Definition swarm_calc (s : swarm f64) (p : particle f64) : comp env (list f64) :=
  tick (fun n => match best_particle s with
                 | Some b => if Nat.even n
                             then map (fun x => b_sub np64_default (hd one64 (coordinates b)) x) (coordinates p)
                             else map (fun _ => b_sub np64_default (hd one64 (velocity p)) four64) (coordinates p)
                 | None => coordinates p
                 end).
Definition swarm_box : list (f64 * f64) := [(minus_two64, ten64); (one64, four64)].
Definition box_move (x : list f64) : comp env (list f64) := cpure (move_to_boundary swarm_box x).
Definition keep_velocity (v : list f64) : comp env (list f64) := cret v.

Definition flock : pso_config env f64 :=
  PsoConfig (goal_from_function swarm_goal) (max_iterations 3) swarm_coordinates swarm_velocities
    swarm_calc [keep_velocity] [box_move] [env_logger; env_logger].

Definition flock_start : swarm f64 := Swarm [] None None 0.
Definition flock_run := pso_find_min flock 10 flock_start (0, 0).
Lemma flock_run_eq : flock_run = pso_find_min flock 10 flock_start (0, 0).
Proof. reflexivity. Qed.
Definition flock_result : option (list f64 * f64) * swarm f64 :=
  match fst (fst flock_run) with Ret r => r | _ => (None, flock_start) end.
Definition flock_swarm : swarm f64 := snd flock_result.
Definition flock_env : env := snd (fst flock_run).
Definition flock_trace : list (pso_event f64) := snd flock_run.
Lemma flock_ret : returned (fst (fst flock_run)) = true.
Proof. vm_compute. reflexivity. Qed.
Lemma flock_returns :
  pso_find_min flock 10 flock_start (0, 0) = (Ret (fst flock_result, flock_swarm), flock_env, flock_trace).
Proof.
  rewrite <- flock_run_eq. unfold flock_swarm, flock_result, flock_env, flock_trace.
  exact (ret_parts flock_run (None, flock_start) flock_ret).
Qed.
Definition bits (o : option (list f64 * f64)) : option (list Z * Z) :=
  option_map (fun xv => (map to_bits64 (fst xv), to_bits64 (snd xv))) o.
Lemma bits_some o xs z : bits o = Some (xs, z) ->
  exists x v, o = Some (x, v) /\ map to_bits64 x = xs /\ to_bits64 v = z.
Proof. destruct o as [[x v]|]; simpl; intros H; inversion H; eauto. Qed.

(** The best point was found on the way: the goal is 1 at (0, 1). *)
Lemma flock_found : exists x v, fst flock_result = Some (x, v) /\
  map to_bits64 x = [0%Z; to_bits64 one64] /\ to_bits64 v = to_bits64 one64.
Proof. apply bits_some. vm_compute. reflexivity. Qed.
Lemma flock_three : sw_iteration flock_swarm = 3 /\ length (particles flock_swarm) = 2 /\
  length (evals flock_trace) = 8 /\ flock_env = (8, 12).
Proof. vm_compute. auto. Qed.
Lemma flock_value : exists x v, fst flock_result = Some (x, v).
Proof. destruct flock_found as [x [v [E _]]]. eauto. Qed.

Definition flock_ok (c : pso_config env f64) : Prop :=
  pso_goal c = goal_from_function swarm_goal /\ pso_coordinates c = swarm_coordinates /\
  pso_calc c = swarm_calc /\ pso_post_velocity c = [keep_velocity] /\ pso_post_move c = [box_move].
Lemma flock_is_ok : flock_ok flock.
Proof. unfold flock_ok. auto. Qed.
Lemma flock_reach : pso_reach flock_ok flock_swarm flock_trace.
Proof.
  exact (pso_reach_find flock_ok flock 10 (0, 0) flock_start [] _ flock_swarm _ flock_trace
           flock_is_ok (pso_reach_new flock_ok) flock_returns).
Qed.

(** Two more iterations. *)
Definition flock_more : pso_config env f64 := pso_set_stop_checker flock (max_iterations 5).
Definition flock_run2 := pso_next_iterations flock_more 10 flock_swarm flock_env.
Lemma flock_run2_eq : flock_run2 = pso_next_iterations flock_more 10 flock_swarm flock_env.
Proof. reflexivity. Qed.
Definition flock_result2 : option (list f64 * f64) * swarm f64 :=
  match fst (fst flock_run2) with Ret r => r | _ => (None, flock_start) end.
Lemma flock_ret2 : returned (fst (fst flock_run2)) = true.
Proof. vm_compute. reflexivity. Qed.
Lemma flock_returns2 : pso_next_iterations flock_more 10 flock_swarm flock_env =
  (Ret (fst flock_result2, snd flock_result2), snd (fst flock_run2), snd flock_run2).
Proof.
  rewrite <- flock_run2_eq. unfold flock_result2.
  exact (ret_parts flock_run2 (None, flock_start) flock_ret2).
Qed.
Lemma flock_value2 : exists x v, fst flock_result2 = Some (x, v).
Proof.
  assert (G : exists x z, bits (fst flock_result2) = Some (x, z))
    by (eexists _, _; vm_compute; reflexivity).
  destruct G as [x [z G]]. apply bits_some in G. destruct G as [y [v [E _]]]. eauto.
Qed.
Lemma flock_five : sw_iteration (snd flock_result2) = 5.
Proof. vm_compute. reflexivity. Qed.

(** The loggers only touch their own counter. *)
Definition same_work (u1 u2 : env) : Prop := fst u1 = fst u2.
Lemma same_work_equivalence : Equivalence same_work.
Proof. unfold same_work. split; congruence. Qed.
Lemma flock_unaffected : pso_unaffected same_work flock.
Proof.
  split; [apply same_work_equivalence|].
  assert (H : forall A (a : nat -> A), comp_respects same_work (tick a)).
  { intros A a u1 u2 E. unfold tick, same_work in *. simpl. rewrite E. auto. }
  assert (K : forall A (o : outcome A), comp_respects same_work (cpure o)).
  { intros A o u1 u2 E. unfold cpure. simpl. auto. }
  split; [intros x; apply (K _ (Ret _))|]. split; [apply H|]. split; [apply H|].
  split; [intros; apply H|]. split; [intros f v [<-|[]]; apply (K _ (Ret _))|].
  split; [intros f v [<-|[]]; apply K|].
  intros l [<-|[<-|[]]] [] st u; simpl; split; reflexivity.
Qed.

Lemma flock_dimension c : flock_ok c -> keeps_dimension 2 c.
Proof.
  intros [_ [E1 [E2 [E3 E4]]]]. unfold keeps_dimension. rewrite E1, E2, E3, E4. split; [|split; [|split]].
  - intros u xs u' H. inversion H; subst. repeat constructor.
  - intros s p u v u' Hp H. unfold swarm_calc, tick in H. injection H as K1 K2. rewrite <- K1. clear - Hp.
    destruct (best_particle s); [destruct (Nat.even _)|]; rewrite ?map_length; apply Nat.eq_le_incl; symmetry; exact Hp.
  - intros f v u w u' [<-|[]] H. inversion H. reflexivity.
  - intros f x u y u' [<-|[]] H. inversion H as [[K1 K2]]. eapply move_to_boundary_length; eauto.
Qed.
