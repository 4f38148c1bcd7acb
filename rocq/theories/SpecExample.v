(** * Specification vocabulary: the example programs *)

From Coq Require Import List Arith ZArith Bool String.
From Flocq Require Import IEEE754.Binary.
From Verif Require Import Base FloatModel SpecBox.
Import ListNotations.

(** The floats closest to m / 10^e (0 < e, both numbers exact as floats). *)
Definition decimal32 (m e : Z) : f32 := b_div np32_default (b_of_Z m) (b_of_Z (10 ^ e)).
Definition decimal64 (m e : Z) : f64 := b_div np64_default (b_of_Z m) (b_of_Z (10 ^ e)).

(** [n] times the same interval. *)
Definition cube (n : nat) (lo hi : f32) : list (f32 * f32) := repeat (lo, hi) n.
Definition int_cube (n : nat) (lo hi : Z) : list (f32 * f32) := cube n (b_of_Z lo) (b_of_Z hi).

(** Standard output accepts everything; the clock can be read. *)
Definition accepts {W} (write : string -> comp W bool) : Prop :=
  forall s w, exists w', write s w = (Ret true, w').
Definition ticks {W} (now : comp W Z) : Prop := forall w, exists t w', now w = (Ret t, w').

(** A point of the box and the finite value of the function there. *)
Definition solves (f : list f32 -> outcome f64) (box : list (f32 * f32)) (x : list f32) (v : f64) : Prop :=
  in_box box x /\ f x = Ret v /\ is_finite v = true.

(** Why a run ended after iteration [i] with the best value [v]: the value is at most [t];
    [n] iterations without a change need more than [n] iterations; [k] iterations are over. *)
Inductive reason := Below (t : f64) | Quiet (n : nat) | After (k : nat).
Definition holds (i : nat) (v : f64) (r : reason) : Prop :=
  match r with
  | Below t => leb v t = true
  | Quiet n => n < i
  | After k => k <= i
  end.
Definition stopped_by (rs : list reason) (i : nat) (v : f64) : Prop := Exists (holds i v) rs.
