(** * Concrete floats for the examples *)

From Coq Require Import ZArith.
From Flocq Require Import IEEE754.Binary.
From Verif Require Import Base FloatModel Rng.

Definition one64 : f64 := @Binary.B754_finite 53 1024 false 4503599627370496 (-52) eq_refl.
Definition two64 : f64 := @Binary.B754_finite 53 1024 false 4503599627370496 (-51) eq_refl.
Definition three64 : f64 := @Binary.B754_finite 53 1024 false 6755399441055744 (-51) eq_refl.
Definition four64 : f64 := @Binary.B754_finite 53 1024 false 4503599627370496 (-50) eq_refl.
Definition minus_two64 : f64 := @Binary.B754_finite 53 1024 true 4503599627370496 (-51) eq_refl.
(** 10 and 90: probabilities in percent. *)
Definition ten64 : f64 := @Binary.B754_finite 53 1024 false 5629499534213120 (-49) eq_refl.
Definition ninety64 : f64 := @Binary.B754_finite 53 1024 false 6333186975989760 (-46) eq_refl.
(** The least positive number (subnormal). *)
Definition tiny64 : f64 := @Binary.B754_finite 53 1024 false 1 (-1074) eq_refl.
Definition one32 : f32 := @Binary.B754_finite 24 128 false 8388608 (-23) eq_refl.
Definition two32 : f32 := @Binary.B754_finite 24 128 false 8388608 (-22) eq_refl.
Definition three32 : f32 := @Binary.B754_finite 24 128 false 12582912 (-22) eq_refl.

(** A random stream: 0, 1, 2, ... *)
Definition counter : rng := Z.of_nat.
(** A random stream of raw values read as bits of f64: 1.0, then 2.0 for ever. *)
Definition one_two : rng := fun n => match n with O => to_bits64 one64 | _ => to_bits64 two64 end.

(** What a result looks like, for runs too big to print. *)
Definition show {A B} (f : A -> B) (o : outcome A) : option B :=
  match o with Ret a => Some (f a) | _ => None end.
Lemma show_ret {A B} (f : A -> B) o z : show f o = Some z -> exists a, o = Ret a /\ f a = z.
Proof. destruct o; simpl; intros H; inversion H; eauto. Qed.
