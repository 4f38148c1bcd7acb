(** * Exact arithmetic: real numbers in the place of floats

    The code is generic over [num::Float]; instantiating the model with real
    numbers says what the formulas compute when no operation rounds. *)

From Coq Require Import List ZArith Reals.
From Flocq Require Import Core IEEE754.Binary.
From Verif Require Import Base FloatModel.
Import ListNotations.

Definition FloatR : FloatTrait R := {|
  fzero := 0%R; fone := 1%R;
  fadd := Rplus; fsub := Rminus; fmul := Rmult; fdiv := Rdiv;
  fsqrt := sqrt; fabs := Rabs; fsignum := fun x => if Rlt_bool x 0 then (-1)%R else 1%R;
  flt := Rlt_bool; fle := Rle_bool; ffinite := fun _ => true;
  fof_Z := IZR; fof_f64 := Binary.B2R 53 1024; fof_f32 := Binary.B2R 24 128
|}.

(** The Euclidean length of a vector. *)
Definition length2 (v : list R) : R := sqrt (fold_right (fun x s => x * x + s)%R 0%R v).

(** The smallest positive normal number of a float format. *)
Definition min_normal (prec emax : Z) : R := bpow radix2 (3 - emax - prec + prec - 1).
