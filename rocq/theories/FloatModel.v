(** * Floats: f32, f64 and the [num::Float] trait

    The code is generic over [T: num::Float] (f32 and f64); goal values are f64
    ([type GoalValue = f64], optlib/src/lib.rs:9).  Floats are Flocq's full
    IEEE-754 binary formats: signed zeros, subnormals, infinities, NaNs with
    payload; all arithmetic rounds to nearest, ties to even. *)

From Coq Require Import List Arith ZArith Bool.
From Flocq Require Import Core.Zaux Core.FLX IEEE754.BinarySingleNaN IEEE754.Binary IEEE754.Bits.
From Verif Require Import Base.
Import ListNotations.

#[global] Arguments Binary.B754_zero {prec emax}.
#[global] Arguments Binary.B754_infinity {prec emax}.
#[global] Arguments Binary.B754_nan {prec emax}.
#[global] Arguments Binary.B754_finite {prec emax}.

Notation bfloat := Binary.binary_float.
Definition f64 : Type := bfloat 53 1024.
Definition f32 : Type := bfloat 24 128.

#[global] Instance Hprec64 : Prec_gt_0 53 := eq_refl.
#[global] Instance Hemax64 : Prec_lt_emax 53 1024 := eq_refl.
#[global] Instance Hprec32 : Prec_gt_0 24 := eq_refl.
#[global] Instance Hemax32 : Prec_lt_emax 24 128 := eq_refl.

(** Rust does not specify which NaN an operation returns: any choice. *)
Definition a_nan (prec emax : Z) : Type :=
  { x : bfloat prec emax | Binary.is_nan prec emax x = true }.
Record nan_policy (prec emax : Z) := {
  np_add : bfloat prec emax -> bfloat prec emax -> a_nan prec emax;
  np_sub : bfloat prec emax -> bfloat prec emax -> a_nan prec emax;
  np_mul : bfloat prec emax -> bfloat prec emax -> a_nan prec emax;
  np_div : bfloat prec emax -> bfloat prec emax -> a_nan prec emax;
  np_sqrt : bfloat prec emax -> a_nan prec emax;
  np_of64 : f64 -> a_nan prec emax;
  np_of32 : f32 -> a_nan prec emax;
  np_const : a_nan prec emax
}.
Arguments np_add {prec emax}.
Arguments np_sub {prec emax}.
Arguments np_mul {prec emax}.
Arguments np_div {prec emax}.
Arguments np_sqrt {prec emax}.
Arguments np_of64 {prec emax}.
Arguments np_of32 {prec emax}.
Arguments np_const {prec emax}.

(** ** Comparison and classification, any format *)
Section Cmp.
  Context {prec emax : Z}.
  Notation F := (bfloat prec emax).

  Definition is_nan (x : F) : bool := Binary.is_nan prec emax x.
  Definition is_finite (x : F) : bool := Binary.is_finite prec emax x.
  (** [f64::partial_cmp] *)
  Definition partial_cmp (x y : F) : option comparison := Binary.Bcompare prec emax x y.
  (** [x < y], [x <= y] of Rust ([x > y] is [y < x] by IEEE-754). *)
  Definition ltb (x y : F) : bool :=
    match partial_cmp x y with Some Lt => true | _ => false end.
  Definition leb (x y : F) : bool :=
    match partial_cmp x y with Some Lt | Some Eq => true | _ => false end.
End Cmp.

(** ** Conversion between formats ([NumCast], [as]): exact value, rounded to
    nearest even in the target format; NaN becomes some NaN. *)
Definition fconv {p1 e1 p2 e2 : Z} {Hp : Prec_gt_0 p2} {He : Prec_lt_emax p2 e2}
  (nan : bfloat p1 e1 -> a_nan p2 e2) (x : bfloat p1 e1) : bfloat p2 e2 :=
  match x with
  | Binary.B754_zero s => Binary.B754_zero s
  | Binary.B754_infinity s => Binary.B754_infinity s
  | Binary.B754_nan _ _ _ => proj1_sig (nan x)
  | Binary.B754_finite s m e _ =>
      Binary.binary_normalize p2 e2 Hp He mode_NE (cond_Zopp s (Zpos m)) e s
  end.

(** ** The operations of [num::Float] used by the code base *)
Class FloatTrait (T : Type) := {
  fzero : T;                      (* T::zero() *)
  fone : T;                       (* T::one() *)
  fadd : T -> T -> T;
  fsub : T -> T -> T;
  fmul : T -> T -> T;
  fdiv : T -> T -> T;
  fsqrt : T -> T;
  fabs : T -> T;
  fsignum : T -> T;
  flt : T -> T -> bool;           (* x < y ; x > y is flt y x *)
  fle : T -> T -> bool;           (* x <= y *)
  ffinite : T -> bool;            (* is_finite *)
  fof_Z : Z -> T;                 (* T::from(n: any integer type).unwrap() *)
  fof_f64 : f64 -> T;             (* T::from(x: f64).unwrap() *)
  fof_f32 : f32 -> T              (* T::from(x: f32).unwrap() *)
}.

(** [T::from(n: usize).unwrap()] *)
Definition fof_nat {T} `{FloatTrait T} (n : nat) : T := fof_Z (Z.of_nat n).

(** [powi(2)] of the standard library is one multiplication. *)
Definition fsquare {T} `{FloatTrait T} (x : T) : T := fmul x x.

Section IEEE.
  Context {prec emax : Z} {Hp : Prec_gt_0 prec} {He : Prec_lt_emax prec emax}.
  Variable np : nan_policy prec emax.
  Notation F := (bfloat prec emax).

  Definition b_add (x y : F) : F := Binary.Bplus prec emax Hp He (np_add np) mode_NE x y.
  Definition b_sub (x y : F) : F := Binary.Bminus prec emax Hp He (np_sub np) mode_NE x y.
  Definition b_mul (x y : F) : F := Binary.Bmult prec emax Hp He (np_mul np) mode_NE x y.
  Definition b_div (x y : F) : F := Binary.Bdiv prec emax Hp He (np_div np) mode_NE x y.
  Definition b_sqrt (x : F) : F := Binary.Bsqrt prec emax Hp He (np_sqrt np) mode_NE x.
  (** [f64::abs]: clears the sign bit, of NaNs too. *)
  Definition b_abs (x : F) : F :=
    match x with
    | Binary.B754_zero _ => Binary.B754_zero false
    | Binary.B754_infinity _ => Binary.B754_infinity false
    | Binary.B754_nan _ pl h => Binary.B754_nan false pl h
    | Binary.B754_finite _ m e h => Binary.B754_finite false m e h
    end.
  Definition b_opp (x : F) : F :=
    match x with
    | Binary.B754_zero s => Binary.B754_zero (negb s)
    | Binary.B754_infinity s => Binary.B754_infinity (negb s)
    | Binary.B754_nan s pl h => Binary.B754_nan (negb s) pl h
    | Binary.B754_finite s m e h => Binary.B754_finite (negb s) m e h
    end.
  Definition b_one : F := Binary.Bone prec emax Hp He.
  (** [f64::signum]: NaN for NaN, otherwise 1.0 with the sign of [x] (so 1.0 for
      +0.0 and -1.0 for -0.0). *)
  Definition b_signum (x : F) : F :=
    if is_nan x then proj1_sig (np_const np)
    else if Binary.Bsign prec emax x then b_opp b_one else b_one.
  Definition b_of_Z (n : Z) : F := Binary.binary_normalize prec emax Hp He mode_NE n 0 false.

  Definition FloatIEEE : FloatTrait F := {|
    fzero := Binary.B754_zero false;
    fone := b_one;
    fadd := b_add; fsub := b_sub; fmul := b_mul; fdiv := b_div;
    fsqrt := b_sqrt; fabs := b_abs; fsignum := b_signum;
    flt := ltb; fle := leb; ffinite := is_finite;
    fof_Z := b_of_Z;
    fof_f64 := fconv (np_of64 np);
    fof_f32 := fconv (np_of32 np)
  |}.
End IEEE.

(** [f64::MAX] *)
Definition f64_MAX : f64 := Binary.Bmax_float 53 1024 Hprec64 Hemax64.

(** ** Bit patterns: [to_bits], [from_bits] *)
Definition to_bits64 (x : f64) : Z := bits_of_b64 x.
Definition from_bits64 (z : Z) : f64 := b64_of_bits z.
Definition to_bits32 (x : f32) : Z := bits_of_b32 x.
Definition from_bits32 (z : Z) : f32 := b32_of_bits z.

(** ** Library functions whose results IEEE-754 does not fix (libm): arbitrary. *)
Class Libm (T : Type) := {
  fsin : T -> T;
  fcos : T -> T;
  fexp2 : T -> T;
  fpowf : T -> T -> T
}.

(** A concrete NaN policy, for examples only (what x86 does: default quiet NaN). *)
Definition np64_default : nan_policy 53 1024 :=
  {| np_add := binop_nan_pl64; np_sub := binop_nan_pl64; np_mul := binop_nan_pl64;
     np_div := binop_nan_pl64; np_sqrt := unop_nan_pl64; np_of64 := unop_nan_pl64;
     np_of32 := fun _ => default_nan_pl64; np_const := default_nan_pl64 |}.
Definition np32_default : nan_policy 24 128 :=
  {| np_add := binop_nan_pl32; np_sub := binop_nan_pl32; np_mul := binop_nan_pl32;
     np_div := binop_nan_pl32; np_sqrt := unop_nan_pl32; np_of64 := fun _ => default_nan_pl32;
     np_of32 := unop_nan_pl32; np_const := default_nan_pl32 |}.
