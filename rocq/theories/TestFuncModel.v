(** * Test functions: optlib-testfunc/src/lib.rs

    Each function computes in the gene type [G] and converts the result with
    [to_f64()]; [xxx_g] is the part before the conversion. *)

From Coq Require Import List Arith ZArith Bool.
From Verif Require Import Base FloatModel.
Import ListNotations.

(** [x.to_f64().unwrap()] for floats. *)
Class ToF64 (T : Type) := to_f64 : T -> f64.
#[global] Instance ToF64_64 : ToF64 f64 := fun x => x.
Definition ToF64_32 (np64 : nan_policy 53 1024) : ToF64 f32 := fconv (np_of32 np64).

Section TestFunctions.
  Context {G : Type} {FT : FloatTrait G} {LM : Libm G} {TF : ToF64 G}.

  (** f64 literals *)
  Definition lit (n : Z) : G := fof_f64 (b_of_Z n).

  (** [paraboloid] (optlib-testfunc/src/lib.rs:20-27); [G::from(n)] of a usize. *)
  Definition paraboloid_g (x : list G) : G :=
    fold_left (fun result nv =>
                 fadd result (fsquare (fsub (snd nv) (fadd (fof_nat (fst nv)) (lit 1)))))
              (enumerate x) (lit 0).
  Definition paraboloid (x : list G) : f64 := to_f64 (paraboloid_g x).

  (** The literal 418.9829 rounded to f64. *)
  Definition schwefel_const : f64 := from_bits64 4646078441317839824.
  (** [schwefel] (optlib-testfunc/src/lib.rs:43-47). *)
  Definition schwefel_g (x : list G) : G :=
    fsub (fmul (fof_f64 schwefel_const) (fof_nat (length x)))
         (fold_left (fun acc xi => fadd acc (fmul xi (fsin (fsqrt (fabs xi))))) x fzero).
  Definition schwefel (x : list G) : f64 := to_f64 (schwefel_g x).

  (** The literal 3.14159265358979 rounded to f64. *)
  Definition pi_const : f64 := from_bits64 4614256656552045841.
  (** [rastrigin] (optlib-testfunc/src/lib.rs:62-69). *)
  Definition rastrigin_g (x : list G) : G :=
    let a := lit 10 in
    let pi := fof_f64 pi_const in
    fadd (fmul a (fof_nat (length x)))
         (fold_left (fun acc xi =>
                       fsub (fadd acc (fmul xi xi))
                            (fmul a (fcos (fmul (fmul (fof_Z 2) pi) xi)))) x fzero).
  Definition rastrigin (x : list G) : f64 := to_f64 (rastrigin_g x).

  (** [rosenbrock] (optlib-testfunc/src/lib.rs:84-91): on the empty vector
      [x.len() - 1] underflows (panic in debug builds) or [x[1]] is out of bounds
      (panic in release builds). *)
  Definition rosenbrock_g (x : list G) : outcome G :=
    match length x with
    | O => Panic
    | S last =>
        ofold (fun sum n =>
                 let! x1 := index x (n + 1) in
                 let! x0 := index x n in
                 Ret (fadd (fadd sum (fmul (lit 100) (fsquare (fsub x1 (fmul x0 x0)))))
                           (fsquare (fsub (lit 1) x0)))) (seq 0 last) (lit 0)
    end.
  Definition rosenbrock (x : list G) : outcome f64 :=
    let! s := rosenbrock_g x in Ret (to_f64 s).
End TestFunctions.
