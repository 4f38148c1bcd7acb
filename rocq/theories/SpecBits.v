(** * Specification vocabulary for bit patterns *)

From Coq Require Import List Arith ZArith Bool.
From Flocq Require Import IEEE754.Binary.
From Verif Require Import Base FloatModel Rng SpecRand.
Import ListNotations.
Local Open Scope Z_scope.

(** A [w]-bit pattern read as an unsigned number. *)
Definition unsigned (w z : Z) : Prop := 0 <= z < 2 ^ w.
(** A [w]-bit two's complement number. *)
Definition signed (w z : Z) : Prop := - 2 ^ (w - 1) <= z < 2 ^ (w - 1).

(** [z] has the bits below [pos] of [p2] and the other ones of [p1]
    ([Z.testbit] of a negative number is its two's complement pattern). *)
Definition crossed (w p1 p2 pos z : Z) : Prop :=
  forall i, 0 <= i < w -> Z.testbit z i = if i <? pos then Z.testbit p2 i else Z.testbit p1 i.

(** Number of [k < n] whose draw from [0..w-1] is [i]. *)
Fixpoint times_drawn (r : rng) (w i n : nat) : nat :=
  match n with
  | O => O
  | S n' => ((if Nat.eqb (drawn r 0 w n') i then 1 else 0) + times_drawn r w i n')%nat
  end.

(** Runs of a component over a list of arguments, one call after the other. *)
Inductive runs_each {U A B} (f : A -> comp U B) : list A -> U -> list B -> U -> Prop :=
| runs_nil u : runs_each f [] u [] u
| runs_cons x l u y u1 ys u2 :
    f x u = (Ret y, u1) -> runs_each f l u1 ys u2 -> runs_each f (x :: l) u (y :: ys) u2.

(** The pairs of genes at the same position. *)
Definition gene_pairs {G} (p1 p2 : list G) : list (list G) :=
  map (fun ab => [fst ab; snd ab]) (combine p1 p2).

(** ** Probabilistic mutation of a vector, [L] selecting the random generator *)
Section Mutated.
  Context {U G : Type} (np : nan_policy 53 1024) (L : lens U rng) (probability : f64)
    (single : G -> comp U G).
  (** The number drawn for the gene at hand, and the state after the draw. *)
  Definition percent (u : U) : f64 := @drawn_excl f64 (FloatIEEE np) _ (b_of_Z 0) (b_of_Z 100) (lget L u) 0.
  Definition after_draw (u : U) : U := lput L (shift 1 (lget L u)) u.

  (** Gene by gene: kept, or replaced by the result of the single mutation. *)
  Inductive mutated : list G -> U -> list G -> U -> Prop :=
  | mut_nil u : mutated [] u [] u
  | mut_keep g l u l' u' : ltb (percent u) probability = false ->
      mutated l (after_draw u) l' u' -> mutated (g :: l) u (g :: l') u'
  | mut_change g g1 l u u1 l' u' : ltb (percent u) probability = true ->
      single g (after_draw u) = (Ret g1, u1) ->
      mutated l u1 l' u' -> mutated (g :: l) u (g1 :: l') u'.
End Mutated.

(** What [integer_decode] tells about a float: [p] and [ex] are its precision and
    largest exponent. *)
Definition decoded (p ex : Z) (x : bfloat p ex) (mes : Z * Z * Z) : Prop :=
  let '(m, e, s) := mes in
  (0 <= m < 2 ^ p)%Z /\ (3 - ex - p - 1 <= e <= ex - p + 1)%Z /\
  s = (if Binary.Bsign p ex x then -1 else 1)%Z /\
  match x with
  | Binary.B754_zero _ => m = 0%Z /\ e = (3 - ex - p - 1)%Z
  | Binary.B754_finite _ mx e' _ =>
      if (2 ^ (p - 1) <=? Zpos mx)%Z then m = Zpos mx /\ e = e'
      else m = (2 * Zpos mx)%Z /\ e = (3 - ex - p - 1)%Z
  | _ => (2 ^ (p - 1) <= m)%Z /\ e = (ex - p + 1)%Z
  end.

(** A libm whose [exp2] is exact on the powers of two that the format represents,
    and returns some non-negative finite number one step below. *)
Definition exact_exp2 {p ex : Z} {Hp : FLX.Prec_gt_0 p} {He : BinarySingleNaN.Prec_lt_emax p ex}
  (LM : Libm (bfloat p ex)) : Prop :=
  (forall e, 3 - ex - p <= e < ex ->
     is_finite (fexp2 (b_of_Z e)) = true /\
     Binary.B2R p ex (fexp2 (b_of_Z e)) = Raux.bpow Zaux.radix2 e) /\
  is_finite (fexp2 (b_of_Z (3 - ex - p - 1))) = true /\
  Binary.Bsign p ex (fexp2 (b_of_Z (3 - ex - p - 1))) = false.

(** Zeros and normal numbers. *)
Definition zero_or_normal {p ex : Z} (x : bfloat p ex) : Prop :=
  match x with
  | Binary.B754_zero _ => True
  | Binary.B754_finite _ m _ _ => 2 ^ (p - 1) <= Zpos m
  | _ => False
  end.
