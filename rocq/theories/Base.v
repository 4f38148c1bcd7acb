(** * Base: the execution model shared by all files

    Nothing here models a particular function of the code base; it is the
    vocabulary in which the functions are modelled.  Every Rust construct used
    by the code (panic, [&mut] arguments, trait objects, indexing, [for] and
    [while] loops, [Iterator::min_by]/[max_by], [Vec::retain]) gets its meaning
    here. *)

From Coq Require Import List Arith ZArith Bool Lia.
Import ListNotations.

(** ** Outcomes

    [Ret a]: the call returned [a].  [Panic]: the call panicked (failed
    [assert!], out-of-bounds index, [unwrap] of [None], ...).  [NoFuel]: the
    fuel given to a [while] loop ran out (an artefact of the model: the real
    loop is still running). *)
Inductive outcome (A : Type) : Type :=
| Ret (a : A)
| Panic
| NoFuel.
Arguments Ret {A} a.
Arguments Panic {A}.
Arguments NoFuel {A}.

Definition obind {A B} (o : outcome A) (k : A -> outcome B) : outcome B :=
  match o with Ret a => k a | Panic => Panic | NoFuel => NoFuel end.

Notation "'let!' x ':=' m 'in' k" := (obind m (fun x => k))
  (at level 200, x pattern, m at level 100, k at level 200).

(** [assert!(b)] *)
Definition oassert (b : bool) : outcome unit := if b then Ret tt else Panic.

(** [v[i]]: panics when out of bounds. *)
Definition index {A} (l : list A) (i : nat) : outcome A :=
  match nth_error l i with Some x => Ret x | None => Panic end.

(** [v[i] = x]: panics when out of bounds. *)
Fixpoint update {A} (l : list A) (i : nat) (x : A) : outcome (list A) :=
  match l, i with
  | [], _ => Panic
  | _ :: t, O => Ret (x :: t)
  | h :: t, S i' => let! t' := update t i' x in Ret (h :: t')
  end.

(** [Option::unwrap] *)
Definition unwrap {A} (o : option A) : outcome A :=
  match o with Some x => Ret x | None => Panic end.

(** A loop over a list whose body may panic. *)
Fixpoint ofold {A S} (f : S -> A -> outcome S) (l : list A) (s : S) : outcome S :=
  match l with
  | [] => Ret s
  | x :: t => let! s' := f s x in ofold f t s'
  end.

Fixpoint omap {A B} (f : A -> outcome B) (l : list A) : outcome (list B) :=
  match l with
  | [] => Ret []
  | x :: t => let! y := f x in let! t' := omap f t in Ret (y :: t')
  end.

(** [Vec::retain] with a predicate that may panic. *)
Fixpoint oretain {A} (f : A -> outcome bool) (l : list A) : outcome (list A) :=
  match l with
  | [] => Ret []
  | x :: t => let! b := f x in let! t' := oretain f t in Ret (if b then x :: t' else t')
  end.

(** [Iterator::min_by] (Rust standard library): the accumulated element [x] is
    replaced by the next element [y] exactly when [compare(x, y)] is [Greater],
    so the first of several minimal elements wins. *)
Definition min_by {A} (cmp : A -> A -> outcome comparison) (l : list A)
  : outcome (option A) :=
  match l with
  | [] => Ret None
  | x :: t =>
      let! m := ofold (fun x y => let! c := cmp x y in
                                  Ret (match c with Gt => y | _ => x end)) t x in
      Ret (Some m)
  end.

(** [Iterator::max_by]: [x] is kept exactly when [compare(x, y)] is [Greater],
    so the last of several maximal elements wins. *)
Definition max_by {A} (cmp : A -> A -> outcome comparison) (l : list A)
  : outcome (option A) :=
  match l with
  | [] => Ret None
  | x :: t =>
      let! m := ofold (fun x y => let! c := cmp x y in
                                  Ret (match c with Gt => x | _ => y end)) t x in
      Ret (Some m)
  end.

(** ** Calls into trait objects

    [comp U A]: a method call that may read and change the "rest of the
    program" [U]: the internal state of every trait object (all of them are
    [&mut self] methods), the thread-local random generator, the outside
    world. *)
Definition comp (U A : Type) : Type := U -> outcome A * U.

Definition cret {U A} (a : A) : comp U A := fun u => (Ret a, u).
Definition cpanic {U A} : comp U A := fun u => (Panic, u).
Definition cbind {U A B} (m : comp U A) (k : A -> comp U B) : comp U B :=
  fun u => match m u with
           | (Ret a, u') => k a u'
           | (Panic, u') => (Panic, u')
           | (NoFuel, u') => (NoFuel, u')
           end.
(** A call that does not touch [U]. *)
Definition cpure {U A} (o : outcome A) : comp U A := fun u => (o, u).

Notation "'do' x '<-' m ';;' k" := (cbind m (fun x => k))
  (at level 200, x pattern, m at level 100, k at level 200).

Fixpoint cmapM {U A B} (f : A -> comp U B) (l : list A) : comp U (list B) :=
  match l with
  | [] => cret []
  | x :: t => do y <- f x ;; do t' <- cmapM f t ;; cret (y :: t')
  end.

Fixpoint cfold {U A S} (f : S -> A -> comp U S) (l : list A) (s : S) : comp U S :=
  match l with
  | [] => cret s
  | x :: t => do s' <- f s x ;; cfold f t s'
  end.

(** [n] repetitions of the same call, collecting the results. *)
Fixpoint creplicate {U A} (n : nat) (m : comp U A) : comp U (list A) :=
  match n with
  | O => cret []
  | S n' => do x <- m ;; do t <- creplicate n' m ;; cret (x :: t)
  end.

(** A component that owns a part [S] of [U]. *)
Record lens (U S : Type) := Lens { lget : U -> S; lput : S -> U -> U }.
Arguments Lens {U S} lget lput.
Arguments lget {U S} l u.
Arguments lput {U S} l s u.

Definition zoom {U S A} (l : lens U S) (c : comp S A) : comp U A :=
  fun u => let (o, s') := c (lget l u) in (o, lput l s' u).

Definition lens_id {U} : lens U U := Lens (fun u => u) (fun s _ => s).
Definition lens_fst {A B} : lens (A * B) A := Lens fst (fun a p => (a, snd p)).
Definition lens_snd {A B} : lens (A * B) B := Lens snd (fun b p => (fst p, b)).

(** The laws a lens must satisfy to stand for a field nobody else owns. *)
Record lens_ok {U S} (l : lens U S) : Prop := {
  lens_get_put : forall s u, lget l (lput l s u) = s;
  lens_put_get : forall u, lput l (lget l u) u = u;
  lens_put_put : forall s1 s2 u, lput l s2 (lput l s1 u) = lput l s2 u
}.

(** ** Optimizer runs: state, panics and observable events *)
Definition M (U E A : Type) : Type := U -> outcome A * U * list E.

Definition mret {U E A} (a : A) : M U E A := fun u => (Ret a, u, []).
Definition mbind {U E A B} (m : M U E A) (k : A -> M U E B) : M U E B :=
  fun u => match m u with
           | (Ret a, u1, t1) =>
               match k a u1 with (o, u2, t2) => (o, u2, t1 ++ t2) end
           | (Panic, u1, t1) => (Panic, u1, t1)
           | (NoFuel, u1, t1) => (NoFuel, u1, t1)
           end.
Notation "x '<-' m ';;' k" := (mbind m (fun x => k))
  (at level 61, m at next level, right associativity).
Notation "' p '<-' m ';;' k" := (mbind m (fun p => k))
  (at level 61, p pattern, m at next level, right associativity).
Notation "m ';;;' k" := (mbind m (fun _ => k))
  (at level 61, right associativity).

(** Record an observable event. *)
Definition emit {U E} (e : E) : M U E unit := fun u => (Ret tt, u, [e]).
(** Call a trait object. *)
Definition call {U E A} (c : comp U A) : M U E A :=
  fun u => match c u with (o, u') => (o, u', []) end.
(** A computation that touches neither the trait objects nor the trace. *)
Definition pure {U E A} (o : outcome A) : M U E A := fun u => (o, u, []).
Definition nofuel {U E A} : M U E A := fun u => (NoFuel, u, []).

Fixpoint mmapM {U E A B} (f : A -> M U E B) (l : list A) : M U E (list B) :=
  match l with
  | [] => mret []
  | x :: t => y <- f x ;; t' <- mmapM f t ;; mret (y :: t')
  end.

Fixpoint mfold {U E A S} (f : S -> A -> M U E S) (l : list A) (s : S) : M U E S :=
  match l with
  | [] => mret s
  | x :: t => s' <- f s x ;; mfold f t s'
  end.

Fixpoint mfor {U E A} (f : A -> M U E unit) (l : list A) : M U E unit :=
  match l with
  | [] => mret tt
  | x :: t => f x ;;; mfor f t
  end.

(** Pairs each element with its position: [iter().enumerate()]. *)
Definition enumerate {A} (l : list A) : list (nat * A) := combine (seq 0 (length l)) l.

(** [a - b] on [usize]: below zero, panics when overflow checks are on (debug
    build) and wraps modulo 2^64 otherwise. *)
Definition usize_sub (dbg : bool) (a b : Z) : outcome Z :=
  if (b <=? a)%Z then Ret (a - b)%Z
  else if dbg then Panic else Ret ((a - b) mod 2 ^ 64)%Z.
