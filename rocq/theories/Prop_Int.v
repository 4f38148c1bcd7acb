(** * Properties C82 and C83: integer genes *)

From Coq Require Import List Arith ZArith Bool Lia.
From Verif Require Import Base FloatModel Rng GaModel GaComponents PsoModel PsoComponents SpecGa SpecRand SpecInt
  FloatFacts IntFacts.
Import ListNotations.
Local Open Scope Z_scope.

(** C82.  [mn] and [mx] are the MIN and MAX of the integer type; [dbg] says
    whether the build checks overflow. *)
Theorem C82_int_mean mn mx dbg parents lo hi : mn <= 0 -> (2 <= length parents)%nat ->
  Z.of_nat (length parents) <= mx -> sums_fit mn mx parents ->
  Forall (fun x => lo <= x <= hi) parents ->
  exists c, @cross_mean Z (NumOpsInt dbg mn mx) parents = Ret [c] /\
    c = Z.quot (zsum parents) (Z.of_nat (length parents)) /\ lo <= c <= hi.
Proof. exact (int_mean_fits mn mx dbg parents lo hi). Qed.
Print Assumptions C82_int_mean.

(** i32, three parents with a negative sum: rounded toward zero. *)
Example C82_int_mean_example :
  sums_fit (- 2 ^ 31) (2 ^ 31 - 1) [-7; 2; -3] /\ Forall (fun x => -7 <= x <= 2) [-7; 2; -3] /\
  @cross_mean Z (NumOpsInt true (- 2 ^ 31) (2 ^ 31 - 1)) [-7; 2; -3] = Ret [-2].
Proof.
  split; [|split; [|reflexivity]].
  - intros [|[|[|k]]]; cbn [firstn]; try (unfold zsum; cbn [fold_right]; lia).
    rewrite firstn_nil. unfold zsum; cbn [fold_right]; lia.
  - repeat constructor; lia.
Qed.

(** Too few parents, or more than the type can count: panic in every build. *)
Theorem C82_int_mean_count mn mx dbg parents : mn <= 0 <= mx ->
  (length parents < 2)%nat \/ mx < Z.of_nat (length parents) ->
  @cross_mean Z (NumOpsInt dbg mn mx) parents = Panic.
Proof. exact (int_mean_count mn mx dbg parents). Qed.
Print Assumptions C82_int_mean_count.

Example C82_int_mean_count_example :
  @cross_mean Z (NumOpsInt false (-128) 127) [5] = Panic /\
  @cross_mean Z (NumOpsInt false (-128) 127) (repeat 0 128) = Panic.
Proof. split; reflexivity. Qed.

(** With overflow checks, a sum that leaves the type on the way panics. *)
Theorem C82_int_mean_checked mn mx parents : mn <= 0 <= mx -> ~ sums_fit mn mx parents ->
  @cross_mean Z (NumOpsInt true mn mx) parents = Panic.
Proof. intros M H. exact (int_mean_panics mn mx parents M (or_intror (or_introl H))). Qed.
Print Assumptions C82_int_mean_checked.

(** i8: 100 + 100 - 100 fits, 100 + 100 does not. *)
Example C82_int_mean_checked_example :
  ~ sums_fit (-128) 127 [100; 100; -100] /\
  @cross_mean Z (NumOpsInt true (-128) 127) [100; 100; -100] = Panic.
Proof.
  split; [|reflexivity]. intros H. specialize (H 2%nat). unfold zsum in H. cbn [firstn fold_right] in H. lia.
Qed.

(** Without them, the sum is taken modulo the size of the type. *)
Theorem C82_int_mean_wraps mn mx parents : mn <= 0 -> (2 <= length parents)%nat ->
  Z.of_nat (length parents) <= mx ->
  exists s, @cross_mean Z (NumOpsInt false mn mx) parents = Ret [Z.quot s (Z.of_nat (length parents))] /\
    mn <= s <= mx /\ (mx - mn + 1 | s - zsum parents).
Proof. exact (int_mean_wraps mn mx parents). Qed.
Print Assumptions C82_int_mean_wraps.

(** So in a release build the mean of two parents can be outside their range:
    the i8 parents 100 and 100 get the child -28. *)
Theorem C82_int_mean_limit : exists mn mx parents c,
  @cross_mean Z (NumOpsInt false mn mx) parents = Ret [c] /\
  Forall (fun x => mn <= x <= mx) parents /\ Forall (fun x => c < x) parents.
Proof. exists (-128), 127, [100; 100], (-28). split; [reflexivity|]. split; repeat constructor; lia. Qed.
Print Assumptions C82_int_mean_limit.

(** C83. *)
Theorem C83_random_creator_new mn mx size intervals :
  (exists c, @random_creator_new Z (NumGeneInt mn mx) size intervals = Ret c) <->
  ((0 < size)%nat /\ intervals <> [] /\ forall lo hi, In (lo, hi) intervals -> lo < hi).
Proof. exact (random_creator_int_new mn mx size intervals). Qed.
Print Assumptions C83_random_creator_new.

Theorem C83_random_creator_int np mn mx size intervals c r :
  @random_creator_new Z (NumGeneInt mn mx) size intervals = Ret c ->
  (forall lo hi, In (lo, hi) intervals ->
     mn <= lo /\ hi <= mx /\ Z.abs lo <= 2 ^ 53 /\ Z.abs hi <= 2 ^ 53) ->
  exists vs, @random_create Z (NumGeneInt mn mx) np c r = (Ret vs, shift (size * length intervals) r) /\
    length vs = size /\
    forall j v, nth_error vs j = Some v ->
      length v = length intervals /\
      forall k g lo hi, nth_error v k = Some g -> nth_error intervals k = Some (lo, hi) ->
        g = toward_zero (@drawn_incl f64 (FloatIEEE np) _ (b_of_Z lo) (b_of_Z hi) r (j * length intervals + k)) /\
        lo <= g <= hi.
Proof. exact (random_creator_int np mn mx size intervals c r). Qed.
Print Assumptions C83_random_creator_int.

Theorem C83_random_initializer_int np mn mx n intervals r :
  (forall lo hi, In (lo, hi) intervals ->
     mn <= lo /\ lo < hi /\ hi <= mx /\ Z.abs lo <= 2 ^ 53 /\ Z.abs hi <= 2 ^ 53) ->
  exists vs, @random_vectors Z (NumGeneInt mn mx) np intervals n r = (Ret vs, shift (n * length intervals) r) /\
    length vs = n /\
    forall j v, nth_error vs j = Some v ->
      length v = length intervals /\
      forall k g lo hi, nth_error v k = Some g -> nth_error intervals k = Some (lo, hi) ->
        g = toward_zero (@drawn_incl f64 (FloatIEEE np) _ (b_of_Z lo) (b_of_Z hi) r (j * length intervals + k)) /\
        lo <= g <= hi.
Proof. exact (random_vectors_int np mn mx n intervals r). Qed.
Print Assumptions C83_random_initializer_int.

(** u8 genes, whose interval is the whole type: the draws 255.0 (bits
    0x406FE00000000000), 17.5 (0x4031800000000000) and 0.5 (0x3FE0000000000000)
    become 255, 17 and 0. *)
Definition example_draws : rng := fun n =>
  match n with 0%nat => 0x406FE00000000000 | 1%nat => 0x4031800000000000 | _ => 0x3FE0000000000000 end.
Example C83_example :
  exists c, @random_creator_new Z (NumGeneInt 0 255) 3 [(0, 255)] = Ret c /\
    (forall lo hi, In (lo, hi) [(0, 255)] -> 0 <= lo /\ hi <= 255 /\ Z.abs lo <= 2 ^ 53 /\ Z.abs hi <= 2 ^ 53) /\
    match @random_create Z (NumGeneInt 0 255) np64_default c example_draws with
    | (Ret vs, _) => vs = [[255]; [17]; [0]]
    | _ => False
    end.
Proof.
  eexists. split; [reflexivity|]. split.
  - intros lo hi [E|[]]. inversion E; subst. repeat split; lia.
  - vm_compute. reflexivity.
Qed.
Example C83_initializer_example :
  (forall lo hi, In (lo, hi) [(-5, 5); (0, 9)] ->
     - 2 ^ 31 <= lo /\ lo < hi /\ hi <= 2 ^ 31 - 1 /\ Z.abs lo <= 2 ^ 53 /\ Z.abs hi <= 2 ^ 53).
Proof. intros lo hi [E|[E|[]]]; inversion E; subst; repeat split; lia. Qed.

(** Endpoints an f64 cannot hold.  i64::MAX becomes 2^63, which the draw can
    hit and which is not an i64: panic. *)
Theorem C83_i64_max_limit : exists c r,
  @random_creator_new Z (NumGeneInt (- 2 ^ 63) (2 ^ 63 - 1)) 1 [(0, 2 ^ 63 - 1)] = Ret c /\
  fst (@random_create Z (NumGeneInt (- 2 ^ 63) (2 ^ 63 - 1)) np64_default c r) = Panic.
Proof.
  eexists. exists (fun _ => 0x43E0000000000000). split; [reflexivity|]. vm_compute. reflexivity.
Qed.
Print Assumptions C83_i64_max_limit.

(** And 2^53 + 1 becomes 2^53: a gene below the interval. *)
Theorem C83_i64_low_limit : exists c r g,
  @random_creator_new Z (NumGeneInt (- 2 ^ 63) (2 ^ 63 - 1)) 1 [(2 ^ 53 + 1, 2 ^ 54)] = Ret c /\
  fst (@random_create Z (NumGeneInt (- 2 ^ 63) (2 ^ 63 - 1)) np64_default c r) = Ret [[g]] /\ g < 2 ^ 53 + 1.
Proof.
  eexists. exists (fun _ => 0x4340000000000000), (2 ^ 53). split; [reflexivity|]. split; [vm_compute; reflexivity|lia].
Qed.
Print Assumptions C83_i64_low_limit.
