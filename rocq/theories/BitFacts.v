(** * Bitwise crosses and mutations *)

From Coq Require Import List Arith ZArith Bool Lia.
From Flocq Require Import IEEE754.Bits.
From Verif Require Import Base Logic FloatModel Rng GaModel GaComponents SpecRand SpecBits FloatFacts
  RandFacts.
Import ListNotations.
Local Open Scope Z_scope.

(** ** Numbers from their bits *)
Lemma unsigned_bits w z : 0 <= w -> (forall i, w <= i -> Z.testbit z i = false) -> unsigned w z.
Proof.
  intros Hw H. assert (E : z = z mod 2 ^ w).
  { apply Z.bits_inj'. intros i Hi. destruct (Z_lt_le_dec i w).
    - now rewrite Z.mod_pow2_bits_low.
    - rewrite Z.mod_pow2_bits_high by lia. now apply H. }
  unfold unsigned. rewrite E. apply Z.mod_pos_bound. apply Z.pow_pos_nonneg; lia.
Qed.

Lemma unsigned_high w z i : unsigned w z -> w <= i -> Z.testbit z i = false.
Proof.
  intros [H0 H] Hi. destruct (Z.eq_dec z 0) as [->|N]; [apply Z.bits_0|].
  apply Z.bits_above_log2; [lia|]. apply Z.log2_lt_pow2; [lia|].
  eapply Z.lt_le_trans; [exact H|]. apply Z.pow_le_mono_r; lia.
Qed.

Lemma signed_bits w z : 1 <= w -> (forall i, w <= i -> Z.testbit z i = Z.testbit z (w - 1)) -> signed w z.
Proof.
  intros Hw H.
  assert (B : Z.shiftr z (w - 1) = 0 \/ Z.shiftr z (w - 1) = -1).
  { destruct (Z.testbit z (w - 1)) eqn:E; [right|left]; apply Z.bits_inj'; intros i Hi;
      rewrite Z.shiftr_spec by lia.
    - rewrite Z.bits_m1 by lia. destruct (Z.eq_dec i 0) as [->|]; [simpl; auto|]. apply H. lia.
    - rewrite Z.bits_0. destruct (Z.eq_dec i 0) as [->|]; [simpl; auto|]. apply H. lia. }
  rewrite Z.shiftr_div_pow2 in B by lia.
  assert (P : 0 < 2 ^ (w - 1)) by (apply Z.pow_pos_nonneg; lia).
  pose proof (Z.div_mod z (2 ^ (w - 1)) ltac:(lia)). pose proof (Z.mod_pos_bound z _ P).
  unfold signed. destruct B as [B|B]; rewrite B in *; lia.
Qed.

Lemma signed_high w z i : 1 <= w -> signed w z -> w - 1 <= i -> Z.testbit z i = (z <? 0).
Proof.
  intros Hw [H1 H2] Hi.
  assert (P : 2 ^ (w - 1) <= 2 ^ i) by (apply Z.pow_le_mono_r; lia).
  destruct (Z.ltb_spec z 0).
  - replace z with (Z.lnot (Z.lnot z)) by apply Z.lnot_involutive.
    rewrite Z.lnot_spec by lia. 
    assert (L : unsigned i (Z.lnot z)) by (unfold unsigned, Z.lnot; lia).
    now rewrite (unsigned_high i).
  - apply (unsigned_high i); [|lia]. unfold unsigned. lia.
Qed.

Lemma testbit_ones w i : 0 <= w -> 0 <= i -> Z.testbit (Z.ones w) i = (i <? w).
Proof.
  intros. destruct (Z.ltb_spec i w); [apply Z.ones_spec_low|apply Z.ones_spec_high]; lia.
Qed.

(** ** Single-point crosses *)
Lemma cross_unsigned_bits dbg w p1 p2 pos :
  0 < Z.of_nat pos < w -> exists z,
    cross_unsigned dbg w p1 p2 pos = Ret z /\
    forall i, 0 <= i ->
      Z.testbit z i = if i <? Z.of_nat pos then Z.testbit p2 i else (Z.testbit p1 i && (i <? w))%bool.
Proof.
  intros H. unfold cross_unsigned, shift_amount, usize_sub.
  destruct (Z.ltb_spec (Z.of_nat pos) w); [|lia]. cbn [obind].
  destruct (Z.leb_spec (Z.of_nat pos) w); [|lia]. cbn [obind].
  destruct (Z.ltb_spec (w - Z.of_nat pos) w); [|lia]. cbn [obind].
  eexists. split; [reflexivity|]. intros i Hi.
  rewrite Z.lor_spec, !Z.land_spec, Z.shiftr_spec, testbit_ones, testbit_ones by lia.
  destruct (Z.ltb_spec i (Z.of_nat pos)).
  - rewrite Z.shiftl_spec_low by lia. rewrite andb_false_l, andb_false_r, orb_false_l.
    destruct (Z.ltb_spec (i + (w - Z.of_nat pos)) w); [|lia]. apply andb_true_r.
  - rewrite Z.shiftl_spec, testbit_ones by lia.
    destruct (Z.ltb_spec (i - Z.of_nat pos) w), (Z.ltb_spec i w); try lia;
      destruct (Z.ltb_spec (i + (w - Z.of_nat pos)) w); try lia;
      now rewrite ?andb_true_r, ?andb_false_r, ?orb_false_r.
Qed.

Lemma cross_unsigned_spec dbg w p1 p2 pos :
  unsigned w p1 -> unsigned w p2 ->
  (0 < Z.of_nat pos < w ->
   exists z, cross_unsigned dbg w p1 p2 pos = Ret z /\ unsigned w z /\ crossed w p1 p2 (Z.of_nat pos) z) /\
  (pos = 0%nat \/ w <= Z.of_nat pos -> cross_unsigned true w p1 p2 pos = Panic).
Proof.
  intros H1 H2. split.
  - intros H. destruct (cross_unsigned_bits dbg w p1 p2 pos H) as [z [E B]].
    exists z. split; [exact E|]. split.
    + apply unsigned_bits; [lia|]. intros i Hi. rewrite B by lia.
      destruct (Z.ltb_spec i (Z.of_nat pos)); [lia|].
      rewrite (unsigned_high w p1) by auto. reflexivity.
    + intros i Hi. rewrite B by lia. destruct (Z.ltb_spec i (Z.of_nat pos)); auto.
      destruct (Z.ltb_spec i w); [apply andb_true_r|lia].
  - unfold cross_unsigned, shift_amount, usize_sub. unfold unsigned in *. intros [->|H].
    + destruct (Z.ltb_spec (Z.of_nat 0) w); [|reflexivity]. cbn [obind].
      destruct (Z.leb_spec (Z.of_nat 0) w); [|reflexivity]. cbn [obind].
      destruct (Z.ltb_spec (w - Z.of_nat 0) w); [lia|reflexivity].
    + destruct (Z.ltb_spec (Z.of_nat pos) w); [lia|reflexivity].
Qed.

Lemma cross_signed_spec dbg w p1 p2 pos :
  1 <= w -> signed w p1 -> signed w p2 ->
  (Z.of_nat pos < w ->
   exists z, cross_signed dbg w p1 p2 pos = Ret z /\ signed w z /\ crossed w p1 p2 (Z.of_nat pos) z) /\
  (w <= Z.of_nat pos -> cross_signed true w p1 p2 pos = Panic).
Proof.
  intros Hw H1 H2. split.
  - intros H. unfold cross_signed, shift_amount, usize_sub.
    destruct (Z.ltb_spec (Z.of_nat pos) w); [|lia]. cbn [obind].
    destruct (Z.leb_spec (Z.of_nat pos) w); [|lia]. cbn [obind].
    destruct (Z.leb_spec 1 (w - Z.of_nat pos)); [|lia]. cbn [obind].
    destruct (Z.ltb_spec (w - Z.of_nat pos - 1) w); [|lia]. cbn [obind].
    set (z := Z.lor _ _).
    assert (B : forall i, 0 <= i ->
       Z.testbit z i = if i <? Z.of_nat pos then Z.testbit p2 i else Z.testbit p1 i).
    { intros i Hi. unfold z.
      replace (2 ^ (w - 1) - 1) with (Z.ones (w - 1)) by (rewrite Z.ones_equiv; lia).
      rewrite Z.lor_spec, !Z.land_spec, Z.shiftr_spec, testbit_ones by lia.
      destruct (Z.ltb_spec i (Z.of_nat pos)).
      - rewrite Z.shiftl_spec_low by lia. rewrite andb_false_r, orb_false_l.
        destruct (Z.ltb_spec (i + (w - Z.of_nat pos - 1)) (w - 1)); [|lia]. apply andb_true_r.
      - rewrite Z.shiftl_spec, Z.bits_m1 by lia. 
        destruct (Z.ltb_spec (i + (w - Z.of_nat pos - 1)) (w - 1)); [lia|].
        now rewrite andb_true_r, andb_false_r, orb_false_r. }
    exists z. split; [reflexivity|]. split.
    + apply signed_bits; [lia|]. intros i Hi. rewrite !B by lia.
      destruct (Z.ltb_spec i (Z.of_nat pos)); [lia|].
      destruct (Z.ltb_spec (w - 1) (Z.of_nat pos)); [lia|].
      rewrite !(signed_high w p1) by (auto; lia). reflexivity.
    + intros i Hi. apply B. lia.
  - unfold cross_signed, shift_amount. intros H.
    destruct (Z.ltb_spec (Z.of_nat pos) w); [lia|reflexivity].
Qed.

(** A number crossed with itself. *)
Lemma crossed_self_unsigned w p pos z : unsigned w p -> unsigned w z -> crossed w p p pos z -> z = p.
Proof.
  intros H1 H2 C. apply Z.bits_inj'. intros i Hi. destruct (Z_lt_le_dec i w).
  - rewrite C by lia. now destruct (i <? pos).
  - now rewrite (unsigned_high w z), (unsigned_high w p).
Qed.
Lemma crossed_self_signed w p pos z : 1 <= w -> signed w p -> signed w z -> crossed w p p pos z -> z = p.
Proof.
  intros Hw H1 H2 C.
  assert (S : Z.testbit z (w - 1) = Z.testbit p (w - 1)).
  { rewrite C by lia. now destruct (w - 1 <? pos). }
  apply Z.bits_inj'. intros i Hi. destruct (Z_lt_le_dec i w).
  - rewrite C by lia. now destruct (i <? pos).
  - rewrite (signed_high w z), (signed_high w p) by (auto; lia).
    rewrite (signed_high w z), (signed_high w p) in S by (auto; lia). exact S.
Qed.

(** ** Floats *)
Lemma to_from_bits64 z : unsigned 64 z -> to_bits64 (from_bits64 z) = z.
Proof.
  intros H. exact (Bits.bits_of_binary_float_of_bits 52 11 eq_refl eq_refl eq_refl z H).
Qed.
Lemma to_from_bits32 z : unsigned 32 z -> to_bits32 (from_bits32 z) = z.
Proof.
  intros H. exact (Bits.bits_of_binary_float_of_bits 23 8 eq_refl eq_refl eq_refl z H).
Qed.
Lemma to_bits64_range x : unsigned 64 (to_bits64 x).
Proof. exact (Bits.bits_of_binary_float_range 52 11 eq_refl eq_refl x). Qed.
Lemma to_bits32_range x : unsigned 32 (to_bits32 x).
Proof. exact (Bits.bits_of_binary_float_range 23 8 eq_refl eq_refl x). Qed.

Lemma cross_f64_spec dbg p1 p2 pos :
  ((0 < pos < 64)%nat -> exists c, cross_f64 dbg p1 p2 pos = Ret c /\
     crossed 64 (to_bits64 p1) (to_bits64 p2) (Z.of_nat pos) (to_bits64 c)) /\
  (pos = 0%nat \/ (64 <= pos)%nat -> cross_f64 true p1 p2 pos = Panic).
Proof.
  destruct (cross_unsigned_spec dbg 64 _ _ pos (to_bits64_range p1) (to_bits64_range p2)) as [A B].
  split; intros H.
  - destruct A as [z [E [R C]]]; [lia|]. exists (from_bits64 z). unfold cross_f64, cross_u64.
    rewrite E. split; [reflexivity|]. now rewrite to_from_bits64.
  - unfold cross_f64, cross_u64. rewrite B by lia. reflexivity.
Qed.
Lemma cross_f32_spec dbg p1 p2 pos :
  ((0 < pos < 32)%nat -> exists c, cross_f32 dbg p1 p2 pos = Ret c /\
     crossed 32 (to_bits32 p1) (to_bits32 p2) (Z.of_nat pos) (to_bits32 c)) /\
  (pos = 0%nat \/ (32 <= pos)%nat -> cross_f32 true p1 p2 pos = Panic).
Proof.
  destruct (cross_unsigned_spec dbg 32 _ _ pos (to_bits32_range p1) (to_bits32_range p2)) as [A B].
  split; intros H.
  - destruct A as [z [E [R C]]]; [lia|]. exists (from_bits32 z). unfold cross_f32, cross_u32.
    rewrite E. split; [reflexivity|]. now rewrite to_from_bits32.
  - unfold cross_f32, cross_u32. rewrite B by lia. reflexivity.
Qed.

Lemma cross_bitwise64_spec dbg parents r :
  (forall p1 p2, parents = [p1; p2] -> exists c,
     cross_bitwise64 dbg parents r = (Ret [c], shift 1 r) /\
     crossed 64 (to_bits64 p1) (to_bits64 p2) (Z.of_nat (drawn r 1 64 0)) (to_bits64 c) /\
     (0 < drawn r 1 64 0 < 64)%nat /\ (p1 = p2 -> c = p1)) /\
  (length parents <> 2%nat -> cross_bitwise64 dbg parents r = (Panic, r)).
Proof.
  split.
  - intros p1 p2 ->. pose proof (drawn_bound r 1 64 0 ltac:(lia)) as D.
    destruct (proj1 (cross_f64_spec dbg p1 p2 (drawn r 1 64 0)) ltac:(lia)) as [c [E C]].
    exists c. split.
    + unfold cross_bitwise64. cbn [length Nat.eqb oassert]. unfold cbind at 1, cpure at 1.
      unfold uniform_usize. cbn [Nat.ltb Nat.leb]. unfold cbind at 1, cpure at 1.
      unfold cbind at 1. rewrite consumes_usize. unfold cpure. cbn [index nth_error obind].
      unfold index. cbn [nth_error obind]. rewrite E. reflexivity.
    + split; [exact C|]. split; [lia|]. intros <-. apply to_bits64_inj.
      eapply crossed_self_unsigned; [apply to_bits64_range|apply to_bits64_range|exact C].
  - intros H. unfold cross_bitwise64. apply Nat.eqb_neq in H. rewrite H. reflexivity.
Qed.
Lemma cross_bitwise32_spec dbg parents r :
  (forall p1 p2, parents = [p1; p2] -> exists c,
     cross_bitwise32 dbg parents r = (Ret [c], shift 1 r) /\
     crossed 32 (to_bits32 p1) (to_bits32 p2) (Z.of_nat (drawn r 1 32 0)) (to_bits32 c) /\
     (0 < drawn r 1 32 0 < 32)%nat /\ (p1 = p2 -> c = p1)) /\
  (length parents <> 2%nat -> cross_bitwise32 dbg parents r = (Panic, r)).
Proof.
  split.
  - intros p1 p2 ->. pose proof (drawn_bound r 1 32 0 ltac:(lia)) as D.
    destruct (proj1 (cross_f32_spec dbg p1 p2 (drawn r 1 32 0)) ltac:(lia)) as [c [E C]].
    exists c. split.
    + unfold cross_bitwise32. cbn [length Nat.eqb oassert]. unfold cbind at 1, cpure at 1.
      unfold uniform_usize. cbn [Nat.ltb Nat.leb]. unfold cbind at 1, cpure at 1.
      unfold cbind at 1. rewrite consumes_usize. unfold cpure.
      unfold index. cbn [nth_error obind]. rewrite E. reflexivity.
    + split; [exact C|]. split; [lia|]. intros <-. apply to_bits32_inj.
      eapply crossed_self_unsigned; [apply to_bits32_range|apply to_bits32_range|exact C].
  - intros H. unfold cross_bitwise32. apply Nat.eqb_neq in H. rewrite H. reflexivity.
Qed.
