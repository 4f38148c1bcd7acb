(** * The ready-made components of the genetic algorithm
    (optlib/src/genetic/{creation,pairing,cross,mutation,pre_birth,selection}) and
    optlib/src/tools/mod.rs *)

From Coq Require Import List Arith ZArith Bool.
From Flocq Require Import IEEE754.Binary.
From Verif Require Import Base FloatModel Rng GaModel.
Import ListNotations.

(** ** Gene types: [G: NumCast + PartialOrd] *)
Class NumGene (G : Type) := {
  ng_lt : G -> G -> bool;               (* a < b *)
  ng_to_f64 : G -> option f64;          (* to_f64() *)
  ng_from_f64 : f64 -> option G         (* G::from(x: f64) *)
}.

(** f64 and f32 genes: conversions between float types always succeed. *)
Definition NumGene64 : NumGene f64 :=
  {| ng_lt := ltb; ng_to_f64 := Some; ng_from_f64 := Some |}.
Definition NumGene32 (np64 : nan_policy 53 1024) (np32 : nan_policy 24 128) : NumGene f32 :=
  {| ng_lt := ltb;
     ng_to_f64 := fun x => Some (fconv (np_of32 np64) x);
     ng_from_f64 := fun x => Some (fconv (np_of64 np32) x) |}.
(** Integer genes, [mn] and [mx] being MIN and MAX of the type ([Z] in range):
    to_f64 rounds, from truncates and is [None] outside the range or for NaN
    (num-traits). *)
Definition in_range (mn mx n : Z) : bool := ((mn <=? n) && (n <=? mx))%Z.
Definition NumGeneInt (mn mx : Z) : NumGene Z :=
  {| ng_lt := Z.ltb;
     ng_to_f64 := fun n => Some (b_of_Z n);
     ng_from_f64 := fun x =>
       if is_finite x
       then let n := Binary.Btrunc 53 1024 x in
            if in_range mn mx n then Some n else None
       else None |}.

(** ** creation/vec_float.rs *)
Section Creation.
  Context {G : Type} {NG : NumGene G} (np64 : nan_policy 53 1024).
  #[local] Instance FT64 : FloatTrait f64 := FloatIEEE np64.

  Record random_creator := RandomCreator {
    rc_population_size : nat;
    rc_intervals : list (G * G)
  }.

  (** [RandomCreator::new] (creation/vec_float.rs:30-43). *)
  Definition random_creator_new (population_size : nat) (intervals : list (G * G))
    : outcome random_creator :=
    let! _ := oassert (0 <? population_size) in
    let! _ := oassert (negb (match intervals with [] => true | _ => false end)) in
    let! _ := ofold (fun _ i => oassert (ng_lt (fst i) (snd i))) intervals tt in
    Ret (RandomCreator population_size intervals).

  (** [G::from(Uniform::new_inclusive(lo.to_f64().unwrap(),
      hi.to_f64().unwrap()).sample(rng)).unwrap()]
      (creation/vec_float.rs:54-58 and tools/mod.rs:31-32). *)
  Definition random_gene (i : G * G) : comp rng G :=
    do between <- cpure (let! lo := unwrap (ng_to_f64 (fst i)) in
                         let! hi := unwrap (ng_to_f64 (snd i)) in
                         uniform_incl lo hi) ;;
    do x <- sample_incl between ;;
    cpure (unwrap (ng_from_f64 x)).

  (** [RandomCreator::create] (creation/vec_float.rs:46-66). *)
  Definition random_create (c : random_creator) : comp rng (list (list G)) :=
    creplicate (rc_population_size c) (cmapM random_gene (rc_intervals c)).

  (** [RandomVectorCreator::create_vec] (optlib/src/tools/mod.rs:23-37). *)
  Definition create_vec (intervals : list (G * G)) : comp rng (list G) :=
    do _ <- cpure (ofold (fun _ i => oassert (ng_lt (fst i) (snd i))) intervals tt) ;;
    cmapM random_gene intervals.
End Creation.
Arguments RandomCreator {G}.
Arguments rc_population_size {G}.
Arguments rc_intervals {G}.

(** ** pairing/mod.rs *)

(** [RandomPairing::get_pairs] (pairing/mod.rs:15-28). *)
Definition random_pairing {T} (p : population T) : comp rng (list (list nat)) :=
  do between <- cpure (uniform_usize 0 (length (individuals p))) ;;
  creplicate (length (individuals p) / 2)
    (do first <- sample_usize between ;;
     do second <- sample_usize between ;;
     cret [first; second]).

(** [Tournament] (pairing/mod.rs:42-75): defaults 2 partners, 1 round. *)
Record tournament := Tournament {
  families_count : nat;
  partners_count : nat;
  rounds_count : nat
}.
Definition tournament_new (families : nat) : tournament := Tournament families 2 1.
Definition set_partners_count (t : tournament) (n : nat) : tournament :=
  Tournament (families_count t) n (rounds_count t).
Definition set_rounds_count (t : tournament) (n : nat) : tournament :=
  Tournament (families_count t) (partners_count t) n.

(** One partner: a random individual defends against [rounds_count] random
    challengers (pairing/mod.rs:88-97). *)
Definition tournament_partner {T} (t : tournament) (p : population T) (between : nat * nat)
  : comp rng nat :=
  do first <- sample_usize between ;;
  cfold (fun best_ind_index (_ : nat) =>
           do challenger <- sample_usize between ;;
           cpure (let! c := index (individuals p) challenger in
                  let! b := index (individuals p) best_ind_index in
                  Ret (if ltb (fitness c) (fitness b) then challenger else best_ind_index)))
        (seq 0 (rounds_count t)) first.

(** [Tournament::get_pairs] (pairing/mod.rs:78-104). *)
Definition tournament_pairs {T} (t : tournament) (p : population T) : comp rng (list (list nat)) :=
  do between <- cpure (uniform_usize 0 (length (individuals p))) ;;
  creplicate (families_count t)
    (creplicate (partners_count t) (tournament_partner t p between)).

(** ** cross/mod.rs: arithmetic crosses *)

(** [G: NumCast + Num + Clone]; additions and divisions of integers may panic
    (overflow checks, division by zero). *)
Class NumOps (G : Type) := {
  no_zero : G;
  no_add : G -> G -> outcome G;
  no_div : G -> G -> outcome G;
  no_of_nat : nat -> option G           (* G::from(n: usize) *)
}.
Definition NumOpsFloat {T} `{FloatTrait T} : NumOps T :=
  {| no_zero := fzero;
     no_add := fun x y => Ret (fadd x y);
     no_div := fun x y => Ret (fdiv x y);
     no_of_nat := fun n => Some (fof_nat n) |}.
(** Integers between [mn] and [mx].  A sum out of range panics when overflow
    checks are on ([dbg], debug build) and wraps otherwise; a quotient out of
    range (MIN / -1) always panics. *)
Definition wrap (mn mx n : Z) : Z := ((n - mn) mod (mx - mn + 1) + mn)%Z.
Definition NumOpsInt (dbg : bool) (mn mx : Z) : NumOps Z :=
  {| no_zero := 0%Z;
     no_add := fun x y => if in_range mn mx (x + y) then Ret (x + y)%Z
                          else if dbg then Panic else Ret (wrap mn mx (x + y));
     no_div := fun x y => if (y =? 0)%Z then Panic
                          else if in_range mn mx (Z.quot x y) then Ret (Z.quot x y) else Panic;
     no_of_nat := fun n => if in_range mn mx (Z.of_nat n) then Some (Z.of_nat n) else None |}.

(** [CrossMean::cross] (cross/mod.rs:51-59). *)
Definition cross_mean {G} `{NumOps G} (parents : list G) : outcome (list G) :=
  let! _ := oassert (2 <=? length parents) in
  let! result := ofold no_add parents no_zero in
  let! n := unwrap (no_of_nat (length parents)) in
  let! r := no_div result n in
  Ret [r].

(** [FloatCrossGeometricMean::cross] (cross/mod.rs:88-94). *)
Definition cross_geometric_mean {T} `{FloatTrait T} `{Libm T} (parents : list T)
  : outcome (list T) :=
  let! _ := oassert (2 <=? length parents) in
  let result := fold_left fmul parents fone in
  Ret [fpowf result (fdiv fone (fof_nat (length parents)))].

(** ** cross/mod.rs: bitwise crosses.

    [dbg] tells whether overflow checks are on (debug build): then shifting by
    at least the width, and [usize] underflow, panic; otherwise the shift amount
    is taken modulo the width and subtraction wraps modulo 2^64. *)
Definition shift_amount (dbg : bool) (w a : Z) : outcome Z :=
  if (a <? w)%Z then Ret a else if dbg then Panic else Ret (a mod w)%Z.

(** [cross_u64], [cross_u32], [cross_u16], [cross_u8] (cross/mod.rs:213-218,
    238-243, 296-301, 353-358) all have this body, with [w] the width;
    [!0 << pos] keeps [w] bits. *)
Definition cross_unsigned (dbg : bool) (w : Z) (parent_1 parent_2 : Z) (pos : nat) : outcome Z :=
  let! a := shift_amount dbg w (Z.of_nat pos) in
  let mask_parent_1 := Z.land (Z.shiftl (Z.ones w) a) (Z.ones w) in
  let! d := usize_sub dbg w (Z.of_nat pos) in
  let! b := shift_amount dbg w d in
  let mask_parent_2 := Z.shiftr (Z.ones w) b in
  Ret (Z.lor (Z.land parent_1 mask_parent_1) (Z.land parent_2 mask_parent_2)).
Definition cross_u64 dbg := cross_unsigned dbg 64.
Definition cross_u32 dbg := cross_unsigned dbg 32.
Definition cross_u16 dbg := cross_unsigned dbg 16.
Definition cross_u8 dbg := cross_unsigned dbg 8.

(** [cross_i16], [cross_i8] (cross/mod.rs:272-277, 329-334).  Signed values are
    integers in [-2^(w-1), 2^(w-1)), bitwise operations are two's complement;
    [!0 << pos] is [-2^pos] as [-1] shifted stays in range. *)
Definition cross_signed (dbg : bool) (w : Z) (parent_1 parent_2 : Z) (pos : nat) : outcome Z :=
  let! a := shift_amount dbg w (Z.of_nat pos) in
  let mask_parent_1 := Z.shiftl (-1) a in
  let! d := usize_sub dbg w (Z.of_nat pos) in
  let! d1 := usize_sub dbg d 1 in
  let! b := shift_amount dbg w d1 in
  let mask_parent_2 := Z.shiftr (2 ^ (w - 1) - 1) b in
  Ret (Z.lor (Z.land parent_1 mask_parent_1) (Z.land parent_2 mask_parent_2)).
Definition cross_i16 dbg := cross_signed dbg 16.
Definition cross_i8 dbg := cross_signed dbg 8.

(** [cross_f32], [cross_f64] (cross/mod.rs:378-384, 404-410). *)
Definition cross_f32 (dbg : bool) (parent_1 parent_2 : f32) (pos : nat) : outcome f32 :=
  let! b := cross_u32 dbg (to_bits32 parent_1) (to_bits32 parent_2) pos in Ret (from_bits32 b).
Definition cross_f64 (dbg : bool) (parent_1 parent_2 : f64) (pos : nat) : outcome f64 :=
  let! b := cross_u64 dbg (to_bits64 parent_1) (to_bits64 parent_2) pos in Ret (from_bits64 b).

(** [CrossBitwise::cross] for f64 and f32 (cross/mod.rs:105-125). *)
Definition cross_bitwise64 (dbg : bool) (parents : list f64) : comp rng (list f64) :=
  do _ <- cpure (oassert (length parents =? 2)) ;;
  do between <- cpure (uniform_usize 1 64) ;;
  do pos <- sample_usize between ;;
  cpure (let! p0 := index parents 0 in
         let! p1 := index parents 1 in
         let! c := cross_f64 dbg p0 p1 pos in Ret [c]).
Definition cross_bitwise32 (dbg : bool) (parents : list f32) : comp rng (list f32) :=
  do _ <- cpure (oassert (length parents =? 2)) ;;
  do between <- cpure (uniform_usize 1 32) ;;
  do pos <- sample_usize between ;;
  cpure (let! p0 := index parents 0 in
         let! p1 := index parents 1 in
         let! c := cross_f32 dbg p0 p1 pos in Ret [c]).

(** [VecCrossAllGenes::cross] (cross/mod.rs:133-151): [single] is the boxed
    cross of one gene. *)
Definition vec_cross_all_genes {U G} (single : list G -> comp U (list G))
  (parents : list (list G)) : comp U (list (list G)) :=
  do _ <- cpure (oassert (length parents =? 2)) ;;
  do parent_1 <- cpure (index parents 0) ;;
  do parent_2 <- cpure (index parents 1) ;;
  do child <- cfold (fun child n =>
                       do g1 <- cpure (index parent_1 n) ;;
                       do g2 <- cpure (index parent_2 n) ;;
                       do new_gene <- single [g1; g2] ;;
                       cret (child ++ new_gene))
                    (seq 0 (length parent_1)) [] ;;
  cret [child].

(** [Float::integer_decode] of num-traits: (mantissa: u64, exponent: i16, sign: i8). *)
Class FloatDecode (T : Type) := integer_decode : T -> Z * Z * Z.
Definition decode_bits (mw ew bias bits : Z) : Z * Z * Z :=
  let sign := if Z.testbit bits (mw + ew) then (-1)%Z else 1%Z in
  let exponent := Z.land (Z.shiftr bits mw) (Z.ones ew) in
  let mantissa := if (exponent =? 0)%Z then Z.shiftl (Z.land bits (Z.ones mw)) 1
                  else Z.lor (Z.land bits (Z.ones mw)) (2 ^ mw) in
  (mantissa, (exponent - (bias + mw))%Z, sign).
#[global] Instance FloatDecode64 : FloatDecode f64 := fun x => decode_bits 52 11 1023 (to_bits64 x).
#[global] Instance FloatDecode32 : FloatDecode f32 := fun x => decode_bits 23 8 127 (to_bits32 x).

(** [FloatCrossExp::cross] (cross/mod.rs:160-191). *)
Definition float_cross_exp {T} `{FloatTrait T} `{Libm T} `{FloatDecode T} (dbg : bool)
  (parents : list T) : comp rng (list T) :=
  do _ <- cpure (oassert (length parents =? 2)) ;;
  do p0 <- cpure (index parents 0) ;;
  do p1 <- cpure (index parents 1) ;;
  let '(mantissa_1, exponent_1, sign_1) := integer_decode p0 in
  let '(mantissa_2, exponent_2, sign_2) := integer_decode p1 in
  do mantissa_between <- cpure (uniform_usize 1 64) ;;
  do exponent_between <- cpure (uniform_usize 1 16) ;;
  do mantissa_pos <- sample_usize mantissa_between ;;
  do exponent_pos <- sample_usize exponent_between ;;
  do mantissa_child <- cpure (cross_u64 dbg mantissa_1 mantissa_2 mantissa_pos) ;;
  do exponent_child <- cpure (cross_i16 dbg exponent_1 exponent_2 exponent_pos) ;;
  do coin <- draw ;;     (* Uniform::new_inclusive(0i8, 1i8) *)
  let sign_child := if (coin mod 2 =? 0)%Z then sign_1 else sign_2 in
  cret [fmul (fmul (fof_Z sign_child) (fof_Z mantissa_child)) (fexp2 (fof_Z exponent_child))].

(** ** mutation/mod.rs *)

(** The loop of [BitwiseMutation::mutation] (mutation/mod.rs:43-48, 57-62):
    [change_gene_count] random bits of the [w]-bit pattern are flipped. *)
Definition flip_bits (w : nat) (change_gene_count : nat) (bits : Z) : comp rng Z :=
  do between <- cpure (uniform_usize 0 w) ;;
  cfold (fun bit_value (_ : nat) =>
           do pos <- sample_usize between ;;
           cret (Z.lxor bit_value (Z.shiftl 1 (Z.of_nat pos))))
        (seq 0 change_gene_count) bits.
(** [BitwiseMutation::mutation] for f64 and f32 (mutation/mod.rs:38-64). *)
Definition bitwise_mutation64 (change_gene_count : nat) (gene : f64) : comp rng f64 :=
  do b <- flip_bits 64 change_gene_count (to_bits64 gene) ;; cret (from_bits64 b).
Definition bitwise_mutation32 (change_gene_count : nat) (gene : f32) : comp rng f32 :=
  do b <- flip_bits 32 change_gene_count (to_bits32 gene) ;; cret (from_bits32 b).

(** [VecMutation::mutation] (mutation/mod.rs:82-97): [single] is the boxed
    mutation of one gene, [L] selects the thread's random generator. *)
Definition vec_mutation {U G} (np64 : nan_policy 53 1024) (L : lens U rng)
  (probability : f64) (single : G -> comp U G) (chromosomes : list G) : comp U (list G) :=
  do mutate <- cpure (uniform_excl (FT := FloatIEEE np64) (b_of_Z 0) (b_of_Z 100)) ;;
  cmapM (fun chromo =>
           do r <- zoom L (sample_excl (FT := FloatIEEE np64) mutate) ;;
           if ltb r probability then single chromo else cret chromo)
        chromosomes.

(** ** pre_birth/vec_float.rs and selection/vec_float.rs *)
Section Intervals.
  Context {T : Type} {FT : FloatTrait T}.

  (** The test made on each gene (pre_birth/vec_float.rs:36-40,
      selection/vec_float.rs:31-40): true when no gene is rejected.  [zip]
      stops at the shorter list. *)
  Definition genes_ok (intervals : list (T * T)) (chromosomes : list T) : bool :=
    forallb (fun ci => let '(chromo, interval) := ci in
                       negb (negb (ffinite chromo) || flt chromo (fst interval)
                             || flt (snd interval) chromo))
            (combine chromosomes intervals).

  (** [check_chromo] and [pre_birth] of pre_birth::CheckChromoInterval
      (pre_birth/vec_float.rs:26-44). *)
  Definition check_chromo (intervals : list (T * T)) (chromosomes : list T) : outcome bool :=
    let! _ := oassert (length chromosomes =? length intervals) in
    Ret (genes_ok intervals chromosomes).
  Definition pre_birth_interval (intervals : list (T * T)) (_ : population (list T))
    (new_chromosomes : list (list T)) : outcome (list (list T)) :=
    oretain (check_chromo intervals) new_chromosomes.

  (** selection::CheckChromoInterval::kill (selection/vec_float.rs:27-42). *)
  Definition selection_interval (intervals : list (T * T)) (p : population (list T))
    : outcome (list (individual (list T))) :=
    omap (fun i =>
            let! _ := oassert (length (chromosomes i) =? length intervals) in
            Ret (if genes_ok intervals (chromosomes i) then i else kill i))
         (individuals p).
End Intervals.

(** ** selection/mod.rs *)
Section Selection.
  Context {T : Type}.

  (** [KillFitnessNaN::kill] (selection/mod.rs:15-21). *)
  Definition kill_fitness_nan (p : population T) : list (individual T) :=
    map (fun i => if is_finite (fitness i) then i else kill i) (individuals p).

  (** [population[n].get_fitness()] *)
  Definition fitness_at (l : list (individual T)) (n : nat) : outcome f64 :=
    let! i := index l n in Ret (fitness i).

  (** State of the scan of [kill_worst]: (kill_list, best_index, best_fitness). *)
  Definition kw_state : Type := list nat * nat * f64.

  (** Find the item of [kill_list] with the best fitness (selection/mod.rs:80-88). *)
  Definition kw_rescan (l : list (individual T)) (kill_list : list nat) : outcome kw_state :=
    let! k0 := index kill_list 0 in
    let! f0 := fitness_at l k0 in
    let! r := ofold (fun '(best_index, best_fitness) m =>
                       let! km := index kill_list m in
                       let! fm := fitness_at l km in
                       Ret (if ltb fm best_fitness then (m, fm) else (best_index, best_fitness)))
                    (seq 1 (length kill_list - 1)) (0, f0) in
    Ret (kill_list, fst r, snd r).

  (** Body of the main loop (selection/mod.rs:66-91). *)
  Definition kw_step (l : list (individual T)) (count : nat) (s : kw_state) (n : nat)
    : outcome kw_state :=
    let '(kill_list, best_index, best_fitness) := s in
    let! i := index l n in
    if negb (alive i) then Ret s
    else if length kill_list <? count then
      let kill_list' := kill_list ++ [n] in
      Ret (kill_list',
           if ltb (fitness i) best_fitness then length kill_list' - 1 else best_index,
           best_fitness)
    else if ltb best_fitness (fitness i) then
      let! kill_list' := update kill_list best_index n in
      kw_rescan l kill_list'
    else Ret s.

  (** [kill_worst] (selection/mod.rs:57-96). *)
  Definition kill_worst (l : list (individual T)) (count : nat) : outcome (list (individual T)) :=
    let! f0 := fitness_at l 0 in
    let! s := ofold (kw_step l count) (seq 1 (length l - 1)) ([0], 0, f0) in
    let '(kill_list, _, _) := s in
    ofold (fun l' n => let! i := index l' n in update l' n (kill i)) kill_list l.

  (** [LimitPopulation::kill] (selection/mod.rs:46-53). *)
  Definition limit_population (max_count : nat) (p : population T) : outcome (list (individual T)) :=
    let alive_count := len_alive (individuals p) in
    if max_count <? alive_count
    then kill_worst (individuals p) (alive_count - max_count)
    else Ret (individuals p).
End Selection.
