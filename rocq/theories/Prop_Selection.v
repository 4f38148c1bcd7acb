(** * Properties C10-C14: selections and pre-births *)

From Coq Require Import List Arith ZArith Bool Lia Reals.
From Flocq Require Import Core.FLX IEEE754.BinarySingleNaN.
From Verif Require Import Base Logic FloatModel GaModel GaComponents SpecGa SpecSel FloatFacts
  SelFacts SelProofs KillFacts DemoGa.
Import ListNotations.

(** Concrete floats and individuals for the examples. *)
Definition two : f64 := @Binary.B754_finite 53 1024 false 4503599627370496 (-51) eq_refl.
Definition nine : f64 := @Binary.B754_finite 53 1024 false 5066549580791808 (-49) eq_refl.
Definition ten : f64 := @Binary.B754_finite 53 1024 false 5629499534213120 (-49) eq_refl.
Definition ind (v : f64) (a : bool) : individual Z := Individual 0%Z v a.

(** ** C10: LimitPopulation.

    Full statement: at most [max_count] stay alive (exactly [max_count] if there
    were more).  Missing: when the first individual is already dead one too many
    may stay alive ([C10_limit_exceeded_refuted]). *)
Theorem C10_limit_population_partial :
  forall (T : Type) max (p : population T),
    exists l', limit_population max p = Ret l' /\ Forall2 killed_from (individuals p) l' /\
      (live (individuals p) <= max -> l' = individuals p) /\
      (max < live (individuals p) -> max <= live l' <= max + 1) /\
      (max < live (individuals p) -> first_alive (individuals p) -> live l' = max).
Proof. exact @limit_population_spec. Qed.
Print Assumptions C10_limit_population_partial.
Theorem C10_limit_exceeded_refuted :
  exists (p : population Z) max l',
    limit_population max p = Ret l' /\ max < live (individuals p) /\ live l' = max + 1.
Proof.
  exists (Population [ind ten false; ind two true; ind nine true] None None 0), 1.
  eexists. split; [vm_compute; reflexivity|]. vm_compute. lia.
Qed.
Print Assumptions C10_limit_exceeded_refuted.

Example C10_nonvacuous :
  let l := [ind ten true; ind two true; ind nine false; ind nine true] in
  first_alive l /\ 1 < live l /\
  exists l', limit_population 1 (Population l None None 0) = Ret l' /\ live l' = 1.
Proof.
  split; [repeat eexists|]. split; [vm_compute; lia|].
  eexists. split; vm_compute; reflexivity.
Qed.

(** ** C11: kill_worst.

    Full statement: exactly [count] live individuals are killed and each has a
    fitness at least that of every survivor.  Missing: it is false in general
    ([C11_kill_worst_order_refuted], [C11_kill_worst_count_refuted]); proved are
    the exact number when the first individual is alive, the order up to the
    fitness of the first individual, the full order when nobody that fills the
    kill list is better than the first individual (so for [count = 1] and for
    a best first individual), and that some worst individual is always killed. *)
Theorem C11_kill_worst_panics :
  forall (T : Type) (l : list (individual T)) count, kill_worst l count = Panic <-> l = [].
Proof. exact @kill_worst_panics. Qed.
Print Assumptions C11_kill_worst_panics.
Theorem C11_kill_worst_only_kills :
  forall (T : Type) (l : list (individual T)) count l',
    kill_worst l count = Ret l' -> Forall2 killed_from l l'.
Proof. exact @kill_worst_only_kills. Qed.
Print Assumptions C11_kill_worst_only_kills.
Theorem C11_kill_worst_count_partial :
  forall (T : Type) (l : list (individual T)) count,
    first_alive l -> 1 <= count <= live l ->
    exists l', kill_worst l count = Ret l' /\ live l' + count = live l.
Proof. exact @kill_worst_count. Qed.
Print Assumptions C11_kill_worst_count_partial.
(** For every [count]; without a live first individual the number is at most one off. *)
Theorem C11_kill_worst_exact_count_partial :
  forall (T : Type) (l : list (individual T)) count, first_alive l ->
    exists l', kill_worst l count = Ret l' /\ live l' + Nat.max 1 (Nat.min count (live l)) = live l.
Proof. exact @kill_worst_exact. Qed.
Print Assumptions C11_kill_worst_exact_count_partial.
Theorem C11_kill_worst_count_bound_partial :
  forall (T : Type) (l : list (individual T)) count, l <> [] ->
    exists l', kill_worst l count = Ret l' /\
      live l <= live l' + Nat.max 1 count /\ live l' + Nat.min count (live l) <= live l + 1.
Proof. exact @kill_worst_count_bound. Qed.
Print Assumptions C11_kill_worst_count_bound_partial.
Theorem C11_kill_worst_order_partial :
  forall (T : Type) (l : list (individual T)) count l',
    no_nan l -> kill_worst l count = Ret l' ->
    forall n s m k, survives_at l l' n s -> killed_at l l' m k ->
      leb (fitness s) (fitness k) = true \/
      exists f, nth_error l 0 = Some f /\ leb (fitness s) (fitness f) = true.
Proof. exact @kill_worst_order. Qed.
Print Assumptions C11_kill_worst_order_partial.
Theorem C11_kill_worst_kills_a_worst_partial :
  forall (T : Type) (l : list (individual T)) count l',
    no_nan l -> first_alive l -> kill_worst l count = Ret l' ->
    exists m k, killed_at l l' m k /\
      forall n s, nth_error l n = Some s -> alive s = true -> leb (fitness s) (fitness k) = true.
Proof. exact @kill_worst_kills_a_worst. Qed.
Print Assumptions C11_kill_worst_kills_a_worst_partial.
Theorem C11_kill_worst_one_partial :
  forall (T : Type) (l l' : list (individual T)),
    no_nan l -> first_alive l -> kill_worst l 1 = Ret l' ->
    forall n s m k, survives_at l l' n s -> killed_at l l' m k ->
      leb (fitness s) (fitness k) = true.
Proof. exact @kill_worst_one. Qed.
Print Assumptions C11_kill_worst_one_partial.
Theorem C11_kill_worst_first_best_partial :
  forall (T : Type) (l : list (individual T)) count l' f t,
    no_nan l -> l = f :: t ->
    (forall n s, nth_error l n = Some s -> alive s = true -> leb (fitness f) (fitness s) = true) ->
    kill_worst l count = Ret l' ->
    forall n s m k, survives_at l l' n s -> killed_at l l' m k ->
      leb (fitness s) (fitness k) = true.
Proof. exact @kill_worst_first_best. Qed.
Print Assumptions C11_kill_worst_first_best_partial.
(** Both hypotheses above are special cases: only those live individuals which
    fill the kill list may not be better than the first one. *)
Theorem C11_kill_worst_filled_partial :
  forall (T : Type) (l : list (individual T)) count l' f t,
    no_nan l -> l = f :: t ->
    (forall n s, nth_error t n = Some s -> alive s = true -> 1 + live (firstn n t) < count ->
       leb (fitness f) (fitness s) = true) ->
    kill_worst l count = Ret l' ->
    forall n s m k, survives_at l l' n s -> killed_at l l' m k ->
      leb (fitness s) (fitness k) = true.
Proof. exact @kill_worst_first_of_filled. Qed.
Print Assumptions C11_kill_worst_filled_partial.
(** Fitness 10, 2, 9 and [count = 2]: the best (2) is killed and 9 survives. *)
Theorem C11_kill_worst_order_refuted :
  exists (l : list (individual Z)) count l' n s m k,
    first_alive l /\ no_nan l /\ kill_worst l count = Ret l' /\
    survives_at l l' n s /\ killed_at l l' m k /\ ltb (fitness k) (fitness s) = true.
Proof.
  exists [ind ten true; ind two true; ind nine true], 2. eexists.
  exists 2, (ind nine true), 1, (ind two true).
  split; [repeat eexists|]. split.
  { intros [|[|[|[|n]]]] i H; inversion H; reflexivity. }
  split; [vm_compute; reflexivity|]. split; [repeat split|]. split; [|vm_compute; reflexivity].
  split; [reflexivity|]. split; [reflexivity|]. eexists. split; reflexivity.
Qed.
Print Assumptions C11_kill_worst_order_refuted.
(** [count = 0] kills one; a dead first individual is killed again instead of a
    live one. *)
Theorem C11_kill_worst_count_refuted :
  exists (l1 l1' l2 l2' : list (individual Z)),
    kill_worst l1 0 = Ret l1' /\ live l1 = 2 /\ live l1' = 1 /\
    kill_worst l2 1 = Ret l2' /\ live l2 = 2 /\ live l2' = 2.
Proof.
  exists [ind ten true; ind two true]. eexists.
  exists [ind ten false; ind two true; ind nine true]. eexists.
  repeat split; try (vm_compute; reflexivity).
Qed.
Print Assumptions C11_kill_worst_count_refuted.

Example C11_filled_nonvacuous :
  let t := [ind ten true; ind two true; ind ten true] in
  (forall n s, nth_error t n = Some s -> alive s = true -> 1 + live (firstn n t) < 2 -> leb nine (fitness s) = true) /\
  exists l', kill_worst (ind nine true :: t) 2 = Ret l' /\ map alive l' = [true; false; true; false].
Proof.
  split.
  - intros [|[|[|[|n]]]] s H _ L; inversion H; try (vm_compute in L; lia). vm_compute. reflexivity.
  - eexists. split; vm_compute; reflexivity.
Qed.

Example C11_nonvacuous :
  let l := [ind two true; ind ten true; ind nine false; ind nine true] in
  first_alive l /\ no_nan l /\ 1 <= 2 <= live l /\
  (forall n s, nth_error l n = Some s -> alive s = true -> leb two (fitness s) = true) /\
  exists l', kill_worst l 2 = Ret l' /\ map alive l' = [true; false; false; false].
Proof.
  split; [repeat eexists|]. split.
  { intros [|[|[|[|[|n]]]]] i H; inversion H; reflexivity. }
  split; [vm_compute; lia|]. split.
  { intros [|[|[|[|[|n]]]]] i H; inversion H; try discriminate; intros _; vm_compute; reflexivity. }
  eexists. split; vm_compute; reflexivity.
Qed.

(** ** C12: KillFitnessNaN kills exactly the non-finite. *)
Theorem C12_kill_fitness_nan :
  forall (T : Type) (p : population T),
    Forall2 (fun i j => chromosomes j = chromosomes i /\ fitness j = fitness i /\
               alive j = (alive i && is_finite (fitness i))%bool)
            (individuals p) (kill_fitness_nan p).
Proof. exact @kill_fitness_nan_spec. Qed.
Print Assumptions C12_kill_fitness_nan.
(** With it among selections that only kill, survivors are finite, *)
Theorem C12_survivors_finite :
  forall (U T : Type) (cfg : ga_config U T) p u p' u' g,
    In (fun p => cret (kill_fitness_nan p)) (ga_selections cfg) /\
    Forall selection_kills (ga_selections cfg) ->
    ga_iteration cfg p u = (Ret p', u', g) ->
    forall i, In i (individuals p') -> is_finite (fitness i) = true.
Proof. exact @iteration_finite. Qed.
Print Assumptions C12_survivors_finite.
(** and so is every returned goal value, after any history. *)
Theorem C12_results_finite :
  forall (U T : Type) (ok : ga_config U T -> Prop) p h cfg fuel u x v p' u' t,
    (forall cfg, ok cfg ->
       In (fun p => cret (kill_fitness_nan p)) (ga_selections cfg) /\
       Forall selection_kills (ga_selections cfg)) ->
    ga_reach ok p h -> ok cfg ->
    ga_find_min cfg fuel p u = (Ret (Some (x, v), p'), u', t) \/
    ga_next_iterations cfg fuel p u = (Ret (Some (x, v), p'), u', t) -> is_finite v = true.
Proof. exact @results_finite. Qed.
Print Assumptions C12_results_finite.

Example C12_nonvacuous :
  In (fun p => cret (kill_fitness_nan p)) (ga_selections demo) /\
  Forall selection_kills (ga_selections demo) /\
  returned (fst (fst (ga_iteration demo demo_pop demo_state))) = true.
Proof. split; [right; left; reflexivity|]. split; [apply demo_kills|]. vm_compute. reflexivity. Qed.

(** ** C13: the interval check before birth. *)
Theorem C13_pre_birth_interval :
  forall (T : Type) (FT : FloatTrait T) intervals p (cs : list (list T)),
    (exists cs', pre_birth_interval intervals p cs = Ret cs' /\
       (forall c, In c cs -> length c = length intervals) /\
       exists keep : list bool, length keep = length cs /\
         cs' = map fst (filter snd (combine cs keep)) /\
         Forall2 (fun c b => b = true <-> genes_in c intervals) cs keep) \/
    (pre_birth_interval intervals p cs = Panic /\
       exists c, In c cs /\ length c <> length intervals).
Proof. exact @pre_birth_interval_spec. Qed.
Print Assumptions C13_pre_birth_interval.

(** [genes_in] is membership in the closed intervals (when they are not NaN). *)
Theorem C13_gene_in_meaning :
  forall prec emax (Hp : FLX.Prec_gt_0 prec) (He : BinarySingleNaN.Prec_lt_emax prec emax)
    (np : nan_policy prec emax) (x lo hi : bfloat prec emax),
    is_nan lo = false -> is_nan hi = false ->
    (@gene_in _ (FloatIEEE np) x (lo, hi) <->
     is_finite x = true /\ leb lo x = true /\ leb x hi = true).
Proof. exact @gene_in_ieee. Qed.
Print Assumptions C13_gene_in_meaning.

Example C13_nonvacuous :
  let FT := FloatIEEE np64_default in
  pre_birth_interval [(two, ten); (two, nine)] (Population [] None None 0)
    [[nine; two]; [nine; ten]; [two; nine]] = Ret [[nine; two]; [two; nine]].
Proof. vm_compute. reflexivity. Qed.

(** ** C14: the interval check by selection. *)
Theorem C14_selection_interval :
  forall (T : Type) (FT : FloatTrait T) intervals (p : population (list T)),
    (exists l', selection_interval intervals p = Ret l' /\
       (forall i, In i (individuals p) -> length (chromosomes i) = length intervals) /\
       Forall2 (fun i j => chromosomes j = chromosomes i /\ fitness j = fitness i /\
                  (alive j = true <-> alive i = true /\ genes_in (chromosomes i) intervals))
               (individuals p) l') \/
    (selection_interval intervals p = Panic /\
       exists i, In i (individuals p) /\ length (chromosomes i) <> length intervals).
Proof. exact @selection_interval_spec. Qed.
Print Assumptions C14_selection_interval.

Example C14_nonvacuous :
  let FT := FloatIEEE np64_default in
  selection_interval [(two, nine)]
    (Population [Individual [two] ten true; Individual [ten] two true] None None 0)
  = Ret [Individual [two] ten true; Individual [ten] two false].
Proof. vm_compute. reflexivity. Qed.
