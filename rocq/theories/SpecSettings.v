(** * Specification vocabulary: how the example programs are set up *)

From Coq Require Import List Arith ZArith Bool Reals.
From Flocq Require Import IEEE754.Binary.
From Verif Require Import Base FloatModel Rng GaModel PsoModel StopModel ExampleModel SpecRand SpecSel SpecBits SpecStop SpecPso SpecVel SpecPace.
Import ListNotations.

Section Settings.
  Context {W : Type}.
  Notation U := (world W).
  Notation vec := (list f32).

  (** The same world with [n] draws less to come. *)
  Definition drew (n : nat) (u : U) : U := World (shift n (w_rng u)) (w_gnc u) (w_started u) (w_rest u).

  (** Pairing makes [families] families of two; a partner is one of [rounds + 1] individuals
      drawn for its place, and none of these has a smaller goal value (goal values other
      than NaN). *)
  Definition pairs_by_tournament (families rounds : nat) (pairing : population vec -> comp U (list (list nat))) : Prop :=
    forall p u, individuals p <> [] ->
      exists fams, pairing p u = (Ret fams, drew (families * (2 * (rounds + 1))) u) /\
        length fams = families /\
        forall j fam, nth_error fams j = Some fam ->
          length fam = 2 /\
          forall i a, nth_error fam i = Some a ->
            let candidate k := drawn (w_rng u) 0 (length (individuals p)) ((j * 2 + i) * (rounds + 1) + k) in
            a < length (individuals p) /\
            (exists k, k <= rounds /\ a = candidate k) /\
            ((forall k v, k <= rounds -> fitness_is p (candidate k) v -> is_nan v = false) ->
             forall k, k <= rounds -> ~ beats p (candidate k) a).

  (** Pairing draws both partners of every pair, half as many pairs as individuals. *)
  Definition pairs_at_random (pairing : population vec -> comp U (list (list nat))) : Prop :=
    forall p u, individuals p <> [] ->
      let n := length (individuals p) in
      pairing p u =
        (Ret (map (fun j => [drawn (w_rng u) 0 n (2 * j); drawn (w_rng u) 0 n (2 * j + 1)]) (seq 0 (n / 2))),
         drew (2 * (n / 2)) u).

  (** [g'] is [g] after [n] flips of one of its 32 bits. *)
  Definition bits_flipped (n : nat) (r : rng) (g g' : f32) : Prop :=
    forall i, i < 32 -> Z.testbit (to_bits32 g') (Z.of_nat i) =
      xorb (Z.testbit (to_bits32 g) (Z.of_nat i)) (Nat.odd (times_drawn r 32 i n)).
  (** Each gene costs a draw from [0, 100): below [chance] three of its bits are flipped, else
      it is kept. *)
  Inductive varied (np64 : nan_policy 53 1024) (chance : Z) : vec -> rng -> vec -> rng -> Prop :=
  | varied_end r : varied np64 chance [] r [] r
  | varied_kept g gs r gs' r' :
      leb (b_of_Z chance) (@drawn_excl f64 (FloatIEEE np64) _ (b_of_Z 0) (b_of_Z 100) r 0) = true ->
      varied np64 chance gs (shift 1 r) gs' r' -> varied np64 chance (g :: gs) r (g :: gs') r'
  | varied_flipped g g' gs r gs' r' :
      ltb (@drawn_excl f64 (FloatIEEE np64) _ (b_of_Z 0) (b_of_Z 100) r 0) (b_of_Z chance) = true ->
      bits_flipped 3 (shift 1 r) g g' ->
      varied np64 chance gs (shift 3 (shift 1 r)) gs' r' -> varied np64 chance (g :: gs) r (g' :: gs') r'.
  Definition mutates (np64 : nan_policy 53 1024) (chance : Z) (mutation : vec -> comp U vec) : Prop :=
    forall x u, exists y r',
      varied np64 chance x (w_rng u) y r' /\
      mutation x u = (Ret y, World r' (w_gnc u) (w_started u) (w_rest u)).

  (** When a stop checker stops: best value at most [t]; more than [n] iterations since the
      best value moved by more than [delta]; [k] iterations. *)
  Inductive rule := AtMost (t : f64) | Steady (n : nat) (delta : f64) | Iterations (k : nat).
  Definition applies (np64 : nan_policy 53 1024) (earlier : list (alg_state vec)) (s : alg_state vec) (r : rule) : Prop :=
    match r with
    | AtMost t => exists x v, as_best s = Some (x, v) /\ leb v t = true
    | Steady n delta => as_best s <> None /\
        exists v c, reference (differ np64 delta) (best_goals (earlier ++ [s])) v c /\ n < as_iter s - c
    | Iterations k => k <= as_iter s
    end.
  (** A new stop checker that has not stopped at any of the [earlier] states stops at [s] if
      and only if a rule applies. *)
  Definition stops_by (np64 : nan_policy 53 1024) (rules : list rule) (stop : stop_checker U vec) : Prop :=
    forall earlier s u u1, w_gnc u = gnc_new -> not_decreasing (map as_iter (earlier ++ [s])) ->
      asked (map stop earlier) u (repeat false (length earlier)) u1 ->
      exists b u2, stop s u1 = (Ret b, u2) /\ (b = true <-> Exists (applies np64 earlier s) rules).

  (** Close to a real number. *)
  Definition near (x : f32) (q : R) : Prop :=
    is_finite x = true /\ (Rabs (Binary.B2R 24 128 x - q) <= / 1000000)%R.

  (** A calculator that pulls with at most [phi_p] to the particle's best and at most [phi_g] to
      the swarm's best position, two draws per coordinate: [shape] tells what happens to the old
      velocity and the pulls. *)
  Definition pulls (np32 : nan_policy 24 128) (phi_p phi_g : f32) (shape : f32 -> f32 -> f32 -> f32)
    (calc : swarm f32 -> particle f32 -> comp U vec) : Prop :=
    forall s p u b, best_particle s = Some b -> covers p (velocity p) ->
      covers p (best_personal_coordinates p) -> covers p (coordinates b) ->
      exists y, calc s p u = (Ret y, drew (2 * length (coordinates p)) u) /\
        length y = length (coordinates p) /\
        forall k v b' x g, nth_error (velocity p) k = Some v ->
          nth_error (best_personal_coordinates p) k = Some b' ->
          nth_error (coordinates p) k = Some x -> nth_error (coordinates b) k = Some g ->
          let pull phi i target := b_mul np32 (b_mul np32 phi (@unit32 f32 (FloatIEEE np32) np32 (w_rng u) i)) (b_sub np32 target x) in
          nth_error y k = Some (shape v (pull phi_p (2 * k) b') (pull phi_g (2 * k + 1) g)).
  (** The sum of all three, constricted by a factor close to [q]. *)
  Definition constricted (np32 : nan_policy 24 128) (phi_p phi_g : f32) (q : R)
    (calc : swarm f32 -> particle f32 -> comp U vec) : Prop :=
    exists xi, near xi q /\
      pulls np32 phi_p phi_g (fun v p g => b_mul np32 xi (b_add np32 (b_add np32 v p) g)) calc.
  (** The old velocity is weighted with [w]. *)
  Definition weighted (np32 : nan_policy 24 128) (phi_p phi_g w : f32)
    (calc : swarm f32 -> particle f32 -> comp U vec) : Prop :=
    pulls np32 phi_p phi_g (fun v p g => b_add np32 (b_add np32 (b_mul np32 w v) p) g) calc.
  (** Six draws per coordinate, three pulls and three pushes: towards the particle's, the
      current and the swarm's best position, away from the worst ones; constricted by a factor
      close to [q]. *)
  Definition reinforced (np32 : nan_policy 24 128) (np64 : nan_policy 53 1024)
    (personal current global personal' current' global' : f32) (q : R)
    (calc : swarm f32 -> particle f32 -> comp U vec) : Prop :=
    exists xi, near xi q /\
      forall s p u bg wg bc wc,
        best_particle s = Some bg -> worst_particle s = Some wg ->
        first_least value (particles s) bc -> last_greatest value (particles s) wc ->
        covers p (velocity p) -> covers p (best_personal_coordinates p) -> covers p (worst_personal_coordinates p) ->
        covers p (coordinates bg) -> covers p (coordinates wg) -> covers p (coordinates bc) -> covers p (coordinates wc) ->
        exists y, calc s p u = (Ret y, drew (6 * length (coordinates p)) u) /\
          length y = length (coordinates p) /\
          forall i v x bpi bci bgi wpi wci wgi,
            nth_error (velocity p) i = Some v -> nth_error (coordinates p) i = Some x ->
            nth_error (best_personal_coordinates p) i = Some bpi -> nth_error (coordinates bc) i = Some bci ->
            nth_error (coordinates bg) i = Some bgi -> nth_error (worst_personal_coordinates p) i = Some wpi ->
            nth_error (coordinates wc) i = Some wci -> nth_error (coordinates wg) i = Some wgi ->
            let pull phi k target := b_mul np32 (b_mul np32 phi (@unit64 f32 (FloatIEEE np32) np64 (w_rng u) (6 * i + k))) (b_sub np32 target x) in
            nth_error y i = Some
              (b_mul np32 xi
                (b_sub np32 (b_sub np32 (b_sub np32
                  (b_add np32 (b_add np32 (b_add np32 v
                    (pull personal 2 bpi)) (pull current 1 bci)) (pull global 0 bgi))
                    (pull personal' 5 wpi)) (pull current' 4 wci)) (pull global' 3 wgi))).

  (** The settings of a genetic program and of a swarm program. *)
  Definition breeds (np64 : nan_policy 53 1024) (families rounds : nat) (chance : Z) (rules : list rule)
    (program : outcome (ga_config U vec)) : Prop :=
    exists cfg, program = Ret cfg /\ pairs_by_tournament families rounds (ga_pairing cfg) /\
      mutates np64 chance (ga_mutation cfg) /\ stops_by np64 rules (ga_stop cfg).
  Definition breeds_at_random (np64 : nan_policy 53 1024) (chance : Z) (rules : list rule)
    (program : outcome (ga_config U vec)) : Prop :=
    exists cfg, program = Ret cfg /\ pairs_at_random (ga_pairing cfg) /\
      mutates np64 chance (ga_mutation cfg) /\ stops_by np64 rules (ga_stop cfg).
  (** A velocity that is clearly shorter than [l] is kept, one that is clearly longer gets the
      length [l], up to a hundred-thousandth. *)
  Definition limits_speed (d : nat) (l : R) (posts : list (vec -> comp U vec)) : Prop :=
    exists f, posts = [f] /\
      forall v u, bounded d (2 ^ 20) v ->
        exists y, f v u = (Ret y, u) /\ length y = d /\
          (speed v <= l * (1 - / 100000) -> y = v)%R /\
          (l * (1 + / 100000) <= speed v -> Rabs (speed y - l) <= l / 100000)%R.
  (** Coordinates outside of the interval move to its nearer end, infinite ones and NaN to the
      lower end. *)
  Definition moves_into (d : nat) (lo hi : f32) (f : vec -> comp U vec) : Prop :=
    forall x u, length x = d -> exists y, f x u = (Ret y, u) /\ length y = d /\
      forall k a b, nth_error x k = Some a -> nth_error y k = Some b ->
        (is_finite a = false -> b = lo) /\
        (is_finite a = true -> ltb a lo = true -> b = lo) /\
        (is_finite a = true -> ltb hi a = true -> b = hi) /\
        (is_finite a = true -> leb lo a = true -> leb a hi = true -> b = a).
  (** A draw from [0, 1): below [chance] every coordinate is drawn anew from the interval. *)
  Definition teleports (np32 : nan_policy 24 128) (d : nat) (lo hi chance : f32) (f : vec -> comp U vec) : Prop :=
    forall x u, length x = d ->
      let dice := @drawn_excl f32 (FloatIEEE np32) _ (b_of_Z 0) (b_of_Z 1) (w_rng u) 0 in
      (leb chance dice = true -> f x u = (Ret x, drew 1 u)) /\
      (ltb dice chance = true -> exists y, f x u = (Ret y, drew (1 + d) u) /\ length y = d /\
         forall k b, nth_error y k = Some b -> b = @drawn_incl f32 (FloatIEEE np32) _ lo hi (w_rng u) (1 + k)).
  (** [pace]: the speed limit; [chance]: of a teleport. *)
  Definition swarms (np32 : nan_policy 24 128) (np64 : nan_policy 53 1024) (d : nat) (lo hi : f32)
    (pace : option R) (chance : option f32)
    (calculates : (swarm f32 -> particle f32 -> comp U vec) -> Prop) (rules : list rule)
    (program : outcome (pso_config U f32)) : Prop :=
    exists cfg, program = Ret cfg /\ calculates (pso_calc cfg) /\ stops_by np64 rules (pso_stop cfg) /\
      match pace with
      | None => pso_post_velocity cfg = []
      | Some l => limits_speed d l (pso_post_velocity cfg)
      end /\
      match chance with
      | None => exists g, pso_post_move cfg = [g] /\ moves_into d lo hi g
      | Some p => exists f g, pso_post_move cfg = [f; g] /\ teleports np32 d lo hi p f /\ moves_into d lo hi g
      end.
End Settings.
