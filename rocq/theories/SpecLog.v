(** * Specification vocabulary for the loggers and the counted goal *)

From Coq Require Import List Arith ZArith Bool String.
From Verif Require Import Base FloatModel GaModel PsoModel StatModel LogModel SpecGa SpecPso SpecRun.
Import ListNotations.

(** ** What a logger is told *)

(** The calls of logger number [i], in order. *)
Fixpoint told {T S X} (i : nat) (t : list (event T S X)) : list (log_kind * S) :=
  match t with
  | [] => []
  | ELog k j s :: t' => if j =? i then (k, s) :: told i t' else told i t'
  | _ :: t' => told i t'
  end.

(** [calls_of c m] : the logger calls of one [next_iterations] (resume, then one
    [next_iteration] per iteration, then finish), where [c] is the state it starts
    from and [m] the states after its iterations. *)
Definition resumed {S} (c : S) (m : list S) : list (log_kind * S) :=
  (LResume, c) :: map (pair LNext) m ++ [(LFinish, last m c)].

(** A logger object with state [G], living in the part [L] of the environment. *)
Definition attached {U G T} (L : lens U G) (l : logger G T) : logger U T :=
  Logger (fun s => zoom L (lg_start l s)) (fun s => zoom L (lg_resume l s))
         (fun s => zoom L (lg_next l s)) (fun s => zoom L (lg_finish l s)).

(** The calls [cs] take the logger [l] from state [g] to state [g'], all returning. *)
Inductive fed {G T} (l : logger G T) : list (log_kind * alg_state T) -> G -> G -> Prop :=
| fed_nil g : fed l [] g g
| fed_cons k s cs g g1 g2 :
    told_by k l s g = (Ret tt, g1) -> fed l cs g1 g2 -> fed l ((k, s) :: cs) g g2.

(** Every component but logger number [i] leaves this part of the environment alone. *)
Definition ga_others_keep {U T G} (i : nat) (get : U -> G) (cfg : ga_config U T) : Prop :=
  (forall x, keeps get (ga_goal cfg x)) /\ (forall s, keeps get (ga_stop cfg s)) /\
  keeps get (ga_creator cfg) /\
  (forall p, keeps get (ga_pairing cfg p)) /\ (forall xs, keeps get (ga_cross cfg xs)) /\
  (forall x, keeps get (ga_mutation cfg x)) /\
  (forall f p, In f (ga_selections cfg) -> keeps get (f p)) /\
  (forall f p xs, In f (ga_pre_births cfg) -> keeps get (f p xs)) /\
  (forall j l k s, nth_error (ga_loggers cfg) j = Some l -> j <> i -> keeps get (told_by k l s)).
Definition pso_others_keep {U T G} (i : nat) (get : U -> G) (cfg : pso_config U T) : Prop :=
  (forall x, keeps get (pso_goal cfg x)) /\ (forall s, keeps get (pso_stop cfg s)) /\
  keeps get (pso_coordinates cfg) /\ keeps get (pso_velocities cfg) /\
  (forall s p, keeps get (pso_calc cfg s p)) /\
  (forall f v, In f (pso_post_velocity cfg) -> keeps get (f v)) /\
  (forall f x, In f (pso_post_move cfg) -> keeps get (f x)) /\
  (forall j l k s, nth_error (pso_loggers cfg) j = Some l -> j <> i -> keeps get (told_by k l s)).

(** ** Runs that differ in one component only *)

(** Equal apart from the part [L]. *)
Definition same_but {U G} (L : lens U G) (u1 u2 : U) : Prop := forall g, lput L g u1 = lput L g u2.

(** A component that neither reads nor writes the part [L]. *)
Definition apart {U G A} (L : lens U G) (c : comp U A) : Prop :=
  keeps (lget L) c /\ comp_respects (same_but L) c.

Definition ga_others_apart {U T G} (i : nat) (L : lens U G) (cfg : ga_config U T) : Prop :=
  (forall x, apart L (ga_goal cfg x)) /\ (forall s, apart L (ga_stop cfg s)) /\
  apart L (ga_creator cfg) /\
  (forall p, apart L (ga_pairing cfg p)) /\ (forall xs, apart L (ga_cross cfg xs)) /\
  (forall x, apart L (ga_mutation cfg x)) /\
  (forall f p, In f (ga_selections cfg) -> apart L (f p)) /\
  (forall f p xs, In f (ga_pre_births cfg) -> apart L (f p xs)) /\
  (forall j l k s, nth_error (ga_loggers cfg) j = Some l -> j <> i -> apart L (told_by k l s)).
Definition pso_others_apart {U T G} (i : nat) (L : lens U G) (cfg : pso_config U T) : Prop :=
  (forall x, apart L (pso_goal cfg x)) /\ (forall s, apart L (pso_stop cfg s)) /\
  apart L (pso_coordinates cfg) /\ apart L (pso_velocities cfg) /\
  (forall s p, apart L (pso_calc cfg s p)) /\
  (forall f v, In f (pso_post_velocity cfg) -> apart L (f v)) /\
  (forall f x, In f (pso_post_move cfg) -> apart L (f x)) /\
  (forall j l k s, nth_error (pso_loggers cfg) j = Some l -> j <> i -> apart L (told_by k l s)).

(** The logger that does nothing. *)
Definition no_logger {U T} : logger U T :=
  Logger (fun _ => cret tt) (fun _ => cret tt) (fun _ => cret tt) (fun _ => cret tt).
(** The list with [x] at position [i]. *)
Definition replaced {A} (i : nat) (x : A) (l : list A) : list A := firstn i l ++ x :: skipn (S i) l.

(** Two runs with the same outcome and the same events that leave environments
    equal apart from [L]. *)
Definition alike {U E A G} (L : lens U G) (r1 r2 : outcome A * U * list E) : Prop :=
  fst (fst r1) = fst (fst r2) /\ snd r1 = snd r2 /\
  (forall a, fst (fst r1) = Ret a -> same_but L (snd (fst r1)) (snd (fst r2))).

(** A logger that never panics if it is called as the optimizers do: [P1] holds
    after start, [P2] after resume. *)
Definition survives {G T} (P1 P2 : G -> Prop) (l : logger G T) : Prop :=
  (forall s g, exists g', lg_start l s g = (Ret tt, g') /\ P1 g') /\
  (forall s g, P1 g -> exists g', lg_resume l s g = (Ret tt, g') /\ P2 g') /\
  (forall s g, P2 g -> exists g', lg_next l s g = (Ret tt, g') /\ P2 g') /\
  (forall s g, P2 g -> exists g', lg_finish l s g = (Ret tt, g') /\ P2 g').

(** ** Statistics *)

(** The best solutions of some states. *)
Definition bests {T S} (view : S -> alg_state T) (ss : list S) : list (option (T * f64)) :=
  map (fun s => as_best (view s)) ss.

(** Some [find_min] and [next_iterations] calls, all of which returned, on one
    optimizer with possibly changing configurations, starting with statistics [g0].
    Between the calls the program may do anything except touch the statistics.
    [finds] and [nexts] count the calls. *)
Inductive ga_session {U T G} (ok : ga_config U T -> Prop) (get : U -> G) (g0 : G)
  : population T -> G -> nat -> nat -> Prop :=
| ga_session_new : ga_session ok get g0 (Population [] None None 0) g0 0 0
| ga_session_find cfg fuel u p finds nexts r p' u' t :
    ok cfg -> ga_session ok get g0 p (get u) finds nexts ->
    ga_find_min cfg fuel p u = (Ret (r, p'), u', t) ->
    ga_session ok get g0 p' (get u') (finds + 1) nexts
| ga_session_next cfg fuel u p finds nexts r p' u' t :
    ok cfg -> ga_session ok get g0 p (get u) finds nexts ->
    ga_next_iterations cfg fuel p u = (Ret (r, p'), u', t) ->
    ga_session ok get g0 p' (get u') finds (nexts + 1).
Inductive pso_session {U T G} {FT : FloatTrait T} (ok : pso_config U T -> Prop) (get : U -> G) (g0 : G)
  : swarm T -> G -> nat -> nat -> Prop :=
| pso_session_new : pso_session ok get g0 (Swarm [] None None 0) g0 0 0
| pso_session_find cfg fuel u s finds nexts r s' u' t :
    ok cfg -> pso_session ok get g0 s (get u) finds nexts ->
    pso_find_min cfg fuel s u = (Ret (r, s'), u', t) ->
    pso_session ok get g0 s' (get u') (finds + 1) nexts
| pso_session_next cfg fuel u s finds nexts r s' u' t :
    ok cfg -> pso_session ok get g0 s (get u) finds nexts ->
    pso_next_iterations cfg fuel s u = (Ret (r, s'), u', t) ->
    pso_session ok get g0 s' (get u') finds (nexts + 1).

(** A run of the counted goal: [n] more calls in the current (last) run; the first
    call ever starts a run. *)
Definition counted (n : nat) (c : list nat) : list nat :=
  match n with
  | O => c
  | _ => removelast c ++ [last c 0 + n]
  end.
(** The same configuration with another goal. *)
Definition ga_with_goal {U T} (cfg : ga_config U T) goal : ga_config U T :=
  GaConfig goal (ga_stop cfg) (ga_creator cfg) (ga_pairing cfg) (ga_cross cfg) (ga_mutation cfg)
           (ga_selections cfg) (ga_pre_births cfg) (ga_loggers cfg).
Definition pso_with_goal {U T} (cfg : pso_config U T) goal : pso_config U T :=
  PsoConfig goal (pso_stop cfg) (pso_coordinates cfg) (pso_velocities cfg) (pso_calc cfg)
            (pso_post_velocity cfg) (pso_post_move cfg) (pso_loggers cfg).

(** ** Printing *)

(** Line feed, ASCII 10. *)
Definition newline : string := String (Ascii.Ascii false true false true false false false false) EmptyString.

(** A writer that never fails and keeps what it is given in [out]. *)
Definition prints {G} (out : G -> string) (write : string -> comp G bool) : Prop :=
  forall s g, exists g', write s g = (Ret true, g') /\ out g' = (out g ++ s)%string.
(** A clock that can always be read. *)
Definition ticks {G} (now : comp G Z) : Prop := forall g, exists z g', now g = (Ret z, g').

(** One line per state with a solution: iteration, coordinates and goal, separated
    by two spaces. *)
Definition verbose_text {T} (fmt : formatter T) (precision : nat) (s : alg_state (list T)) : string :=
  match as_best s with
  | None => ""
  | Some (x, v) =>
      String.concat "  " (fmt_iteration fmt (as_iter s) ::
                          map (fmt_item fmt precision) x ++ [fmt_goal fmt precision v]) ++ newline
  end.
(** The final report. *)
Definition report_text {T} (fmt : formatter T) (precision : nat) (s : alg_state (list T)) : string :=
  (match as_best s with
   | None => "Solution not found" ++ newline
   | Some (x, v) =>
       "Solution:" ++ newline ++
       String.concat "" (map (fun xi => "  " ++ fmt_item_prec fmt precision xi ++ newline) x) ++ newline ++ newline ++
       "Goal: " ++ fmt_goal_prec fmt precision v ++ newline
   end ++ "Iterations count: " ++ fmt_count fmt (as_iter s) ++ newline)%string.
(** The line about the time from [t0] to [t1] (nanoseconds). *)
Definition time_text {T} (fmt : formatter T) (t0 t1 : Z) : string :=
  ("Time elapsed: " ++ fmt_ms fmt (Z.max 0 (t1 - t0) / 1000000)%Z ++ " ms" ++ newline)%string.

(** The writer, with a list of its answers: [true] when it took the text. *)
Definition answering {G} (write : string -> comp G bool) : string -> comp (G * list bool) bool :=
  fun s gb => let '(o, g) := write s (fst gb) in
              (o, (g, match o with Ret b => (snd gb ++ [b])%list | _ => snd gb end)).
(** A writer that answers; one that never takes anything. *)
Definition answers {G} (write : string -> comp G bool) : Prop := forall s g, exists b g', write s g = (Ret b, g').
Definition refuses {G} (write : string -> comp G bool) : Prop := forall s g, exists g', write s g = (Ret false, g').
(** The call returns and the writer took everything, or it panics at the first refusal. *)
Definition notices {G} (c : comp (G * list bool) unit) : Prop :=
  forall g bs, exists o g' more, c (g, bs) = (o, (g', (bs ++ more)%list)) /\
    ((o = Ret tt /\ Forall (eq true) more) \/
     (o = Panic /\ exists taken, more = (taken ++ [false])%list /\ Forall (eq true) taken)).
