(** * The output of the programs that collect statistics *)

From Coq Require Import List Arith ZArith Bool Lia String DecimalString DecimalNat Permutation.
From Verif Require Import Base FloatModel Rng GaModel StatModel LogModel TestFuncModel ExampleModel StatProgramModel StatOutputModel
  SpecStat SpecExample SpecStatProgram SpecOutput StatFacts StatProgramFacts.
Import ListNotations.
Local Open Scope string_scope.
Local Open Scope nat_scope.

(** ** Strings *)
Lemma app_nil_s s : s ++ "" = s.
Proof. induction s as [|c s IH]; [reflexivity|]. simpl. now rewrite IH. Qed.
Lemma app_assoc_s a b c : a ++ (b ++ c) = (a ++ b) ++ c.
Proof. induction a as [|x a IH]; [reflexivity|]. simpl. now rewrite IH. Qed.
Lemma length_app_s a b : String.length (a ++ b) = (String.length a + String.length b)%nat.
Proof. induction a as [|x a IH]; [reflexivity|]. simpl. now rewrite IH. Qed.
Lemma fill_blanks n : fill n = blanks n.
Proof.
  induction n as [|n IH]; [reflexivity|]. cbn [fill]. rewrite IH. unfold blanks. cbn [List.repeat String.concat].
  destruct (List.repeat " " n) eqn:E; reflexivity.
Qed.
Lemma fill_length n : String.length (fill n) = n.
Proof. induction n as [|n IH]; [reflexivity|]. simpl. now rewrite IH. Qed.
Lemma blanks_length n : String.length (blanks n) = n.
Proof. rewrite <- fill_blanks. apply fill_length. Qed.
Lemma left_is w s : pad_left_aligned w s = at_left w s.
Proof. unfold pad_left_aligned, at_left. now rewrite fill_blanks. Qed.
Lemma right_is w s : pad_right_aligned w s = at_right w s.
Proof. unfold pad_right_aligned, at_right. now rewrite fill_blanks. Qed.
Lemma concat_cons sep a l : l <> [] -> String.concat sep (a :: l) = a ++ sep ++ String.concat sep l.
Proof. destruct l; [congruence|reflexivity]. Qed.
Lemma concat_single sep a : String.concat sep [a] = a.
Proof. reflexivity. Qed.

Lemma line_is {A} (f : A -> string) (x : list A) : forall s e,
  fold_left (fun r xi => r ++ ("  " ++ f xi)) x s ++ ("  " ++ e) = String.concat "  " (s :: map f x ++ [e])%list.
Proof.
  induction x as [|a x IH]; intros s e; cbn [fold_left map List.app].
  - reflexivity.
  - rewrite IH. rewrite (concat_cons "  " s) by discriminate.
    destruct (map f x ++ [e])%list as [|b l] eqn:E; [destruct (map f x); discriminate E|].
    rewrite !(concat_cons "  " _ (b :: l)) by discriminate. rewrite !app_assoc_s. reflexivity.
Qed.

(** ** Actions *)
Section Acts.
  Context {O : Type}.
  Variable dev : device O.
  Fixpoint run {A} (l : list action) (k : comp O A) : comp O A :=
    match l with
    | [] => k
    | a :: l' => do ok <- act dev a ;; if ok then run l' k else cpanic
    end.
  Lemma acts_run {A} (l : list action) (e : outcome A) : forall o, acts dev l e o = run l (cpure e) o.
  Proof.
    induction l as [|a l IH]; intros o; cbn [acts run]; [reflexivity|]. unfold cbind.
    destruct (act dev a o) as [[[|]| |] o']; auto.
  Qed.
  Lemma run_app {A} l1 l2 (k : comp O A) : run (l1 ++ l2)%list k = run l1 (run l2 k).
  Proof. induction l1 as [|a l1 IH]; cbn [run List.app]; [reflexivity|]. now rewrite IH. Qed.
  Lemma run_ext {A} l (k k' : comp O A) : (forall o, k o = k' o) -> forall o, run l k o = run l k' o.
  Proof.
    intros H. induction l as [|a l IH]; intros o; cbn [run]; [apply H|]. unfold cbind.
    destruct (act dev a o) as [[[|]| |] o']; auto.
  Qed.
  Lemma succeed_run {A} a (k : comp O A) o : (do _ <- succeed (act dev a) ;; k) o = run [a] k o.
  Proof. cbn [run]. unfold succeed, cbind, cpure. destruct (act dev a o) as [[[|]| |] o']; reflexivity. Qed.
  Lemma succeed_last a o : succeed (act dev a) o = run [a] (cret tt) o.
  Proof. cbn [run]. unfold succeed, cbind, cpure. destruct (act dev a o) as [[[|]| |] o']; reflexivity. Qed.
  Lemma run_bind {A B} l (m : comp O A) (k : A -> comp O B) o : (do x <- run l m ;; k x) o = run l (do x <- m ;; k x) o.
  Proof.
    revert o. induction l as [|a l IH]; intros o; cbn [run]; [reflexivity|].
    unfold cbind in *. destruct (act dev a o) as [[[|]| |] o']; try reflexivity. exact (IH o').
  Qed.
  (** A loop that performs one action for each element. *)
  Lemma loop_run {A} (f : A -> action) (g : A -> comp O unit) l : (forall a o, In a l -> g a o = run [f a] (cret tt) o) ->
    forall o, cfold (fun _ a => g a) l tt o = run (map f l) (cret tt) o.
  Proof.
    intros H. induction l as [|a l IH]; intros o; cbn [cfold map]; [reflexivity|].
    change (map f (a :: l)) with ([f a] ++ map f l)%list. change (run (f a :: map f l) (cret tt)) with (run ([f a] ++ map f l) (@cret O unit tt)).
    rewrite run_app. unfold cbind. rewrite (H a o (or_introl eq_refl)).
    cbn [run]. unfold cbind. destruct (act dev (f a) o) as [[[|]| |] o']; try reflexivity.
    cbn [cret]. apply IH. intros; apply H; now right.
  Qed.
End Acts.

(** ** The parts of the program *)
Section Parts.
  Variables (np32 : nan_policy 24 128) (np64 : nan_policy 53 1024).
  Context {O : Type}.
  Variables (dev : device O) (nf : number_format).
  Notation vec := (list f32).

  Lemma println_run {A} s (k : comp O A) o : (do _ <- println dev s ;; k) o = run dev [Print (s ++ newline)] k o.
  Proof. exact (succeed_run dev (Print (s ++ newline)) k o). Qed.
  Lemma bind_ext {A B} (m m' : comp O A) (k : A -> comp O B) o : (forall o, m o = m' o) -> (do x <- m ;; k x) o = (do x <- m' ;; k x) o.
  Proof. intros H. unfold cbind. now rewrite H. Qed.
  Lemma bind_run {B} l (k : unit -> comp O B) m o : (forall o, m o = run dev l (cret tt) o) -> (do x <- m ;; k x) o = run dev l (k tt) o.
  Proof. intros H. rewrite (bind_ext _ _ _ o H). rewrite run_bind. apply run_ext. reflexivity. Qed.

  Lemma cfold_ext {A} (f g : unit -> A -> comp O unit) l : (forall a o, In a l -> f tt a o = g tt a o) ->
    forall o, cfold f l tt o = cfold g l tt o.
  Proof.
    intros H. induction l as [|a l IH]; intros o; cbn [cfold]; [reflexivity|]. unfold cbind. rewrite (H a o (or_introl eq_refl)).
    destruct (g tt a o) as [[[]| |] o']; auto. apply IH. intros; apply H; now right.
  Qed.

  Definition solution_step (name : string) (n : nat) (r : option (vec * f64)) : comp O unit :=
    match r with
    | Some (solution, goal) => file_writeln dev name (fold_left (fun r x => r ++ ("  " ++ pad_left_aligned 20 (nf_item nf x))) solution (pad_left_aligned 8 (show_nat n))
         ++ ("  " ++ pad_right_aligned 20 (nf_fixed nf 10 goal)))
    | None => file_writeln dev name (pad_left_aligned 8 (show_nat n) ++ "  Failed")
    end.
  Lemma solution_step_run name n r o : solution_step name n r o = run dev [Append name (solution_line nf (n, r) ++ newline)] (cret tt) o.
  Proof.
    rewrite <- succeed_last. destruct r as [[x v]|]; unfold solution_step, file_writeln, solution_line; cbn [fst snd act].
    - rewrite left_is, right_is. rewrite <- (line_is (fun xi => at_left 20 (nf_item nf xi))).
      assert (E : forall s, fold_left (fun r xi => r ++ ("  " ++ pad_left_aligned 20 (nf_item nf xi))) x s =
                            fold_left (fun r xi => r ++ ("  " ++ at_left 20 (nf_item nf xi))) x s).
      { induction x as [|a x IHx]; intros s; [reflexivity|]. cbn [fold_left]. rewrite left_is. apply IHx. }
      rewrite E. reflexivity.
    - cbn [String.concat]. rewrite left_is. reflexivity.
  Qed.
  Lemma solution_run (st : statistics vec) name o :
    write_solution dev nf name st o =
    run dev (map (fun e => Append name (solution_line nf e ++ newline)) (combine (seq 0 (List.length (results st))) (results st))) (cret tt) o.
  Proof.
    assert (K : forall l pre o, results st = (pre ++ l)%list ->
      cfold (fun _ n => do result <- cpure (index (results st) n) ;; solution_step name n result) (seq (List.length pre) (List.length l)) tt o =
      run dev (map (fun e => Append name (solution_line nf e ++ newline)) (combine (seq (List.length pre) (List.length l)) l)) (cret tt) o).
    { induction l as [|r l IH]; intros pre o' E; [reflexivity|]. cbn [List.length seq combine cfold map].
      assert (Ei : index (results st) (List.length pre) = Ret r) by (unfold index; rewrite E, nth_error_app2, Nat.sub_diag by lia; reflexivity).
      rewrite Ei. specialize (IH (pre ++ [r])%list). rewrite app_length in IH. cbn [List.length] in IH. rewrite Nat.add_1_r in IH.
      assert (E2 : results st = ((pre ++ [r]) ++ l)%list) by (rewrite E, <- app_assoc; reflexivity).
      change (run dev (Append name (solution_line nf (List.length pre, r) ++ newline) :: ?l) ?k) with (run dev ([Append name (solution_line nf (List.length pre, r) ++ newline)] ++ l)%list k).
      rewrite run_app. rewrite (bind_run [Append name (solution_line nf (List.length pre, r) ++ newline)]).
      - apply run_ext. intros o2. exact (IH o2 E2).
      - intros o2. unfold cbind, cpure. apply solution_step_run. }
    exact (K (results st) [] o eq_refl).
  Qed.

  Definition kept (e : nat * option f64) : list (nat * f64) := match e with (n, Some g) => [(n, g)] | (_, None) => [] end.
  Lemma convergence_lines (l : list (option f64)) : forall pre acc,
    ofold (fun lines n => let! cell := index (pre ++ l)%list n in
             Ret (match cell with Some g => (lines ++ [(n, g)])%list | None => lines end))
          (seq (List.length pre) (List.length l)) acc = Ret (acc ++ flat_map kept (combine (seq (List.length pre) (List.length l)) l))%list.
  Proof.
    induction l as [|a l IH]; intros pre acc; [simpl; now rewrite app_nil_r|].
    cbn [List.length seq ofold combine flat_map].
    assert (E : index (pre ++ a :: l)%list (List.length pre) = Ret a).
    { unfold index. now rewrite nth_error_app2, Nat.sub_diag by lia. }
    rewrite E. cbn [obind]. specialize (IH (pre ++ [a])%list). rewrite <- app_assoc, app_length in IH. cbn [List.app List.length] in IH.
    rewrite Nat.add_1_r in IH. rewrite IH. destruct a; cbn [kept]; [rewrite <- app_assoc|]; reflexivity.
  Qed.
  Lemma convergence_run (st : statistics vec) name rows o : print_convergence_statistics np64 st = Ret rows ->
    write_convergence np64 dev nf name st o =
    run dev (map (fun e => Append name (convergence_line nf e ++ newline)) rows) (cret tt) o.
  Proof.
    unfold print_convergence_statistics, write_convergence. unfold cbind at 1. cbn [cpure].
    destruct (get_average_convergence np64 (convergence st)) as [l| |]; cbn [obind]; try discriminate. unfold cpure at 1.
    intros H. pose proof (eq_trans (eq_sym (convergence_lines l [] [])) H) as H'. cbn [List.app List.length] in H'. injection H' as <-. clear H.
    assert (K : forall l' pre o, l = (pre ++ l')%list ->
      cfold (fun _ n => do cell <- cpure (index l n) ;; match cell with
        | Some v => file_writeln dev name (pad_left_aligned 8 (show_nat n) ++ pad_right_aligned 15 (nf_exp nf v))
        | None => cret tt end) (seq (List.length pre) (List.length l')) tt o =
      run dev (map (fun e => Append name (convergence_line nf e ++ newline)) (flat_map kept (combine (seq (List.length pre) (List.length l')) l'))) (cret tt) o).
    { induction l' as [|a l' IH]; intros pre o' E; [reflexivity|]. cbn [List.length seq combine cfold flat_map].
      assert (Ei : index l (List.length pre) = Ret a) by (unfold index; rewrite E, nth_error_app2, Nat.sub_diag by lia; reflexivity).
      rewrite Ei. specialize (IH (pre ++ [a])%list). rewrite app_length in IH. cbn [List.length] in IH. rewrite Nat.add_1_r in IH.
      assert (E2 : l = ((pre ++ [a]) ++ l')%list) by (rewrite <- app_assoc; exact E).
      destruct a as [v|]; cbn [kept List.app].
      - rewrite map_cons.
        change (run dev (Append name (convergence_line nf (List.length pre, v) ++ newline) :: ?l) ?k) with (run dev ([Append name (convergence_line nf (List.length pre, v) ++ newline)] ++ l)%list k).
        rewrite run_app. rewrite (bind_run [Append name (convergence_line nf (List.length pre, v) ++ newline)]).
        + apply run_ext. intros o2. exact (IH o2 E2).
        + intros o2. rewrite <- succeed_last. unfold cbind, cpure, file_writeln, convergence_line. cbn [fst snd act]. rewrite left_is, right_is. reflexivity.
      - unfold cbind. cbn [cpure cret]. exact (IH o' E2). }
    exact (K l [] o eq_refl).
  Qed.

  Lemma statistics_run valid_answer delta st cc rp o :
    print_report np32 np64 valid_answer delta 3 (st, cc) = Ret rp ->
    write_statistics np32 np64 dev nf valid_answer delta 3 st cc o = run dev (summary nf rp) (cret tt) o /\
    rp_solutions rp = combine (seq 0 (List.length (results st))) (results st) /\
    print_convergence_statistics np64 st = Ret (rp_convergence rp).
  Proof.
    unfold print_report, write_statistics. intros H.
    assert (E1 : print_solution st = Ret (combine (seq 0 (List.length (results st))) (results st))) by exact (omap_results (results st) []).
    rewrite E1 in H. cbn [obind] in H.
    destruct (print_convergence_statistics np64 st) as [rows| |]; cbn [obind] in H; try discriminate H.
    destruct (predicate_success_vec_new (repeat valid_answer 3) (repeat delta 3)) as [pr| |]; cbn [obind] in H; try discriminate H.
    change (cbind (cpure (Ret pr)) ?k o) with (k pr o). cbv beta.
    destruct (unwrap (get_success_rate np64 (predicate_success_vec pr) (results st))) as [a| |]; cbn [obind] in H; try discriminate H.
    change (cbind (cpure (Ret a)) ?k o) with (k a o). cbv beta.
    destruct (unwrap (get_average_goal np64 (results st))) as [b| |]; cbn [obind] in H; try discriminate H.
    change (cbind (cpure (Ret b)) ?k o) with (k b o). cbv beta.
    destruct (unwrap (get_standard_deviation_goal np64 (results st))) as [c| |]; cbn [obind] in H; try discriminate H.
    change (cbind (cpure (Ret c)) ?k o) with (k c o). cbv beta.
    destruct (unwrap (get_average_call_count np64 cc)) as [d| |]; cbn [obind] in H; try discriminate H.
    injection H as <-. cbn [rp_solutions rp_convergence]. split; [|split; reflexivity].
    unfold summary. cbn [rp_run_count rp_success_rate rp_average_goal rp_standard_deviation rp_average_calls].
    rewrite !right_is.
    match goal with |- _ = run dev [?a1; ?a2; ?a3; ?a4; ?a5] ?k o =>
      change (run dev [a1; a2; a3; a4; a5] k) with (run dev ([a1] ++ [a2] ++ [a3] ++ [a4] ++ [a5])%list k) end.
    rewrite !run_app. rewrite println_run. rewrite <- app_assoc_s.
    apply run_ext. clear o. intros o. rewrite println_run, <- app_assoc_s.
    apply run_ext. clear o. intros o. rewrite println_run, <- app_assoc_s.
    apply run_ext. clear o. intros o. rewrite println_run, <- app_assoc_s.
    apply run_ext. clear o. intros o. change (cbind (cpure (Ret d)) ?k o) with (k d o). cbv beta.
    rewrite <- succeed_last. unfold println. cbn [act]. rewrite right_is. rewrite <- app_assoc_s. reflexivity.
  Qed.

  Lemma heading_run {A} total streams (k : nat -> comp O A) o : streams <> [] ->
    (do run_count <- cpure (if List.length streams =? 0 then Panic else Ret (total / List.length streams)) ;;
     do _ <- println dev ("CPUs:" ++ pad_right_aligned 15 (show_nat (List.length streams))) ;;
     do _ <- println dev ("Run count per CPU:" ++ pad_right_aligned 8 (show_nat run_count)) ;;
     do _ <- succeed (dv_print dev "Run optimizations... ") ;; k run_count) o =
    run dev (heading total (@List.length rng streams)) (k (total / List.length streams)) o.
  Proof.
    intros H. assert (Hn : (List.length streams =? 0) = false) by (destruct streams; [congruence|reflexivity]). rewrite Hn.
    change (cbind (cpure (Ret (total / List.length streams))) ?k o) with (k (total / List.length streams) o). cbv beta.
    unfold heading. rewrite !right_is.
    match goal with |- _ = run dev [?a1; ?a2; ?a3] ?k o => change (run dev [a1; a2; a3] k) with (run dev ([a1] ++ [a2] ++ [a3])%list k) end.
    rewrite !run_app. rewrite println_run, <- app_assoc_s. apply run_ext. clear o. intros o.
    rewrite println_run, <- app_assoc_s. apply run_ext. clear o. intros o.
    exact (succeed_run dev (Print "Run optimizations... ") _ o).
  Qed.
  Lemma files_run {A} (k : comp O A) o :
    (do _ <- println dev "OK" ;; do _ <- succeed (dv_create dev "result_stat.txt") ;; do _ <- succeed (dv_create dev "convergence_stat.txt") ;; k) o =
    run dev both_files k o.
  Proof.
    unfold both_files.
    match goal with |- _ = run dev [?a1; ?a2; ?a3] ?k o => change (run dev [a1; a2; a3] k) with (run dev ([a1] ++ [a2] ++ [a3])%list k) end.
    rewrite !run_app. rewrite println_run. apply run_ext. clear o. intros o.
    refine (eq_trans (succeed_run dev (Create "result_stat.txt") _ o) _). apply run_ext. clear o. intros o.
    exact (succeed_run dev (Create "convergence_stat.txt") _ o).
  Qed.

  Section Program.
    Variables (single : comp rng run_data) (total : nat) (valid_answer delta : f32) (streams : list rng) (arrivals : list nat).
    Notation main := (stat_main np32 np64 single total valid_answer delta).
    Notation program := (stat_program np32 np64 dev nf single total valid_answer delta).
    Lemma program_none o : streams = [] -> program streams arrivals o = (Panic, o).
    Proof. intros ->. reflexivity. Qed.
    Lemma program_reports rp o : main streams arrivals = Ret rp ->
      program streams arrivals o =
      acts dev (heading total (List.length streams) ++ both_files ++ body nf rp ++ summary nf rp) (Ret tt) o.
    Proof.
      unfold stat_main, stat_program. cbv zeta. intros H.
      assert (N : streams <> []) by (intros ->; discriminate H).
      rewrite (heading_run total streams _ o N).
      assert (Hn : (List.length streams =? 0) = false) by (destruct streams; [congruence|reflexivity]). rewrite Hn in H. cbn [obind] in H.
      destruct (collect (map (fun r => fst (thread single (total / List.length streams) r)) streams) arrivals) as [[st cc]| |]; cbn [obind] in H; try discriminate H.
      rewrite acts_run, run_app. apply run_ext. clear o. intros o.
      change (cbind (cpure (Ret (st, cc))) ?k o) with (k (st, cc) o). cbv beta iota.
      rewrite files_run, run_app. apply run_ext. clear o. intros o.
      destruct (statistics_run valid_answer delta st cc rp o H) as [_ [Es Ec]].
      rewrite run_app. unfold body. rewrite run_app. rewrite Es.
      rewrite (bind_run _ (fun _ => _) (write_solution dev nf "result_stat.txt" st) o (solution_run st "result_stat.txt")).
      apply run_ext. clear o. intros o.
      rewrite (bind_run _ (fun _ => _) (write_convergence np64 dev nf "convergence_stat.txt" st) o (fun o => convergence_run st "convergence_stat.txt" _ o Ec)).
      apply run_ext. clear o. intros o.
      exact (proj1 (statistics_run valid_answer delta st cc rp o H)).
    Qed.
    Lemma program_waits o : main streams arrivals = NoFuel ->
      program streams arrivals o = acts dev (heading total (List.length streams)) NoFuel o.
    Proof.
      unfold stat_main, stat_program. cbv zeta. intros H.
      assert (N : streams <> []) by (intros ->; discriminate H).
      rewrite (heading_run total streams _ o N).
      assert (Hn : (List.length streams =? 0) = false) by (destruct streams; [congruence|reflexivity]). rewrite Hn in H. cbn [obind] in H.
      rewrite acts_run. apply run_ext. clear o. intros o.
      destruct (collect (map (fun r => fst (thread single (total / List.length streams) r)) streams) arrivals) as [d| |]; cbn [obind] in H; try discriminate H.
      - exfalso. exact (print_report_ends np32 np64 valid_answer delta d H).
      - reflexivity.
    Qed.
    Lemma program_too_many o : total < List.length streams -> Permutation arrivals (seq 0 (List.length streams)) ->
      program streams arrivals o = acts dev (heading total (List.length streams) ++ both_files) Panic o.
    Proof.
      intros Ht Ha. unfold stat_program. cbv zeta.
      assert (N : streams <> []) by (intros ->; cbn in Ht; lia).
      rewrite (heading_run total streams _ o N). rewrite Nat.div_small by exact Ht. rewrite acts_run, run_app. apply run_ext. clear o. intros o.
      assert (E : collect (map (fun r => fst (thread single 0 r)) streams) arrivals = Ret (statistics_new, ccd_new)).
      { assert (F : Forall (fun i => i < List.length streams) arrivals).
        { apply Forall_forall. intros i Hi. apply (Permutation_in _ Ha) in Hi. apply in_seq in Hi. lia. }
        clear Ha. unfold collect. induction F as [|i l Hi H IH]; cbn [ofold]; [reflexivity|].
        destruct (nth_error streams i) as [r|] eqn:Er; [|apply nth_error_None in Er; lia].
        rewrite (map_nth_error _ _ _ Er). exact IH. }
      rewrite E. change (cbind (cpure (Ret (statistics_new, ccd_new))) ?k o) with (k (statistics_new, ccd_new) o). cbv beta iota.
      rewrite files_run. apply run_ext. clear o. intros o. reflexivity.
    Qed.
  End Program.
End Parts.

Lemma program_writes np32 np64 single total valid_answer delta :
  writes_report total (stat_main np32 np64 single total valid_answer delta)
    (fun O dev nf => stat_program np32 np64 dev nf single total valid_answer delta).
Proof.
  intros O dev nf streams arrivals o. split; [apply program_none|]. split; [intros rp; apply program_reports|apply program_waits].
Qed.
Lemma program_writes_nothing np32 np64 single total valid_answer delta :
  writes_nothing total (fun O dev nf => stat_program np32 np64 dev nf single total valid_answer delta).
Proof. intros O dev nf streams arrivals o. apply program_too_many. Qed.

(** ** A working computer *)
Lemma find_put f t l : find_file f (put f t l) = Some t.
Proof.
  induction l as [|[n u] l IH]; cbn [put find_file]; [now rewrite String.eqb_refl|].
  destruct (String.eqb_spec n f) as [E|E]; cbn [find_file]; [now rewrite String.eqb_refl|].
  destruct (String.eqb_spec n f); [congruence|exact IH].
Qed.
Lemma find_put_other f g t l : f <> g -> find_file f (put g t l) = find_file f l.
Proof.
  intros N. induction l as [|[n u] l IH]; cbn [put find_file].
  - destruct (String.eqb_spec g f); [congruence|reflexivity].
  - destruct (String.eqb_spec n g) as [E|E]; cbn [find_file].
    + destruct (String.eqb_spec g f); [congruence|]. subst n. destruct (String.eqb_spec g f); [congruence|reflexivity].
    + destruct (String.eqb_spec n f); [reflexivity|exact IH].
Qed.
Lemma concat_nil_cons a l : String.concat "" (a :: l) = a ++ String.concat "" l.
Proof. destruct l; [simpl; now rewrite app_nil_s|reflexivity]. Qed.
Lemma concat_nil_app l1 l2 : String.concat "" (l1 ++ l2)%list = String.concat "" l1 ++ String.concat "" l2.
Proof.
  induction l1 as [|a l1 IH]; [reflexivity|]. change ((a :: l1) ++ l2)%list with (a :: (l1 ++ l2))%list.
  rewrite !concat_nil_cons, IH, app_assoc_s. reflexivity.
Qed.
Lemma acts_prints {A} (l : list string) rest (e : outcome A) d :
  acts working (map Print l ++ rest) e d = acts working rest e (Disk (console d ++ String.concat "" l) (files d)).
Proof.
  revert d. induction l as [|s l IH]; intros d; cbn [map List.app].
  - cbn [String.concat]. rewrite app_nil_s. destruct d; reflexivity.
  - cbn [acts act working dv_print]. rewrite IH. cbn [console files]. rewrite concat_nil_cons, app_assoc_s. reflexivity.
Qed.
Lemma acts_appends {A B} f (g : B -> string) (l : list B) rest (e : outcome A) : forall d t, find_file f (files d) = Some t ->
  exists fs, acts working (map (fun x => Append f (g x ++ newline)) l ++ rest) e d = acts working rest e (Disk (console d) fs) /\
    find_file f fs = Some (t ++ lines (map g l)) /\ (forall f', f' <> f -> find_file f' fs = find_file f' (files d)).
Proof.
  induction l as [|x l IH]; intros d t Ht; cbn [map List.app].
  - exists (files d). split; [destruct d; reflexivity|]. split; [|auto]. cbn. now rewrite app_nil_s.
  - cbn [acts act working dv_write]. rewrite Ht.
    destruct (IH (Disk (console d) (put f (t ++ (g x ++ newline)) (files d))) (t ++ (g x ++ newline))) as [fs [E [F1 F2]]].
    { cbn [files]. apply find_put. }
    exists fs. split; [exact E|]. split.
    + rewrite F1. unfold lines. cbn [map]. rewrite concat_nil_cons, !app_assoc_s. reflexivity.
    + intros f' N. rewrite F2 by exact N. cbn [files]. now apply find_put_other.
Qed.

Lemma report_on_disk nf total cpus rp d :
  exists d', acts working (heading total cpus ++ both_files ++ body nf rp ++ summary nf rp) (Ret tt) d = (Ret tt, d') /\
    stores nf total cpus rp d d'.
Proof.
  unfold stores. unfold heading at 1.
  match goal with |- context [acts working ([Print ?a; Print ?b; Print ?c] ++ ?r) _ d] =>
    change ([Print a; Print b; Print c] ++ r)%list with (map Print [a; b; c] ++ r)%list end.
  rewrite acts_prints. unfold both_files.
  cbn [List.app acts act working dv_print dv_create console files].
  unfold body. rewrite <- app_assoc.
  match goal with |- context [acts working (map ?g ?l ++ ?rest) ?e ?d0] =>
    destruct (acts_appends "result_stat.txt" (solution_line nf) l rest e d0 "") as [fs1 [E1 [A1 A2]]] end.
  { cbn [files]. rewrite find_put_other by discriminate. apply find_put. }
  rewrite E1. clear E1. cbn [console files] in *.
  match goal with |- context [acts working (map ?g ?l ++ ?rest) ?e ?d0] =>
    destruct (acts_appends "convergence_stat.txt" (convergence_line nf) l rest e d0 "") as [fs2 [E2 [B1 B2]]] end.
  { cbn [files]. rewrite A2 by discriminate. apply find_put. }
  rewrite E2. clear E2. cbn [console files] in *. unfold summary at 1.
  match goal with |- context [acts working [Print ?a; Print ?b; Print ?c; Print ?x; Print ?y] _ ?d0] =>
    change ([Print a; Print b; Print c; Print x; Print y]) with (map Print [a; b; c; x; y] ++ [])%list end.
  rewrite acts_prints. cbn [acts]. eexists. split; [reflexivity|]. cbn [console files].
  split.
  - unfold printed, heading, summary. cbn [flat_map List.app]. rewrite !app_assoc_s. reflexivity.
  - split; [rewrite B2 by discriminate; exact A1|]. split; [exact B1|].
    intros f N1 N2. rewrite B2, A2 by assumption. rewrite !find_put_other by congruence. reflexivity.
Qed.

Lemma program_stores total main program : writes_report total main program ->
  forall nf streams arrivals rp d, main streams arrivals = Ret rp ->
  exists d', program disk working nf streams arrivals d = (Ret tt, d') /\ stores nf total (List.length streams) rp d d'.
Proof.
  intros W nf streams arrivals rp d M. destruct (W disk working nf streams arrivals d) as [_ [H _]].
  destruct (report_on_disk nf total (List.length streams) rp d) as [d' [E S]]. exists d'. split; [|exact S].
  rewrite <- E. exact (H rp M).
Qed.

Lemma program_lists np32 np64 answer delta total good main program :
  reports_all np32 np64 answer delta total good main -> writes_report total main program ->
  forall nf streams arrivals d, 0 < List.length streams <= total -> Permutation arrivals (seq 0 (List.length streams)) ->
  exists runs d', program disk working nf streams arrivals d = (Ret tt, d') /\
    Forall good runs /\ List.length runs = List.length streams * (total / List.length streams) /\
    find_file "result_stat.txt" (files d') =
      Some (lines (map (fun ir => solution_line nf (fst ir, Some (sr_point (snd ir)))) (combine (seq 0 (List.length runs)) runs))) /\
    exists m, shortest (map sr_row runs) m /\
    find_file "convergence_stat.txt" (files d') =
      Some (lines (map (fun i => convergence_line nf (i, mean64 np64 (map (fun r => snd (nth i (sr_row r) (sr_point r))) runs))) (seq 0 m))).
Proof.
  intros R W nf streams arrivals d C P. destruct (R streams C) as [per [L [F H]]]. destruct (H arrivals P) as [rp [M Q]].
  destruct (program_stores total main program W nf streams arrivals rp d M) as [d' [E [_ [S1 [S2 _]]]]].
  exists (List.concat (map (fun i => nth i per []) arrivals)), d'. split; [exact E|].
  assert (Fa : Forall (fun runs => List.length runs = total / List.length streams /\ Forall good runs) (map (fun i => nth i per []) arrivals)).
  { apply Forall_map. apply Forall_forall. intros i Hi. rewrite Forall_forall in F. apply F. apply nth_In. rewrite L.
    apply (Permutation_in _ P) in Hi. apply in_seq in Hi. lia. }
  split. { apply Forall_concat. eapply Forall_impl; [|exact Fa]. intros l [_ G]. exact G. }
  split.
  { assert (La : List.length streams = List.length (map (fun i => nth i per []) arrivals))
      by (rewrite map_length, (Permutation_length P), seq_length; reflexivity).
    rewrite La at 1. clear La.
    revert Fa. generalize (map (fun i => nth i per []) arrivals).
    intros ls Fa. induction Fa as [|l ls [A _] Fa IH]; [reflexivity|]. cbn [List.concat List.length]. rewrite app_length, IH, A. lia. }
  destruct Q as [_ [Q1 [[m [Sh Q2]] _]]]. rewrite Q1 in S1. rewrite Q2 in S2. split.
  - rewrite S1. f_equal. f_equal. clear. generalize (List.concat (map (fun i => nth i per []) arrivals)). intros l.
    generalize 0. induction l as [|r l IH]; intros k; [reflexivity|]. cbn [List.length seq map combine fst snd]. f_equal. apply IH.
  - exists m. split; [exact Sh|]. rewrite S2, map_map. reflexivity.
Qed.

(** ** Columns *)
Lemma blanks_S n : blanks (S n) = String (Ascii.ascii_of_nat 32) (blanks n).
Proof. unfold blanks. cbn [List.repeat]. rewrite concat_nil_cons. reflexivity. Qed.
Lemma at_left_length w s : String.length s <= w -> String.length (at_left w s) = w.
Proof. intros H. unfold at_left. rewrite length_app_s, blanks_length. lia. Qed.
Lemma at_right_length w s : String.length s <= w -> String.length (at_right w s) = w.
Proof. intros H. unfold at_right. rewrite length_app_s, blanks_length. lia. Qed.
Lemma substring_all s : substring 0 (String.length s) s = s.
Proof. induction s as [|c s IH]; [reflexivity|]. cbn. now rewrite IH. Qed.
Lemma substring_prefix s t : substring 0 (String.length s) (s ++ t) = s.
Proof. induction s as [|c s IH]; [now destruct t|]. cbn. now rewrite IH. Qed.
Lemma substring_skip s t n m : substring (String.length s + n) m (s ++ t) = substring n m t.
Proof. induction s as [|c s IH]; [reflexivity|]. cbn. exact IH. Qed.
Lemma columns_nth sep (l : list string) w : forall first i cell,
  Forall (fun c => String.length c = w) l -> nth_error l i = Some cell ->
  substring (String.length first + i * (String.length sep + w) + String.length sep) w (String.concat sep (first :: l)) = cell.
Proof.
  induction l as [|c l IH]; intros first i cell F E; [destruct i; discriminate|].
  inversion F as [|? ? A B]; subst.
  change (String.concat sep (first :: c :: l)) with (first ++ sep ++ String.concat sep (c :: l)).
  destruct i as [|i]; cbn [nth_error] in E.
  - injection E as <-. rewrite <- Nat.add_assoc, substring_skip. cbn [Nat.mul Nat.add].
    rewrite <- (Nat.add_0_r (String.length sep)), substring_skip.
    destruct l as [|c' l']; [apply substring_all|]. cbn [String.concat]. apply substring_prefix.
  - rewrite <- Nat.add_assoc, substring_skip.
    replace (S i * (String.length sep + String.length c) + String.length sep)
      with (String.length sep + (String.length c + i * (String.length sep + String.length c) + String.length sep)) by lia.
    rewrite substring_skip. apply IH; assumption.
Qed.
Lemma solution_columns nf n x g :
  String.length (numeral n) <= 8 -> Forall (fun xi => String.length (nf_item nf xi) <= 20) x -> String.length (nf_fixed nf 10 g) <= 20 ->
  let line := solution_line nf (n, Some (x, g)) in
  substring 0 8 line = at_left 8 (numeral n) /\
  (forall i xi, nth_error x i = Some xi -> substring (10 + 22 * i) 20 line = at_left 20 (nf_item nf xi)) /\
  substring (10 + 22 * List.length x) 20 line = at_right 20 (nf_fixed nf 10 g).
Proof.
  intros Hn Hx Hg. cbn zeta. unfold solution_line. cbn [fst snd].
  set (first := at_left 8 (numeral n)). assert (L : String.length first = 8) by (now apply at_left_length).
  set (cells := (map (fun xi => at_left 20 (nf_item nf xi)) x ++ [at_right 20 (nf_fixed nf 10 g)])%list).
  assert (F : Forall (fun c => String.length c = 20) cells).
  { apply Forall_app. split; [|constructor; [now apply at_right_length|constructor]].
    apply Forall_map. eapply Forall_impl; [|exact Hx]. intros a; apply at_left_length. }
  split.
  - rewrite <- L. destruct cells; [apply substring_all|]. cbn [String.concat]. apply substring_prefix.
  - assert (G : forall i cell, nth_error cells i = Some cell -> substring (10 + 22 * i) 20 (String.concat "  " (first :: cells)) = cell).
    { intros i cell E. refine (eq_trans _ (columns_nth "  " cells 20 first i cell F E)). rewrite L. cbn [String.length].
      f_equal. lia. }
    split.
    + intros i xi E. apply G. unfold cells. rewrite nth_error_app1 by (rewrite map_length; apply nth_error_Some; congruence).
      rewrite nth_error_map, E. reflexivity.
    + apply G. unfold cells. rewrite nth_error_app2 by (now rewrite map_length). rewrite map_length, Nat.sub_diag. reflexivity.
Qed.
Lemma convergence_columns nf n g :
  String.length (numeral n) <= 8 -> String.length (nf_exp nf g) <= 15 ->
  let line := convergence_line nf (n, g) in
  String.length line = 23 /\ substring 0 8 line = at_left 8 (numeral n) /\ substring 8 15 line = at_right 15 (nf_exp nf g).
Proof.
  intros Hn Hg. cbn zeta. unfold convergence_line. cbn [fst snd].
  set (first := at_left 8 (numeral n)). assert (L : String.length first = 8) by (now apply at_left_length).
  set (second := at_right 15 _). assert (L2 : String.length second = 15) by (now apply at_right_length).
  split; [rewrite length_app_s; lia|]. split.
  - rewrite <- L. apply substring_prefix.
  - rewrite <- L2, <- L. rewrite <- (Nat.add_0_r (String.length first)), substring_skip. apply substring_all.
Qed.
Lemma numeral_read n : option_map Nat.of_uint (NilEmpty.uint_of_string (numeral n)) = Some n.
Proof. unfold numeral. rewrite NilEmpty.usu. cbn [option_map]. now rewrite DecimalNat.Unsigned.of_to. Qed.
