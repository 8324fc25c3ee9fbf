(** * What the printed reports say (C74) *)
From Coq Require Import ZArith NArith List Bool Arith String.
From Verif Require Import F64 Base Builders Types PyBind Spec Report SpecReport ReportP.
Import ListNotations.

(** ** C74: a report says what the solution set contains *)

(** C74: the report with constraints.  Its head gives the number of solutions and the least
    objective value; the [i]-th entry is the [i]-th solution, with every constraint of the
    problem in order, its value at that solution and whether it is met. *)
Theorem C74_report : forall (P : problem) (descriptions : option (list string)) (s : solset),
  let report := display_with_constraints P descriptions s in
  head_of s report /\
  List.length (entries report) = List.length s /\
  (forall i e, nth_error (entries report) i = Some e -> describes s i e) /\
  (forall i e x, nth_error (entries report) i = Some e -> nth_error s i = Some x ->
     List.length (en_constraints e) = List.length (pb_constraints P) /\
     forall j c, nth_error (en_constraints e) j = Some c -> describes_constraint P descriptions (ls_point x) j c).
Proof.
  intros P ds s. split; [exact (head_constraints P ds s)|]. split; [|split].
  - rewrite entries_eq. exact (entries_length _ _ s).
  - intros i e H. rewrite entries_eq in H. exact (entry_describes _ _ s i e H).
  - intros i e x. exact (c74_constraints P ds s i e x).
Qed.
Print Assumptions C74_report.

(** C74: the plain report, and the one of the Python class, say the same about the solutions
    and nothing about constraints. *)
Theorem C74_plain_report : forall s : solset,
  forall report, report = display s \/ report = py_display s ->
  head_of s report /\
  List.length (entries report) = List.length s /\
  forall i e, nth_error (entries report) i = Some e -> describes s i e /\ en_constraints e = [].
Proof.
  intros s report H.
  assert (E : entries report = map (entry_of [] None) (enumerate s)) by (destruct H as [->| ->]; [exact (entries_display s)|exact (entries_py s)]).
  split; [destruct H as [->| ->]; [exact (head_display s)|exact (head_py s)]|]. rewrite E. split; [exact (entries_length _ _ s)|].
  intros i e He. split; [exact (entry_describes _ _ s i e He)|].
  rewrite nth_error_map in He. destruct (nth_error (enumerate s) i); [|discriminate]. injection He as <-. reflexivity.
Qed.
Print Assumptions C74_plain_report.

(** C74: the report for a problem is the plain report when the problem has no constraint, and
    otherwise the report with constraints and no description. *)
Theorem C74_report_for_problem : forall (P : problem) (s : solset),
  (pb_constraints P = [] -> display_with_problem P s = display s) /\
  (pb_constraints P <> [] -> display_with_problem P s = display_with_constraints P None s).
Proof.
  intros P s. unfold display_with_problem. destruct (pb_constraints P); split; intro H; congruence.
Qed.
Print Assumptions C74_report_for_problem.

(** The full claim about marks: a constraint has a check mark exactly when the report calls it
    satisfied. *)
Definition C74_marks_full : Prop :=
  forall (P : problem) (descriptions : option (list string)) (s : solset) (e : entry) (c : said),
  In e (entries (display_with_constraints P descriptions s)) -> In c (en_constraints e) ->
  (said_check c = true <-> said_violated c = None).

(** a constraint that is not a number at the point of a solution: a cross, and "(satisfied)" *)
Definition nan_problem : problem :=
  mk_problem (fun _ => inl f0) (fun _ => inl []) (fun _ => inl []) [(f0, f1)] [fun _ => NaN false].
Definition one_solution : solset := [mk_lsol [f0] f1].
Definition nan_entry : entry := mk_entry 1 [f1] [[f0]] [mk_said 1 None false (NaN false) None].

Theorem C74_marks_refuted : ~ C74_marks_full.
Proof.
  intro H. assert (I : In nan_entry (entries (display_with_constraints nan_problem None one_solution))) by (vm_compute; left; reflexivity).
  destruct (H nan_problem None one_solution nan_entry (mk_said 1 None false (NaN false) None) I (or_introl eq_refl)) as [_ K].
  discriminate (K eq_refl).
Qed.
Print Assumptions C74_marks_refuted.

(** Proved for constraints whose value is a number (missing: values that are not). *)
Theorem C74_marks_partial :
  forall (P : problem) (descriptions : option (list string)) (s : solset) (e : entry) (c : said),
  In e (entries (display_with_constraints P descriptions s)) -> In c (en_constraints e) ->
  is_nan (said_value c) = false ->
  (said_check c = true <-> said_violated c = None).
Proof.
  intros P ds s e c He Hc Hn. apply In_nth_error in He as [i He]. apply In_nth_error in Hc as [j Hc].
  assert (D : describes s i e) by (rewrite entries_eq in He; exact (entry_describes _ _ s i e He)).
  destruct D as (x & Hx & _). destruct (c74_constraints P ds s i e x He Hx) as [_ K].
  destruct (K j c Hc) as (g & _ & _ & Hv & _ & Hk & Hw). rewrite Hv in Hn. rewrite Hk, (not_nan_dichotomy _ Hn).
  destruct (flt (g (ls_point x)) f0) eqn:E.
  - split; [discriminate|]. intro Z. rewrite (proj2 (Hw (fopp (g (ls_point x)))) (conj eq_refl eq_refl)) in Z. discriminate.
  - split; auto. intros _. destruct (said_violated c) as [d|]; auto. destruct (proj1 (Hw d) eq_refl). discriminate.
Qed.
Print Assumptions C74_marks_partial.

(** two solutions and two constraints, one of them violated at the second solution *)
Definition two_constraints : problem :=
  mk_problem (fun _ => inl f0) (fun _ => inl []) (fun _ => inl []) [(f0, f2)]
    [fun x => fsub f1 (hd f0 x); fun x => hd f0 x].
Definition two_solutions : solset := [mk_lsol [f0] f2; mk_lsol [f2] f1].
Example C74_example :
  entries (display_with_constraints two_constraints (Some ["upper"%string]) two_solutions) =
    [mk_entry 1 [f2] [[f0]] [mk_said 1 (Some "upper"%string) true f1 None; mk_said 2 None true f0 None];
     mk_entry 2 [f1] [[f2]] [mk_said 1 (Some "upper"%string) false (fopp f1) (Some f1); mk_said 2 None true f2 None]] /\
  In (LBest f1) (display_with_constraints two_constraints None two_solutions) /\
  In (LTotal 2) (py_display two_solutions).
Proof. vm_compute. repeat split; auto. Qed.
