(** * More iterations (C106)

    Statements only; the proofs are lemmas of MoreP.v. *)
From Coq Require Import ZArith NArith List Bool Arith Lia String.
From Verif Require Import F64 Base Builders Types Filters Runner Observer Env EnvSpec ScatterSearch Codec
  Checkpoint Oqnlp Spec SpecStage2 SpecMore Actions MoreP MoreP2 Demo Demo2 Properties_Stage2.
Import ListNotations.

(** f(x) = (x^2 - 4)^2 - x, whose minimum at 2 is the deeper one, with a local solver that
    goes to the minimum on its side of 0; six candidates *)
Definition slanted : problem :=
  mk_problem
    (fun p => match p with
              | [x] => let d := fsub (fmul x x) (of_Z 4) in inl (fsub (fmul d d) x)
              | _ => inr 7%N
              end)
    (fun _ => inr 1%N) (fun _ => inr 1%N) [(of_Z (-4), of_Z 5)] [].
Definition slanted_env : env := demo_env slanted to_well.
Definition some_of_six (n : nat) : params := mk_params n 6 1 f1 (lit 75 100) COBYLA (cb_build cb_default) 9.

(** C106 is false of the code: unless the batch size is set, it depends on the number of
    iterations.  Three candidates are judged one after the other and the global minimum is
    found; six candidates are judged two at a time and it is missed. *)
Definition C106_full : Prop := forall E p n o o' setA setB, env_ok E -> p_iterations p <= n ->
  oq_new p = Ok o -> oq_new (p_asking n p) = Ok o' ->
  fst (run E (start_state o)) = Ok setA -> fst (run E (start_state o')) = Ok setB ->
  numeric_set setA -> numeric_set setB -> not_worse setB setA.
Theorem C106_batch_size_refuted : ~ C106_full.
Proof.
  intro H.
  assert (R1 : fst (run slanted_env (start_state (made (some_of_six 3)))) = Ok [sol1 f2 (of_Z (-2))]) by (vm_compute; reflexivity).
  assert (R2 : fst (run slanted_env (start_state (made (some_of_six 6)))) = Ok [sol1 (of_Z (-2)) f2]) by (vm_compute; reflexivity).
  assert (N1 : oq_new (some_of_six 3) = Ok (made (some_of_six 3))) by (vm_compute; reflexivity).
  assert (N2 : oq_new (p_asking 6 (some_of_six 3)) = Ok (made (some_of_six 6))) by (vm_compute; reflexivity).
  assert (M1 : numeric_set [sol1 f2 (of_Z (-2))]) by (split; [discriminate|intros x [<-|[]]; split; reflexivity]).
  assert (M2 : numeric_set [sol1 (of_Z (-2)) f2]) by (split; [discriminate|intros x [<-|[]]; split; reflexivity]).
  destruct (H slanted_env (some_of_six 3) 6 (made (some_of_six 3)) (made (some_of_six 6)) _ _ (demo_env_ok _ _)
    (le_S _ _ (le_S _ _ (le_S _ _ (le_n 3)))) N1 N2 R1 R2 M1 M2) as (v & w & (x & r & X & ->) & (y & r' & Y & ->) & F).
  injection X as <- <-. injection Y as <- <-. vm_compute in F. discriminate.
Qed.
Print Assumptions C106_batch_size_refuted.

(** What holds of every run that does not resume, in sequential mode, and in parallel mode
    with a batch size that is set and divides the smaller number of iterations: a run that is
    asked for more iterations first does everything that the other does, in the same order,
    whatever the outcomes are.  (With other batch sizes the order differs within the batch in
    which the smaller number of iterations ends.) *)
Theorem C106_first_steps_partial : forall E n s rA sA na rB sB nb,
  run E s = (rA, sA) -> recorded s sA na -> run E (asking_state n s) = (rB, sB) -> recorded (asking_state n s) sB nb ->
  (forall c, o_cp (s_o s) = Some c -> cc_auto_resume c = false) ->
  p_iterations (o_params (s_o s)) <= n -> whole_batches (s_o s) ->
  exists more, steps nb = more ++ steps na.
Proof. exact c106_steps. Qed.
Print Assumptions C106_first_steps_partial.
(** In sequential mode and with every batch size that is set: if both succeed, the result is
    not worse (numeric objectives, tolerances not negative).  Missing: the default batch size,
    for which it is false. *)
Theorem C106_no_worse_partial : forall E n s setA sA na setB sB nb,
  run E s = (Ok setA, sA) -> recorded s sA na -> run E (asking_state n s) = (Ok setB, sB) -> recorded (asking_state n s) sB nb ->
  (forall c, o_cp (s_o s) = Some c -> cc_auto_resume c = false) ->
  p_iterations (o_params (s_o s)) <= n -> fixed_batches (s_o s) ->
  tolerances_ok (s_o s) -> (forall s0, o_set (s_o s) = Some s0 -> numeric_set s0) ->
  (forall x, In (EvResult x) nb -> number (ls_obj x)) -> not_worse setB setA.
Proof. exact c106_no_worse. Qed.
Print Assumptions C106_no_worse_partial.

(** Failures come back: with sequential mode or whole batches, what makes a run fail makes the
    run with more iterations fail in the same way, unless it failed for want of a solution or
    while writing a checkpoint. *)
Theorem C106_failures_partial : forall E n s rA sA rB sB, run E s = (rA, sA) -> run E (asking_state n s) = (rB, sB) ->
  (forall c, o_cp (s_o s) = Some c -> cc_auto_resume c = false) ->
  p_iterations (o_params (s_o s)) <= n -> whole_batches (s_o s) ->
  (rA = Panic -> rB = Panic) /\
  (forall e, rA = Err e -> e <> NoFeasibleSolution -> (forall c, e <> CheckpointError c) -> rB = Err e).
Proof. exact c106_failures. Qed.
Print Assumptions C106_failures_partial.

(** One candidate and six, in sequential mode: the second run finds the deeper minimum. *)
Definition one_by_one (n : nat) : oqnlp := sequential (made (some_of_six n)).
Lemma the_results l : (forall e, In e l -> match e with EvResult x => (wf (ls_obj x) && negb (is_nan (ls_obj x)))%bool = true | _ => True end) ->
  forall x, In (EvResult x) l -> number (ls_obj x).
Proof. intros H x Hx. specialize (H _ Hx). apply andb_true_iff in H as [H1 H2]. split; [exact H1|]. destruct (is_nan (ls_obj x)); [discriminate|reflexivity]. Qed.
Definition numericb (e : event) : bool := match e with EvResult x => wf (ls_obj x) && negb (is_nan (ls_obj x)) | _ => true end.
Lemma all_numeric l : forallb numericb l = true -> forall x, In (EvResult x) l -> number (ls_obj x).
Proof.
  intro H. apply the_results. intros e He. rewrite forallb_forall in H. specialize (H e He). destruct e; simpl in *; auto.
Qed.
Example C106_sequential_case :
  (exists more, steps (record_of slanted_env (one_by_one 6)) = more ++ steps (record_of slanted_env (one_by_one 1)) /\ more <> []) /\
  not_worse [sol1 f2 (of_Z (-2))] [sol1 (of_Z (-2)) f2].
Proof.
  assert (R1 : result_of slanted_env (one_by_one 1) = Ok [sol1 (of_Z (-2)) f2]) by (vm_compute; reflexivity).
  assert (R2 : result_of slanted_env (one_by_one 6) = Ok [sol1 f2 (of_Z (-2))]) by (vm_compute; reflexivity).
  pose proof (run_pair slanted_env (one_by_one 1)) as P1. rewrite R1 in P1.
  pose proof (run_pair slanted_env (one_by_one 6)) as P2. rewrite R2 in P2.
  assert (A : start_state (one_by_one 6) = asking_state 6 (start_state (one_by_one 1))) by (vm_compute; reflexivity).
  assert (N : forallb numericb (record_of slanted_env (one_by_one 6)) = true) by (vm_compute; reflexivity).
  assert (L : (1 <=? 6) = true) by reflexivity. apply Nat.leb_le in L.
  pose proof (record_recorded slanted_env (one_by_one 6)) as Q2.
  rewrite A in P2, Q2. split.
  - destruct (C106_first_steps_partial slanted_env 6 (start_state (one_by_one 1)) _ _ _ _ _ _ P1 (record_recorded slanted_env (one_by_one 1)) P2 Q2
      (fun c (H : None = Some c) => match H in _ = y return match y with Some c => cc_auto_resume c = false | None => True end with eq_refl => I end)
      L (or_introl eq_refl)) as [more M].
    exists more. split; [exact M|]. intros ->.
    assert (X : List.length (steps (record_of slanted_env (one_by_one 6))) =? List.length (steps (record_of slanted_env (one_by_one 1))) = false) by (vm_compute; reflexivity).
    rewrite M in X. apply Nat.eqb_neq in X. apply X. reflexivity.
  - exact (C106_no_worse_partial slanted_env 6 (start_state (one_by_one 1)) _ _ _ _ _ _ P1 (record_recorded slanted_env (one_by_one 1)) P2 Q2
      (fun c (H : None = Some c) => match H in _ = y return match y with Some c => cc_auto_resume c = false | None => True end with eq_refl => I end)
      L (or_introl eq_refl) (conj eq_refl (conj eq_refl eq_refl))
      (fun s0 (H : None = Some s0) => match H in _ = y return match y with Some c => numeric_set c | None => True end with eq_refl => I end)
      (all_numeric _ N)).
Qed.
(** Two candidates and six, two at a time. *)
Definition two_at_a_time (n : nat) : oqnlp := batch_iterations 2 (made (some_of_six n)).
Example C106_batches_case : whole_batches (two_at_a_time 2) /\
  exists more, steps (record_of slanted_env (two_at_a_time 6)) = more ++ steps (record_of slanted_env (two_at_a_time 2)) /\ more <> [].
Proof.
  assert (W : whole_batches (two_at_a_time 2)) by (right; exists 2; split; [reflexivity|exists 1; reflexivity]).
  split; [exact W|].
  pose proof (run_pair slanted_env (two_at_a_time 2)) as P1. pose proof (run_pair slanted_env (two_at_a_time 6)) as P2.
  assert (A : start_state (two_at_a_time 6) = asking_state 6 (start_state (two_at_a_time 2))) by (vm_compute; reflexivity).
  assert (L : (2 <=? 6) = true) by reflexivity. apply Nat.leb_le in L.
  pose proof (record_recorded slanted_env (two_at_a_time 6)) as Q2. rewrite A in P2, Q2.
  destruct (C106_first_steps_partial slanted_env 6 (start_state (two_at_a_time 2)) _ _ _ _ _ _ P1 (record_recorded slanted_env (two_at_a_time 2)) P2 Q2
    (fun c (H : None = Some c) => match H in _ = y return match y with Some c => cc_auto_resume c = false | None => True end with eq_refl => I end)
    L W) as [more M].
  exists more. split; [exact M|]. intros ->.
  assert (X : List.length (steps (record_of slanted_env (two_at_a_time 6))) =? List.length (steps (record_of slanted_env (two_at_a_time 2))) = false) by (vm_compute; reflexivity).
  rewrite M in X. apply Nat.eqb_neq in X. apply X. reflexivity.
Qed.
(** Two candidates and six, three at a time: the first batch grows, and the second one finds
    the deeper minimum. *)
Definition three_at_a_time (n : nat) : oqnlp :=
  batch_iterations 3 (made (mk_params n 6 1 f1 (lit 75 100) COBYLA (cb_build cb_default) 3)).
Example C106_growing_case : fixed_batches (three_at_a_time 2) /\ ~ whole_batches (three_at_a_time 2) /\
  exists setA setB, result_of slanted_env (three_at_a_time 2) = Ok setA /\ result_of slanted_env (three_at_a_time 6) = Ok setB /\ not_worse setB setA /\ setB <> setA.
Proof.
  assert (W : fixed_batches (three_at_a_time 2)) by (right; split; [exists 3; reflexivity|split; reflexivity]).
  split; [exact W|]. split.
  { intros [H|(k & H & m & Hm)]; [discriminate|]. injection H as <-. change (2 = m * 3) in Hm. lia. }
  assert (R1 : result_of slanted_env (three_at_a_time 2) = Ok [sol1 (of_Z (-2)) f2]) by (vm_compute; reflexivity).
  assert (R2 : result_of slanted_env (three_at_a_time 6) = Ok [sol1 f2 (of_Z (-2))]) by (vm_compute; reflexivity).
  pose proof (run_pair slanted_env (three_at_a_time 2)) as P1. rewrite R1 in P1.
  pose proof (run_pair slanted_env (three_at_a_time 6)) as P2. rewrite R2 in P2.
  assert (A : start_state (three_at_a_time 6) = asking_state 6 (start_state (three_at_a_time 2))) by (vm_compute; reflexivity).
  assert (N : forallb numericb (record_of slanted_env (three_at_a_time 6)) = true) by (vm_compute; reflexivity).
  assert (L : (2 <=? 6) = true) by reflexivity. apply Nat.leb_le in L.
  pose proof (record_recorded slanted_env (three_at_a_time 6)) as Q2. rewrite A in P2, Q2.
  exists [sol1 (of_Z (-2)) f2], [sol1 f2 (of_Z (-2))]. split; [exact R1|]. split; [exact R2|].
  split; [|vm_compute; discriminate].
  exact (C106_no_worse_partial slanted_env 6 (start_state (three_at_a_time 2)) _ _ _ _ _ _ P1 (record_recorded slanted_env (three_at_a_time 2)) P2 Q2
    (fun c (H : None = Some c) => match H in _ = y return match y with Some c => cc_auto_resume c = false | None => True end with eq_refl => I end)
    L W (conj eq_refl (conj eq_refl eq_refl))
    (fun s0 (H : None = Some s0) => match H in _ = y return match y with Some c => numeric_set c | None => True end with eq_refl => I end)
    (all_numeric _ N)).
Qed.
(** A local solver that fails on one side: it does so for the second candidate, and for any
    larger number of iterations. *)
Definition one_side : ext :=
  mk_ext (fun _ => true) (fun _ _ => XFail 1%N)
    (fun j => match cj_x0 j with
              | [x] => if flt x f0 then XDone [of_Z (-2)] (cj_objective j [of_Z (-2)]) 3%N else XFail 5%N
              | _ => XFail 2%N
              end).
Definition one_side_env : env := demo_env slanted one_side.
Example C106_failures_case : exists e, result_of one_side_env (one_by_one 2) = Err e /\
  forall n, 2 <= n -> fst (run one_side_env (asking_state n (start_state (one_by_one 2)))) = Err e.
Proof.
  assert (R1 : exists e, result_of one_side_env (one_by_one 2) = Err e /\ match e with LocalSolverError _ => True | _ => False end)
    by (vm_compute; eexists; split; [reflexivity|exact I]).
  destruct R1 as (e & R1 & He). exists e. split; [exact R1|]. intros n Hn.
  pose proof (run_pair one_side_env (one_by_one 2)) as P1. rewrite R1 in P1.
  refine (proj2 (C106_failures_partial one_side_env n (start_state (one_by_one 2)) (Err e) _ (fst (run one_side_env (asking_state n (start_state (one_by_one 2)))))
    (snd (run one_side_env (asking_state n (start_state (one_by_one 2))))) P1 _
    (fun c (H : None = Some c) => match H in _ = y return match y with Some c => cc_auto_resume c = false | None => True end with eq_refl => I end)
    Hn (or_introl eq_refl)) e eq_refl _ _).
  - apply surjective_pairing.
  - intros ->. exact He.
  - intros c ->. exact He.
Qed.
