(** * Excluding out-of-bounds solutions (C110)

    Statements only; the proofs are lemmas of ExcludingP.v. *)
From Coq Require Import ZArith NArith List Bool Arith Lia String.
From Verif Require Import F64 Base Builders Types Filters Runner Observer Env EnvSpec ScatterSearch Codec
  Checkpoint Oqnlp Spec SpecStage2 SpecObserver SpecMore SpecExcluding Actions SetP MoreP ExcludingP Demo Demo2 Properties_Stage2 Properties_More Properties_Observer.
Import ListNotations.

(** C110: excluding out-of-bounds solutions changes nothing (in sequential and in parallel mode,
    with and without resuming) unless a local search of the run without the option ends outside
    the bounds: otherwise the two runs do the same, in the same order, and end in the same way.
    (The solutions that the program starts with, if it starts with some, are inside too.) *)
Theorem C110_same : forall E s rA sA na rB sB nb,
  run E s = (rA, sA) -> recorded s sA na -> run E (excluding_state s) = (rB, sB) -> recorded (excluding_state s) sB nb ->
  o_exclude (s_o s) = false ->
  (forall l, o_set (s_o s) = Some l -> l <> [] /\ forall x, In x l -> solution_inside (pb_bounds (e_problem E)) x) ->
  (forall x, In (EvResult x) na -> solution_inside (pb_bounds (e_problem E)) x) ->
  rB = rA /\ effects nb = effects na.
Proof. exact c110_same. Qed.
Print Assumptions C110_same.
(** And where one does end outside, the two runs do the same up to that result (records are
    latest first). *)
Theorem C110_until_outside : forall E s rA sA na rB sB nb,
  run E s = (rA, sA) -> recorded s sA na -> run E (excluding_state s) = (rB, sB) -> recorded (excluding_state s) sB nb ->
  o_exclude (s_o s) = false ->
  (forall l, o_set (s_o s) = Some l -> l <> [] /\ forall x, In x l -> solution_inside (pb_bounds (e_problem E)) x) ->
  (rB = rA /\ effects nb = effects na) \/
  (exists after x before after', na = after ++ EvResult x :: before /\ ~ solution_inside (pb_bounds (e_problem E)) x /\ effects nb = after' ++ effects before).
Proof. exact c110_until. Qed.
Print Assumptions C110_until_outside.

(** Two at a time, with several local searches, all of which end inside: *)
Definition insideb (b : list (f64 * f64)) (e : event) : bool :=
  match e with EvResult x => match within_bounds b (ls_point x) with Some true => true | _ => false end | _ => true end.
Lemma all_inside b l : forallb (insideb b) l = true -> forall x, In (EvResult x) l -> solution_inside b x.
Proof.
  intros H x Hx. apply (proj1 (forallb_forall _ _) H) in Hx. simpl in Hx. apply within_bounds_inside.
  destruct (within_bounds b (ls_point x)) as [[|]|]; [reflexivity|discriminate..].
Qed.
Example C110_case : result_of slanted_env (set_exclude_out_of_bounds true (two_at_a_time 6)) = Ok [sol1 (of_Z (-2)) f2] /\
  effects (record_of slanted_env (set_exclude_out_of_bounds true (two_at_a_time 6))) = effects (record_of slanted_env (two_at_a_time 6)) /\
  results (record_of slanted_env (two_at_a_time 6)) >= 2.
Proof.
  assert (R1 : result_of slanted_env (two_at_a_time 6) = Ok [sol1 (of_Z (-2)) f2]) by (vm_compute; reflexivity).
  pose proof (run_pair slanted_env (two_at_a_time 6)) as P1. rewrite R1 in P1.
  pose proof (run_pair slanted_env (set_exclude_out_of_bounds true (two_at_a_time 6))) as P2.
  pose proof (record_recorded slanted_env (set_exclude_out_of_bounds true (two_at_a_time 6))) as Q2.
  assert (A : start_state (set_exclude_out_of_bounds true (two_at_a_time 6)) = excluding_state (start_state (two_at_a_time 6))) by reflexivity.
  rewrite A in P2, Q2.
  assert (N : forallb (insideb (pb_bounds (e_problem slanted_env))) (record_of slanted_env (two_at_a_time 6)) = true) by (vm_compute; reflexivity).
  assert (S : o_set (s_o (start_state (two_at_a_time 6))) = None) by reflexivity.
  destruct (C110_same slanted_env (start_state (two_at_a_time 6)) _ _ _ _ _ _ P1 (record_recorded slanted_env (two_at_a_time 6)) P2 Q2 eq_refl) as [H1 H2].
  - intros l Hl. rewrite S in Hl. discriminate.
  - exact (all_inside _ _ N).
  - split; [exact H1|]. split; [exact H2|]. apply Nat.leb_le. vm_compute. reflexivity.
Qed.
(** The hypothesis is needed: where a local search ends outside, the option makes a difference
    (another number of stored sets), but not before. *)
Example C110_outside_case : stores (record_of stray_env stray_run) <> stores (record_of stray_env late_run) /\
  exists after x before after', record_of stray_env late_run = after ++ EvResult x :: before /\
    ~ solution_inside (pb_bounds (e_problem stray_env)) x /\ effects (record_of stray_env stray_run) = after' ++ effects before.
Proof.
  split; [apply Nat.eqb_neq; vm_compute; reflexivity|].
  pose proof (run_pair stray_env late_run) as P1. pose proof (run_pair stray_env stray_run) as P2. pose proof (record_recorded stray_env stray_run) as Q2.
  assert (A : start_state stray_run = excluding_state (start_state late_run)) by reflexivity.
  rewrite A in P2, Q2.
  assert (S : o_set (s_o (start_state late_run)) = None) by reflexivity.
  assert (X : stores (effects (record_of stray_env stray_run)) =? stores (effects (record_of stray_env late_run)) = false) by (vm_compute; reflexivity).
  apply Nat.eqb_neq in X.
  destruct (C110_until_outside stray_env (start_state late_run) _ _ _ _ _ _ P1 (record_recorded stray_env late_run) P2 Q2 eq_refl) as [[_ H]|H].
  - intros l Hl. rewrite S in Hl. discriminate.
  - rewrite H in X. contradiction X. reflexivity.
  - exact H.
Qed.
