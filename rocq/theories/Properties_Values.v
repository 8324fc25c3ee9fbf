(** * Objective values and constraints of solutions: C93, C95 *)
From Coq Require Import ZArith NArith List Bool Arith Lia String.
From Verif Require Import F64 Base Builders Types Filters Runner Observer Env EnvSpec ScatterSearch Codec Checkpoint
  Oqnlp Spec SpecStage1 SpecStage2 SpecObserver SpecCheckpoint SpecPanic SpecSession SpecValues Demo Demo2 DemoCp DemoSession
  SessionP MembersP ValuesP.
Import ListNotations.

Definition any_solver (ty : solver_type) : Prop := True.

(** ** C93 *)
(** C93 is false of the code: COBYLA is handed an objective that is +infinity where the
    problem's objective returns an error, so a solution may stand for a point at which the
    objective has no value.  Here the objective is +infinity everywhere (a penalty, say) and
    fails at one point, where COBYLA stops. *)
Definition C93_full : Prop := forall P p l s0 s E set s' x, begins p s0 -> session l s0 s ->
  Forall (about P any_solver honest_solvers) l -> e_problem E = P -> honest_solvers E -> cobyla_improves E ->
  run E s = (Ok set, s') -> saves_fit s' -> In x set -> true_value P x.
Definition hole : f64 := lit 31 10.
Definition penalty : problem :=
  mk_problem (fun p => match p with [x] => if feq x hole then inr 5%N else inl pinf | _ => inr 7%N end)
    (fun _ => inr 1%N) (fun _ => inr 1%N) [(of_Z (-4), of_Z 5)] [].
Definition to_hole : ext :=
  mk_ext (fun _ => true) (fun _ _ => XFail 1%N)
    (fun j => if flt (cj_objective j (cj_x0 j)) (cj_objective j [hole]) then XFail 1%N
              else XDone [hole] (cj_objective j [hole]) 3%N).
Lemma hole_honest : honest_solvers (demo_env penalty to_hole) /\ cobyla_improves (demo_env penalty to_hole).
Proof.
  split; [split|].
  - intros j x c n H. discriminate H.
  - intros j x v n. cbn [demo_env e_ext to_hole cobyla_run]. destruct (flt _ _); [discriminate|]. intros H. injection H as <- <- _. reflexivity.
  - intros j x v n. cbn [demo_env e_ext to_hole cobyla_run]. destruct (flt _ _) eqn:F; [discriminate|]. intros H. injection H as <- <- _. exact F.
Qed.
Theorem C93_cobyla_refuted : ~ C93_full.
Proof.
  intro H. destruct hole_honest as [Hh Hi].
  assert (R : run (demo_env penalty to_hole) (start_state demo_oqnlp) =
              (Ok [sol1 hole pinf], state_of (demo_env penalty to_hole) demo_oqnlp)) by (vm_compute; reflexivity).
  assert (F : saves_fit (state_of (demo_env penalty to_hole) demo_oqnlp)) by (apply saves_okb_fit; vm_compute; reflexivity).
  pose proof (H penalty demo_params [] _ _ (demo_env penalty to_hole) _ _ (sol1 hole pinf) demo_begins (SNil _) (Forall_nil _) eq_refl Hh Hi R F
                (or_introl eq_refl)) as X.
  vm_compute in X. discriminate X.
Qed.
Print Assumptions C93_cobyla_refuted.
(** This is the only exception: in every session with honest solvers each returned solution
    carries the objective's value at its point, or +infinity where the objective fails. *)
Theorem C93_returned_partial : forall P p l s0 s E set s' x, begins p s0 -> session l s0 s ->
  Forall (about P any_solver honest_solvers) l -> e_problem E = P -> honest_solvers E ->
  run E s = (Ok set, s') -> saves_fit s' -> In x set -> true_value P x \/ failed_value P x.
Proof.
  intros P p l s0 s E set s' x B. exact (returned_in P any_solver honest_solvers _ (c93_result P) p l s0 s E set s' x B I).
Qed.
Print Assumptions C93_returned_partial.
(** The same holds of the set that the optimizer stores and of the sets in the checkpoint files. *)
Theorem C93_stored_partial : forall P p l s0 s, begins p s0 -> session l s0 s ->
  Forall (about P any_solver honest_solvers) l -> saves_fit s ->
  (forall set x, o_set (s_o s) = Some set -> In x set -> true_value P x \/ failed_value P x) /\
  (forall x, checkpointed s x -> true_value P x \/ failed_value P x).
Proof. intros P p l s0 s B. exact (stored_in P any_solver honest_solvers _ (c93_result P) p l s0 s B I). Qed.
Print Assumptions C93_stored_partial.
(** With the other five solvers there is no exception. *)
Theorem C93_argmin_partial : forall P p l s0 s E set s' x, begins p s0 -> p_solver_type p <> COBYLA -> session l s0 s ->
  Forall (about P (fun ty => ty <> COBYLA) honest_solvers) l -> e_problem E = P -> honest_solvers E ->
  run E s = (Ok set, s') -> saves_fit s' -> In x set -> true_value P x.
Proof. intros P. exact (returned_in P _ honest_solvers (true_value P) (c93_other P)). Qed.
Print Assumptions C93_argmin_partial.
Lemma wells_honest : honest_solvers wells_env.
Proof.
  split; [intros j x c n H; discriminate H|]. intros j x v n. cbn [wells_env demo_env e_ext to_well cobyla_run].
  destruct (cj_x0 j) as [|a [|b l]]; try discriminate. destruct (flt a f0); intros H; injection H as <- <- _; reflexivity.
Qed.
Example C93_example : begins demo_params (start_state demo_oqnlp) /\ session demo_calls (start_state demo_oqnlp) st_f /\
  Forall (about two_wells any_solver honest_solvers) demo_calls /\ saves_fit st_f /\
  o_set (s_o st_f) = Some [sol1 (of_Z (-2)) f0; sol1 f2 f0] /\ true_value two_wells (sol1 f2 f0).
Proof.
  split; [exact demo_begins|]. split; [exact demo_session|].
  split; [unfold demo_calls, map; repeat (apply Forall_cons; [split; [reflexivity|split; [exact wells_honest|exact I]]|]); constructor|].
  split; [exact demo_fit|]. split; vm_compute; reflexivity.
Qed.
(** a Nelder-Mead run: argmin returns the well on the side of the first vertex *)
Definition nm_ext : ext :=
  mk_ext (fun _ => true)
    (fun P j => match j with
                | JNelderMead ([x] :: _) _ _ _ _ _ _ =>
                    let y := [if flt x f0 then of_Z (-2) else of_Z 2] in
                    match pb_objective P y with inl v => XDone (Some y) v 9%N | inr e => XFail e end
                | _ => XFail 1%N
                end) (fun _ => XFail 2%N).
Definition nm_params : params := mk_params 6 6 1 (of_Z 20) (lit 75 100) NelderMead (nm_build nm_default) 3.
Lemma nm_honest P : honest_solvers (demo_env P nm_ext).
Proof.
  split; [|intros j x v n H; discriminate H]. intros j x c n. cbn [demo_env e_ext e_problem nm_ext argmin_run].
  destruct j as [| [|[|a [|b q]] r] | | |]; try discriminate. destruct (pb_objective P _) eqn:H; [|discriminate].
  intros X. injection X as <- <- _. exact H.
Qed.
Example C93_argmin_example : p_solver_type nm_params <> COBYLA /\ honest_solvers (demo_env two_wells nm_ext) /\
  result_of (demo_env two_wells nm_ext) (made nm_params) = Ok [sol1 (of_Z (-2)) f0; sol1 f2 f0].
Proof. split; [discriminate|]. split; [apply nm_honest|]. vm_compute. reflexivity. Qed.

(** ** C95 *)
(** In every session that uses COBYLA, whatever COBYLA guarantees of the points it returns
    holds, for the bounds and constraints of the problem, of each solution that a run
    returns, *)
Theorem C95_returned : forall R P p l s0 s E set s' x, begins p s0 -> p_solver_type p = COBYLA -> session l s0 s ->
  Forall (about P (eq COBYLA) (cobyla_ensures R)) l -> e_problem E = P -> cobyla_ensures R E ->
  run E s = (Ok set, s') -> saves_fit s' -> In x set -> R (pb_bounds P) (pb_constraints P) (ls_point x).
Proof.
  intros R P p l s0 s E set s' x B Hp. exact (returned_in P _ _ _ (c95_result R P) p l s0 s E set s' x B (eq_sym Hp)).
Qed.
Print Assumptions C95_returned.
(** of each solution that is stored, and of each solution in a checkpoint file. *)
Theorem C95_stored : forall R P p l s0 s, begins p s0 -> p_solver_type p = COBYLA -> session l s0 s ->
  Forall (about P (eq COBYLA) (cobyla_ensures R)) l -> saves_fit s ->
  (forall set x, o_set (s_o s) = Some set -> In x set -> R (pb_bounds P) (pb_constraints P) (ls_point x)) /\
  (forall x, checkpointed s x -> R (pb_bounds P) (pb_constraints P) (ls_point x)).
Proof. intros R P p l s0 s B Hp. exact (stored_in P _ _ _ (c95_result R P) p l s0 s B (eq_sym Hp)). Qed.
Print Assumptions C95_stored.
(** "Only available with the COBYLA local solver": the other solvers do not see them. *)
Theorem C95_others : forall X P cs ty cfg x, argmin_ignores_constraints X -> ty <> COBYLA ->
  solve X (with_constraints cs P) ty cfg x = solve X P ty cfg x.
Proof. intros X P cs ty cfg x HX D. unfold solve. rewrite others_ignore; auto. Qed.
Print Assumptions C95_others.
(** two wells, of which the constraint x >= 0 leaves one; COBYLA returns a feasible point or fails *)
Definition right_half : problem := with_constraints [fun p => match p with [x] => x | _ => f0 end] two_wells.
Definition feasible_well : ext :=
  mk_ext (fun _ => true) (fun _ _ => XFail 1%N)
    (fun j => if forallb (fun g => fge (g [f2]) f0) (cj_constraints j) then XDone [f2] (cj_objective j [f2]) 3%N else XFail 2%N).
Definition right_env : env := demo_env right_half feasible_well.
Lemma well_feasible : cobyla_ensures (fun _ cs x => satisfies cs x) right_env.
Proof.
  intros j x v n. cbn [right_env demo_env e_ext feasible_well cobyla_run].
  destruct (forallb _ _) eqn:H; [|discriminate]. intros X. injection X as <- _ _. apply Forall_forall. apply forallb_forall. exact H.
Qed.
Example C95_example : cobyla_ensures (fun _ cs x => satisfies cs x) right_env /\ pb_constraints right_half <> [] /\
  result_of right_env demo_oqnlp = Ok [sol1 f2 f0] /\ satisfies (pb_constraints right_half) [f2].
Proof.
  split; [exact well_feasible|]. split; [discriminate|]. split; [vm_compute; reflexivity|].
  apply Forall_cons; [vm_compute; reflexivity|apply Forall_nil].
Qed.
(** Nelder-Mead returns a point that violates the constraint, *)
Definition left_ext : ext :=
  mk_ext (fun _ => true)
    (fun P j => match pb_objective P [of_Z (-2)] with inl v => XDone (Some [of_Z (-2)]) v 9%N | inr e => XFail e end)
    (fun _ => XFail 2%N).
Example C95_others_example : argmin_ignores_constraints left_ext /\
  solve left_ext right_half NelderMead (nm_build nm_default) [f1] = Ok (sol1 (of_Z (-2)) f0) /\
  solve left_ext two_wells NelderMead (nm_build nm_default) [f1] = Ok (sol1 (of_Z (-2)) f0) /\
  ~ satisfies (pb_constraints right_half) [of_Z (-2)].
Proof.
  split; [intros P cs j; reflexivity|]. split; [vm_compute; reflexivity|]. split; [vm_compute; reflexivity|].
  intros H. inversion H as [|g l H1 H2]. vm_compute in H1. discriminate H1.
Qed.
