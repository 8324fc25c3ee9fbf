(** * Objective values and constraints of solutions (C93, C95) *)
From Coq Require Import ZArith NArith List Bool Arith Lia String.
From Verif Require Import F64 Base Builders Types Filters Runner Observer Env EnvSpec ScatterSearch Codec Checkpoint
  Oqnlp Spec SpecSession SpecValues Actions RunP NoPanicP MembersP.
Import ListNotations.

(** what a finished search returned *)
Lemma exec_done X P t j x n : exec X P t j = Ok (x, n) -> exists k, argmin_run X P j = XDone (Some (ls_point x)) (ls_obj x) k.
Proof.
  unfold exec. destruct (argmin_run X P j) as [[b|] c k|r]; try discriminate. intros H. injection H as <- _. exists k. reflexivity.
Qed.
Lemma tracked_with E ty cfg p t x n : solve_tracked E ty cfg p t = Ok (x, n) ->
  exists t' n', solve_with_tracking (e_ext E) (e_problem E) ty cfg p t' = Ok (x, n').
Proof.
  unfold solve_tracked, solve. destruct t; [eauto|].
  destruct (solve_with_tracking (e_ext E) (e_problem E) ty cfg p false) as [[x' n']|e|] eqn:H; try discriminate.
  intros H'. injection H' as <- _. eauto.
Qed.
Ltac steps H :=
  repeat (apply step_ok in H); try (apply ls_ok in H as [?lsj H]); repeat (apply step_ok in H).
Lemma argmin_done X P ty cfg p t x n : ty <> COBYLA -> solve_with_tracking X P ty cfg p t = Ok (x, n) ->
  exists j k, argmin_run X P j = XDone (Some (ls_point x)) (ls_obj x) k.
Proof.
  intros Hty H. destruct ty; [..|contradiction Hty; reflexivity]; cbn [solve_with_tracking] in H.
  - destruct cfg; try discriminate. cbn [solve_lbfgs] in H. steps H. destruct l1_coefficient as [v|]; steps H;
      apply exec_done in H as [k H]; eauto.
  - destruct cfg; try discriminate. cbn [solve_nelder_mead] in H. steps H. apply exec_done in H as [k H]; eauto.
  - destruct cfg; try discriminate. cbn [solve_steepestdescent] in H. steps H. apply exec_done in H as [k H]; eauto.
  - destruct cfg; try discriminate. cbn [solve_trust_region] in H. steps H. apply exec_done in H as [k H]; eauto.
  - destruct cfg; try discriminate. cbn [solve_newton_cg] in H. steps H. destruct line_search_params; steps H; apply exec_done in H as [k H]; eauto.
Qed.
Lemma cobyla_done X P cfg p t x n : solve_with_tracking X P COBYLA cfg p t = Ok (x, n) ->
  exists j k, cobyla_run X j = XDone (ls_point x) (ls_obj x) k /\ cj_objective j = cobyla_objective P /\
    cj_bounds j = pb_bounds P /\ cj_constraints j = pb_constraints P /\ cj_x0 j = p.
Proof.
  cbn [solve_with_tracking]. destruct cfg; try discriminate. cbn [solve_cobyla].
  destruct (Nat.eqb _ _); [|discriminate]. match goal with |- match cobyla_run X ?j with _ => _ end = _ -> _ => set (jj := j) end.
  destruct (cobyla_run X jj) as [b c k|r] eqn:Hr; [|discriminate]. intros H. injection H as <- _. exists jj, k. auto.
Qed.
Lemma honest_any E ty cfg p t x n : honest_solvers E -> solve_tracked E ty cfg p t = Ok (x, n) ->
  true_value (e_problem E) x \/ failed_value (e_problem E) x.
Proof.
  intros [Ha Hc] H. apply tracked_with in H as (t' & n' & H).
  assert (D : ty = COBYLA \/ ty <> COBYLA) by (destruct ty; auto; right; discriminate). destruct D as [->|D].
  - apply cobyla_done in H as (j & k & H & Ho & _). apply Hc in H. rewrite Ho in H. unfold cobyla_objective in H.
    unfold true_value, failed_value. destruct (pb_objective (e_problem E) (ls_point x)) as [v|e]; [left; congruence|right; eauto].
  - apply argmin_done in H as (j & k & H); auto. left. eapply Ha; eauto.
Qed.
Lemma honest_argmin E ty cfg p t x n : honest_solvers E -> ty <> COBYLA -> solve_tracked E ty cfg p t = Ok (x, n) ->
  true_value (e_problem E) x.
Proof.
  intros [Ha Hc] D H. apply tracked_with in H as (t' & n' & H). apply argmin_done in H as (j & k & H); auto. eapply Ha; eauto.
Qed.
Lemma ensures_cobyla R E ty cfg p t x n : cobyla_ensures R E -> ty = COBYLA -> solve_tracked E ty cfg p t = Ok (x, n) ->
  R (pb_bounds (e_problem E)) (pb_constraints (e_problem E)) (ls_point x).
Proof.
  intros Hc -> H. apply tracked_with in H as (t' & n' & H). apply cobyla_done in H as (j & k & H & _ & <- & <- & _). eapply Hc; eauto.
Qed.

(** ** Sessions *)
Lemma about_fits P T (S : env -> Prop) G : (forall E, e_problem E = P -> S E -> results_hold T G E) -> forall l, Forall (about P T S) l -> Forall (fits T G) l.
Proof.
  intros H l. apply Forall_impl. intros [E c] (HP & HS & HC). unfold fits. simpl in *. destruct c; auto.
Qed.
Section Session.
Context (P : problem) (T : solver_type -> Prop) (S : env -> Prop) (G : lsol -> Prop).
Hypothesis H : forall E ty cfg p t x n, e_problem E = P -> S E -> T ty -> solve_tracked E ty cfg p t = Ok (x, n) -> G x.
Lemma stored_hold p l s0 s : begins p s0 -> T (p_solver_type p) -> session l s0 s -> Forall (about P T S) l -> saves_fit s ->
  (forall set, o_set (s_o s) = Some set -> Forall G set) /\
  checkpoints_hold (fun cp => forall set, cp_solution_set cp = Some set -> Forall G set) s.
Proof.
  intros B Hp Hs Hl F. destruct (session_members T G p l s0 s B Hp Hs) as ((_ & _ & G1) & _ & G3); auto.
  - revert Hl. apply about_fits. intros E HP HS ty cfg q t x n. apply H; assumption.
  - split; [exact G1|]. intros f b cp I1 I2. exact (proj2 (G3 F f b cp I1 I2)).
Qed.
Lemma returned_hold p l s0 s E set s' : begins p s0 -> T (p_solver_type p) -> session l s0 s -> Forall (about P T S) l ->
  e_problem E = P -> S E -> run E s = (Ok set, s') -> saves_fit s' -> Forall G set.
Proof.
  intros B Hp Hs Hl HP HS R F.
  refine (proj1 (stored_hold p ((E, CRun) :: l) s0 s' B Hp (SStep l E CRun s0 s s' Hs (DRun E s _ s' R)) _ F) set _).
  - constructor; [split; [exact HP|split; [exact HS|exact Logic.I]]|exact Hl].
  - exact (proj2 (run_acts E s _ s' R) set eq_refl).
Qed.
Lemma returned_in p l s0 s E set s' x : begins p s0 -> T (p_solver_type p) -> session l s0 s -> Forall (about P T S) l ->
  e_problem E = P -> S E -> run E s = (Ok set, s') -> saves_fit s' -> In x set -> G x.
Proof. intros B Hp Hs Hl HP HS R F. apply Forall_forall. eapply returned_hold; eauto. Qed.
Lemma stored_in p l s0 s : begins p s0 -> T (p_solver_type p) -> session l s0 s -> Forall (about P T S) l -> saves_fit s ->
  (forall set x, o_set (s_o s) = Some set -> In x set -> G x) /\ (forall x, checkpointed s x -> G x).
Proof.
  intros B Hp Hs Hl F. destruct (stored_hold p l s0 s B Hp Hs Hl F) as [G1 G2]. split.
  - intros set x H1. apply Forall_forall. apply G1. exact H1.
  - intros x (f & b & cp & set & H1 & H2 & H3 & H4). exact (proj1 (Forall_forall _ _) (G2 f b cp H1 H2 set H3) x H4).
Qed.
End Session.
Lemma c93_result P E ty cfg p t x n : e_problem E = P -> honest_solvers E -> True -> solve_tracked E ty cfg p t = Ok (x, n) ->
  true_value P x \/ failed_value P x.
Proof. intros <- H _. apply honest_any. exact H. Qed.
Lemma c93_other P E ty cfg p t x n : e_problem E = P -> honest_solvers E -> ty <> COBYLA -> solve_tracked E ty cfg p t = Ok (x, n) -> true_value P x.
Proof. intros <-. apply honest_argmin. Qed.
Lemma c95_result R P E ty cfg p t x n : e_problem E = P -> cobyla_ensures R E -> COBYLA = ty -> solve_tracked E ty cfg p t = Ok (x, n) ->
  R (pb_bounds P) (pb_constraints P) (ls_point x).
Proof. intros <- H D. apply ensures_cobyla; auto. Qed.

(** ** C95: the other solvers *)
Lemma step_eq X A mk c (k k' : outcome ls_error A) : k = k' -> Runner.step X mk c k = Runner.step X mk c k'.
Proof. intros ->. reflexivity. Qed.
Lemma ls_eq X A mk l (k k' : ls_job -> outcome ls_error A) : (forall j, k j = k' j) -> build_ls X mk l k = build_ls X mk l k'.
Proof.
  intros H. destruct l; cbn [build_ls]; unfold Runner.step, bounds2;
    repeat match goal with
    | |- (if ?b then _ else _) = (if ?b then _ else _) => destruct b; [|reflexivity]
    | |- match ?b with _ => _ end = match ?b with _ => _ end => destruct b; try reflexivity
    end; apply H.
Qed.
Lemma others_ignore X P cs ty cfg p t : argmin_ignores_constraints X -> ty <> COBYLA ->
  solve_with_tracking X (with_constraints cs P) ty cfg p t = solve_with_tracking X P ty cfg p t.
Proof.
  intros HX D. assert (He : forall j, exec X (with_constraints cs P) t j = exec X P t j) by (intros j; unfold exec; rewrite HX; reflexivity).
  destruct ty; [..|contradiction D; reflexivity]; cbn [solve_with_tracking]; destruct cfg; try reflexivity;
    cbn [solve_lbfgs solve_nelder_mead solve_steepestdescent solve_trust_region solve_newton_cg];
    repeat first [apply step_eq | apply ls_eq; intro | apply He
                 | match goal with |- match ?b with _ => _ end = match ?b with _ => _ end => destruct b end].
Qed.
