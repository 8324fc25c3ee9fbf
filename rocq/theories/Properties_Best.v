(** * A result is as good as all that the search saw (C105)

    Statements only; the proofs are lemmas of BestP.v, the vocabulary is SpecBest.v. *)
From Coq Require Import ZArith NArith List Bool Arith Lia String.
From Verif Require Import F64 F64Order Base Builders Types Filters Runner Observer Env EnvSpec ScatterSearch Codec
  Checkpoint Oqnlp Spec SpecStage1 SpecStage2 SpecObserver SpecCheckpoint SpecValues SpecCost SpecBest SpecSave Demo Demo2 DemoStage1 DemoCp Properties_Stage2
  Properties_Checkpoint Properties_Shown1 ValuesP BestP.
Import ListNotations.

(** C105.  In full: the returned set has a member that is as good as every point at which the
    optimizer evaluated the objective - with local solvers that report the values of the points
    they return, *)
Definition C105_full : Prop := forall E s set s' new v, env_ok E -> honest_solvers E ->
  (forall cp, ~ resumes_from E s cp) -> run E s = (Ok set, s') -> recorded s s' new ->
  tolerances_ok (s_o s) -> o_set (s_o s) = None -> o_exclude (s_o s) = false ->
  (forall x, In (EvResult x) new -> number (ls_obj x)) -> (forall v, seen_value E new v -> is_nan v = false) ->
  seen_value E new v -> as_good set v.
(** with a local solver that never ends above its start, and exclude_out_of_bounds, *)
Definition C105_excluding : Prop := forall E s set s' new v, env_ok E -> honest_solvers E -> descends E (s_o s) ->
  (forall cp, ~ resumes_from E s cp) -> run E s = (Ok set, s') -> recorded s s' new ->
  tolerances_ok (s_o s) -> o_set (s_o s) = None ->
  (forall x, In (EvResult x) new -> number (ls_obj x)) -> (forall v, seen_value E new v -> is_nan v = false) ->
  seen_value E new v -> as_good set v.
(** and with such a solver and an objective that is NaN somewhere. *)
Definition C105_nan : Prop := forall E s set s' new v, env_ok E -> honest_solvers E -> descends E (s_o s) ->
  (forall cp, ~ resumes_from E s cp) -> run E s = (Ok set, s') -> recorded s s' new ->
  tolerances_ok (s_o s) -> o_set (s_o s) = None -> o_exclude (s_o s) = false ->
  (forall x, In (EvResult x) new -> number (ls_obj x)) -> seen_value E new v -> is_nan v = false -> as_good set v.

(** checks of concrete records *)
Lemma results_numbers : forall l, forallb (fun e => match e with EvResult x => negb (is_nan (ls_obj x)) && wf (ls_obj x) | _ => true end) l = true ->
  forall x, In (EvResult x) l -> number (ls_obj x).
Proof.
  intros l H x Hx. rewrite forallb_forall in H. specialize (H _ Hx). cbn beta iota in H. apply andb_prop in H as [H1 H2].
  apply negb_true_iff in H1. split; assumption.
Qed.
Definition a_number (r : f64 + N) : bool := match r with inl v => negb (is_nan v) | inr _ => true end.
Lemma seen_numbers : forall E l, forallb (fun p => a_number (pb_objective (e_problem E) p)) (objective_calls l) = true ->
  forall v, seen_value E l v -> is_nan v = false.
Proof.
  intros E l H v (p & Hp & Hv). rewrite forallb_forall in H. specialize (H _ Hp). rewrite Hv in H. apply negb_true_iff. exact H.
Qed.
Definition below (u : f64) (r : f64 + N) : bool := match r with inl v => flt v u | inr _ => false end.
(** a value is seen that is less than the only solution's *)
Lemma not_as_good : forall E l x, existsb (fun p => below (ls_obj x) (pb_objective (e_problem E) p)) (objective_calls l) = true ->
  exists v, seen_value E l v /\ is_nan v = false /\ ~ as_good [x] v.
Proof.
  intros E l x H. apply existsb_exists in H as (p & Hp & H). destruct (pb_objective (e_problem E) p) as [v|] eqn:Hv; [|discriminate H].
  simpl in H. exists v. split; [exists p; auto|]. split.
  - exact (flt_nan_l _ _ H).
  - intros (y & [<-|[]] & Hy). rewrite (fle_not_flt _ _ Hy) in H. discriminate H.
Qed.
Lemma pair_of : forall E o r, result_of E o = r -> run E (start_state o) = (r, state_of E o).
Proof. intros E o r <-. apply run_pair. Qed.
Lemma fresh_start : forall E o, o_cp o = None -> forall cp, ~ resumes_from E (start_state o) cp.
Proof. intros E o H cp (c & Hc & _). simpl in Hc. congruence. Qed.
(** local solvers that run as COBYLA *)
Lemma cobyla_descends : forall P X o, o_solver_type o = COBYLA ->
  (forall j x v n, cobyla_run X j = XDone x v n -> is_nan (cj_objective j (cj_x0 j)) = false -> fle v (cj_objective j (cj_x0 j)) = true) ->
  descends (demo_env P X) o.
Proof.
  intros P X o Ho H p t x n v Hs Hv Hn. rewrite Ho in Hs. apply tracked_with in Hs as (t' & n' & Hs).
  apply cobyla_done in Hs as (j & k & Hs & Hj & _ & _ & Hx). cbn [demo_env e_ext e_problem] in *. specialize (H j _ _ _ Hs).
  rewrite Hj, Hx in H. unfold cobyla_objective in H. rewrite Hv in H. exact (H Hn).
Qed.

(** A solver that goes uphill: it returns 4, where f is 144, and so does the optimizer, although
    it has evaluated points with values below 2. *)
Definition uphill : ext :=
  mk_ext (fun _ => true) (fun _ _ => XFail 1%N) (fun j => XDone [of_Z 4] (cj_objective j [of_Z 4]) 1%N).
Definition uphill_env : env := demo_env two_wells uphill.
Theorem C105_solver_refuted : ~ C105_full.
Proof.
  intro H.
  assert (R : run uphill_env (start_state demo_oqnlp) = (Ok [sol1 (of_Z 4) (of_Z 144)], state_of uphill_env demo_oqnlp)).
  { apply pair_of. vm_compute. reflexivity. }
  destruct (not_as_good uphill_env (record_of uphill_env demo_oqnlp) (sol1 (of_Z 4) (of_Z 144))) as (v & V1 & _ & V2); [vm_compute; reflexivity|].
  apply V2. refine (H uphill_env (start_state demo_oqnlp) _ _ _ v (demo_env_ok _ _) _ (fresh_start _ demo_oqnlp eq_refl) R (record_recorded _ _) _ eq_refl eq_refl _ _ V1).
  - split; [intros j x c n G; discriminate G|]. intros j x c n G. cbn [uphill_env demo_env e_ext uphill cobyla_run] in G. injection G as <- <- _. reflexivity.
  - repeat split.
  - apply results_numbers. vm_compute. reflexivity.
  - apply seen_numbers. vm_compute. reflexivity.
Qed.
Print Assumptions C105_solver_refuted.
(** f(x) = x on [0, 8] and a solver that goes one to the left.  The best point seen is 0; the local
    solution -1 is out of bounds and is dropped, and 0 with it.  What is returned is 1/2. *)
Definition careful (f : point -> point) : ext :=
  mk_ext (fun _ => true) (fun _ _ => XFail 1%N)
    (fun j => let y := f (cj_x0 j) in if is_nan (cj_objective j (cj_x0 j)) || fle (cj_objective j y) (cj_objective j (cj_x0 j)) then XDone y (cj_objective j y) 1%N else XFail 2%N).
Lemma careful_descends : forall P f o, o_solver_type o = COBYLA -> descends (demo_env P (careful f)) o.
Proof.
  intros P f o Ho. apply cobyla_descends; [exact Ho|]. intros j x v n. cbn [careful cobyla_run].
  destruct (_ || _) eqn:F; [|discriminate]. intros G Hn. injection G as _ <- _. rewrite Hn in F. exact F.
Qed.
Lemma careful_honest : forall P f, honest_solvers (demo_env P (careful f)).
Proof.
  intros P f. split; [intros j x c n G; discriminate G|]. intros j x c n. cbn [demo_env e_ext careful cobyla_run].
  destruct (_ || _); [|discriminate]. intros G. injection G as <- <- _. reflexivity.
Qed.
Definition left_env : env := demo_env slope (careful (map (fun x => fsub x f1))).
Definition inside_only : oqnlp := set_o_exclude true demo_oqnlp.
Theorem C105_exclusion_refuted : ~ C105_excluding.
Proof.
  intro H.
  assert (R : run left_env (start_state inside_only) = (Ok [sol1 (lit 1 2) (lit 1 2)], state_of left_env inside_only)).
  { apply pair_of. vm_compute. reflexivity. }
  destruct (not_as_good left_env (record_of left_env inside_only) (sol1 (lit 1 2) (lit 1 2))) as (v & V1 & _ & V2); [vm_compute; reflexivity|].
  apply V2. refine (H left_env (start_state inside_only) _ _ _ v (demo_env_ok _ _) (careful_honest _ _) (careful_descends _ _ inside_only eq_refl)
    (fresh_start _ inside_only eq_refl) R (record_recorded _ _) _ eq_refl _ _ V1).
  - repeat split.
  - apply results_numbers. vm_compute. reflexivity.
  - apply seen_numbers. vm_compute. reflexivity.
Qed.
Print Assumptions C105_exclusion_refuted.
(** f(x) = (x - 6)^2 on [0, 8], undefined at 0: the minimum 6 is evaluated, but it is compared with
    the NaN and not taken into the reference set, and 8 is returned.  (The solver goes to 8 from 0.) *)
Definition cracked_stay : env := demo_env cracked (careful (map (fun x => if feq x f0 then of_Z 8 else x))).
Theorem C105_nan_refuted : ~ C105_nan.
Proof.
  intro H.
  assert (R : run cracked_stay (start_state four) = (Ok [sol1 (of_Z 8) (of_Z 4)], state_of cracked_stay four)).
  { apply pair_of. vm_compute. reflexivity. }
  destruct (not_as_good cracked_stay (record_of cracked_stay four) (sol1 (of_Z 8) (of_Z 4))) as (v & V1 & V3 & V2); [vm_compute; reflexivity|].
  apply V2. refine (H cracked_stay (start_state four) _ _ _ v (demo_env_ok _ _) (careful_honest _ _) (careful_descends _ _ four eq_refl)
    (fresh_start _ four eq_refl) R (record_recorded _ _) _ eq_refl eq_refl _ V1 V3).
  - repeat split.
  - apply results_numbers. vm_compute. reflexivity.
Qed.
Print Assumptions C105_nan_refuted.

(** What holds: if the local solver never ends above its start, no NaN is met and no solution is
    excluded, then the first solution of the returned set is as good as every point that was
    evaluated.  The run begins with Stage 1, on a new optimizer or with tolerances zero.
    Missing: the three cases above. *)
Theorem C105_fresh_partial : forall E s set s' new, env_ok E -> (forall cp, ~ resumes_from E s cp) ->
  run E s = (Ok set, s') -> recorded s s' new -> tolerances_ok (s_o s) ->
  o_set (s_o s) = None \/ (zero_tol (s_o s) /\ forall s0, o_set (s_o s) = Some s0 -> numeric_set s0) ->
  (forall x, In (EvResult x) new -> number (ls_obj x) /\ not_excluded E (s_o s) x) ->
  descends E (s_o s) -> (forall v, seen_value E new v -> is_nan v = false) ->
  forall v, seen_value E new v -> leads_to set v.
Proof. exact c105. Qed.
Print Assumptions C105_fresh_partial.
(** Every checkpoint of such a run, whatever its end, has a first solution that is as good as all
    points of the reference set, *)
Theorem C105_saved_partial : forall E s r s' new, env_ok E -> (forall cp, ~ resumes_from E s cp) ->
  run E s = (r, s') -> recorded s s' new -> tolerances_ok (s_o s) ->
  o_set (s_o s) = None \/ (zero_tol (s_o s) /\ forall s0, o_set (s_o s) = Some s0 -> numeric_set s0) ->
  (forall x, In (EvResult x) new -> number (ls_obj x) /\ not_excluded E (s_o s) x) ->
  descends E (s_o s) -> (forall v, seen_value E new v -> is_nan v = false) ->
  forall f cp, In (EvSave f cp) new -> good_checkpoint E cp.
Proof. exact c105_saved. Qed.
Print Assumptions C105_saved_partial.
(** and a run that resumes from such a checkpoint, with any local solver, returns a set whose first
    solution is as good as every point that it evaluates; its checkpoints are of this kind again. *)
Theorem C105_resumed_partial : forall E s cp r s' new, env_ok E -> resumes_from E s cp -> good_checkpoint E cp ->
  run E s = (r, s') -> recorded s s' new -> (forall x, In (EvResult x) new -> number (ls_obj x)) ->
  (forall set v, r = Ok set -> seen_value E new v -> leads_to set v) /\
  (forall f cp', In (EvSave f cp') new -> good_checkpoint E cp').
Proof. exact c105_resumed. Qed.
Print Assumptions C105_resumed_partial.
(** A run: six points are evaluated, and the solution returned is as good as all.  Seven
    checkpoints are written.  The second example resumes from a checkpoint. *)
Definition walk_env : env := demo_env two_wells (careful (map (fun x => if flt x f0 then of_Z (-2) else of_Z 2))).
Definition walker : oqnlp := saving (sequential demo_oqnlp).
Lemma no_file_yet : forall cp, ~ resumes_from walk_env (start_state walker) cp.
Proof. intros cp (c & Hc & _ & He & _). injection Hc as <-. vm_compute in He. discriminate He. Qed.
Lemma checked_good : forall E cp x rest, cp_solution_set cp = Some (x :: rest) ->
  wf (cp_abs_tol cp) && wf (cp_rel_tol cp) && fle f0 (cp_abs_tol cp) = true ->
  forallb (fun y => negb (is_nan (ls_obj y)) && wf (ls_obj y)) (x :: rest) = true ->
  forallb (fun p => match pb_objective (e_problem E) p with inl v => fle (ls_obj x) v | inr _ => true end) (cp_reference_set cp) = true ->
  good_checkpoint E cp.
Proof.
  intros E cp x rest H1 H2 H3 H4. apply andb_prop in H2 as [H2 H2c]. apply andb_prop in H2 as [H2a H2b].
  split; [exact H2a|]. split; [exact H2b|]. split; [exact H2c|]. exists (x :: rest). split; [exact H1|]. split.
  - split; [discriminate|]. intros y Hy. rewrite forallb_forall in H3. specialize (H3 _ Hy). apply andb_prop in H3 as [A B].
    apply negb_true_iff in A. split; assumption.
  - intros p v Hp Hv. rewrite forallb_forall in H4. specialize (H4 _ Hp). rewrite Hv in H4. exists (ls_obj x).
    split; [exists x, rest; auto|exact H4].
Qed.
Example C105_case : let new := record_of walk_env walker in
  run walk_env (start_state walker) = (Ok [sol1 (of_Z (-2)) f0], state_of walk_env walker) /\
  (forall cp, ~ resumes_from walk_env (start_state walker) cp) /\ tolerances_ok walker /\ o_set walker = None /\
  (forall x, In (EvResult x) new -> number (ls_obj x) /\ not_excluded walk_env walker x) /\ descends walk_env walker /\
  (forall v, seen_value walk_env new v -> is_nan v = false) /\ List.length (objective_calls new) = 6 /\
  List.length (saved new) = 7.
Proof.
  cbv zeta. split; [apply pair_of; vm_compute; reflexivity|]. split; [exact no_file_yet|]. split; [repeat split|]. split; [reflexivity|].
  split.
  { intros x Hx. split; [|left; reflexivity]. revert x Hx. apply results_numbers. vm_compute. reflexivity. }
  split; [apply careful_descends; reflexivity|]. split; [apply seen_numbers; vm_compute; reflexivity|].
  split; vm_compute; reflexivity.
Qed.
Example C105_resumed_case : let s := stopped_with (file_name each_iteration 0) demo_cp walker in
  resumes_from walk_env s demo_cp /\ good_checkpoint walk_env demo_cp /\
  fst (run walk_env s) = Ok [sol1 (of_Z (-2)) f0; sol1 f2 f0] /\
  (forall x, In (EvResult x) (w_trace (s_w (snd (run walk_env s)))) -> number (ls_obj x)) /\
  List.length (objective_calls (w_trace (s_w (snd (run walk_env s))))) = 1.
Proof.
  cbv zeta. split.
  { exists each_iteration. split; [reflexivity|]. split; [reflexivity|]. split; vm_compute; reflexivity. }
  split; [refine (checked_good walk_env demo_cp (sol1 (of_Z (-2)) f0) [] _ _ _ _); vm_compute; reflexivity|].
  split; [vm_compute; reflexivity|]. split; [apply results_numbers|]; vm_compute; reflexivity.
Qed.
