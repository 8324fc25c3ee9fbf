(** * Properties of filters, solution sets, construction, solver dispatch and builders

    Statements only; each proof is a lemma of BasicP.v or SolverP.v.  The vocabulary is in
    Spec.v.  An [Example] beside a theorem shows that its hypotheses can be met. *)
From Coq Require Import ZArith NArith List Bool Arith Permutation String Ascii.
From Verif Require Import F64 Base Builders Types Filters Runner Observer Env ScatterSearch Codec
  Checkpoint Oqnlp Spec BasicP SolverP.
Import ListNotations.

(** C01: after any updates, a value passes the merit filter exactly when it is <= the last
    threshold set (+infinity if none). *)
Theorem C01_merit_filter : forall (updates : list f64) (v : f64),
  (mf_check (fold_left mf_update updates mf_new) v = true <->
     fle v (last_written pinf updates) = true) /\
  (mf_check mf_new v = true <-> is_nan v = false) /\
  (is_nan v = true -> mf_check (fold_left mf_update updates mf_new) v = false) /\
  (is_nan (last_written pinf updates) = true -> mf_check (fold_left mf_update updates mf_new) v = false).
Proof. exact merit_all. Qed.
Print Assumptions C01_merit_filter.
Example C01_example :
  mf_check (fold_left mf_update [pinf; of_Z 5; of_Z (-5)] mf_new) (of_Z (-6)) = true /\
  mf_check (fold_left mf_update [pinf; of_Z 5; of_Z (-5)] mf_new) (of_Z (-4)) = false /\
  mf_check (fold_left mf_update [NaN false] mf_new) (of_Z (-4)) = false.
Proof. vm_compute. auto. Qed.

(** C02: a point passes the distance filter exactly when its squared distance to every
    recorded solution exceeds the square of the factor. *)
Theorem C02_distance_filter : forall p f added q, df_new p = inl f ->
  (df_check (fold_left df_add added f) q = true <->
   forall s, In s added ->
     flt (fmul (fp_distance_factor p) (fp_distance_factor p)) (dist2 q (ls_point s)) = true).
Proof. exact df_check_iff. Qed.
Print Assumptions C02_distance_filter.
Theorem C02_order_irrelevant : forall p f added added' q, df_new p = inl f -> Permutation added added' ->
  df_check (fold_left df_add added f) q = df_check (fold_left df_add added' f) q.
Proof. exact df_perm. Qed.
Print Assumptions C02_order_irrelevant.
Theorem C02_additions_only_reject : forall f s q, df_check f q = false -> df_check (df_add f s) q = false.
Proof. exact df_monotone. Qed.
Print Assumptions C02_additions_only_reject.
Theorem C02_new_fails_iff_negative : forall p v, df_new p = inr v <->
  (flt (fp_distance_factor p) f0 = true /\ v = fp_distance_factor p).
Proof. exact df_new_fails. Qed.
Print Assumptions C02_new_fails_iff_negative.
Example C02_example : exists f, df_new (mk_fparams (of_Z 2) 5 (lit 2 10)) = inl f /\
  let g := fold_left df_add [mk_lsol [f0; f0; f0] (of_Z 5)] f in
  df_check g [f1; f1; f1] = false /\ df_check g [of_Z 3; of_Z 4; of_Z 3] = true.
Proof.
  exists (mk_df [] (mk_fparams (of_Z 2) 5 (lit 2 10))). split; [reflexivity|]. vm_compute. auto.
Qed.

(** C03: [best_solution] is the earliest member whose objective is least in total order. *)
Theorem C03_best_solution : forall s : solset,
  match best_solution s with
  | None => s = []
  | Some y => exists n, nth_error s n = Some y /\
      forall j z, nth_error s j = Some z ->
        total_le (ls_obj y) (ls_obj z) = true /\ (j < n -> total_lt (ls_obj y) (ls_obj z) = true)
  end.
Proof. exact best_solution_spec. Qed.
Print Assumptions C03_best_solution.
Theorem C03_none_iff_empty : forall s, best_solution s = None <-> s = [].
Proof. exact best_solution_none. Qed.
Print Assumptions C03_none_iff_empty.
Theorem C03_nothing_strictly_better : forall s y z, best_solution s = Some y -> In z s ->
  flt (ls_obj z) (ls_obj y) = true -> False.
Proof. exact best_solution_no_better. Qed.
Print Assumptions C03_nothing_strictly_better.
(** A NaN is returned although a non-NaN member exists only if it is a negative NaN. *)
Theorem C03_nan_only_if_negative : forall s y z, best_solution s = Some y -> In z s ->
  is_nan (ls_obj y) = true -> is_nan (ls_obj z) = false -> ls_obj y = NaN true.
Proof. exact best_solution_nan. Qed.
Print Assumptions C03_nan_only_if_negative.
Example C03_example :
  best_solution [mk_lsol [f1] (of_Z 3); mk_lsol [f2] (of_Z (-1)); mk_lsol [f0] (of_Z (-1)); mk_lsol [] (NaN false)]
  = Some (mk_lsol [f2] (of_Z (-1))).
Proof. vm_compute. reflexivity. Qed.

(** C04: the constructor accepts exactly the region [valid_params] and otherwise reports the
    first violated rule; a new optimizer has the documented initial state. *)
Theorem C04_constructor : forall p,
  ((exists o, oq_new p = Ok o) <-> valid_params p) /\
  (forall e, oq_new p = Err e <-> first_violation p e) /\
  oq_new p <> Panic /\
  (forall o, oq_new p = Ok o -> fresh_optimizer p o).
Proof. exact oq_new_spec. Qed.
Print Assumptions C04_constructor.
Example C04_example : valid_params (mk_params 5 10 15 (lit 2 10) (lit 75 100) COBYLA doc_cobyla 0).
Proof. vm_compute. repeat split; repeat constructor. Qed.

(** C05 (refuted): the documentation says "at least 3", but no record with a population of
    3 is accepted, whatever its other fields. *)
Definition population_of_three_is_usable : Prop :=
  forall p, p_population p = 3 -> p_iterations p <= 3 -> fle (p_threshold_factor p) f0 = false ->
            flt (p_distance_factor p) f0 = false -> exists o, oq_new p = Ok o.
Theorem C05_population_three_refuted : ~ population_of_three_is_usable.
Proof. exact population_three_unusable. Qed.
Print Assumptions C05_population_three_refuted.
Theorem C05_population_three_always_rejected : forall p, p_population p = 3 ->
  oq_new p = Err (InvalidPopulationSize 3).
Proof. exact population_three_rejected. Qed.
Print Assumptions C05_population_three_always_rejected.
(** What holds instead: 4 or more is accepted. *)
Theorem C05_population_four_usable_partial : forall p, 4 <= p_population p ->
  p_iterations p <= p_population p -> fle (p_threshold_factor p) f0 = false ->
  flt (p_distance_factor p) f0 = false -> exists o, oq_new p = Ok o.
Proof. exact population_four_ok. Qed.
Print Assumptions C05_population_four_usable_partial.

(** C06: custom points. *)
Theorem C06_accepted_iff_all_rows_ok : forall E rows o,
  (exists o', with_points E rows o = Ok o') <-> Forall (row_ok (pb_bounds (e_problem E))) rows.
Proof. exact with_points_ok_iff. Qed.
Print Assumptions C06_accepted_iff_all_rows_ok.
Theorem C06_custom_points : forall E rows o,
  match with_points E rows o with
  | Ok o' => Forall (row_ok (pb_bounds (e_problem E))) rows /\ o' = set_o_custom (Some rows) o
  | Err e => exists i row, first_such (fun p => ~ row_ok (pb_bounds (e_problem E)) p) rows i row /\
      (e = InvalidCustomPointsDimension i (List.length (pb_bounds (e_problem E))) (List.length row) /\
         List.length row <> List.length (pb_bounds (e_problem E)) \/
       e = CustomPointOutOfBounds i /\ List.length row = List.length (pb_bounds (e_problem E)))
  | Panic => False
  end.
Proof. exact with_points_spec. Qed.
Print Assumptions C06_custom_points.
Example C06_example :
  check_points [(of_Z (-3), of_Z 3); (of_Z (-2), of_Z 2)] 0 [[f1; f1]; [f0; of_Z 5]; [f1]]
    = Err (CustomPointOutOfBounds 1) /\
  check_points [(of_Z (-3), of_Z 3); (of_Z (-2), of_Z 2)] 0 [[f1; f1]; [of_Z 3; of_Z (-2)]] = Ok tt.
Proof. vm_compute. auto. Qed.

(** C07: bounds. *)
Theorem C07_bounds : forall E p ctx,
  match ss_new E p ctx with
  | Ok s => Forall (fun b => ~ empty_or_inverted b) (pb_bounds (e_problem E)) /\
            ss_lower s = map fst (pb_bounds (e_problem E)) /\
            ss_upper s = map snd (pb_bounds (e_problem E))
  | Err e => exists i lo hi, first_such empty_or_inverted (pb_bounds (e_problem E)) i (lo, hi) /\
             e = InvalidBounds i lo hi
  | Panic => False
  end.
Proof. exact ss_new_spec. Qed.
Print Assumptions C07_bounds.
Theorem C07_nan_bounds_not_rejected : forall lo hi, is_nan lo = true \/ is_nan hi = true ->
  ~ empty_or_inverted (lo, hi).
Proof. exact nan_not_rejected. Qed.
Print Assumptions C07_nan_bounds_not_rejected.
Example C07_example :
  bad_bound 0 [(f0, f1); (f1, f1); (f2, f0)] = Some (InvalidBounds 1 f1 f1) /\
  bad_bound 0 [(f0, f1); (NaN false, f1)] = None.
Proof. vm_compute. auto. Qed.

(** C57: a configuration of another solver is rejected before anything is run (whatever the
    external solvers and the problem are) ... *)
Theorem C57_mismatch_iff : forall X P ty cfg x0 track,
  solve_with_tracking X P ty cfg x0 track = Err (mismatch_error ty) <-> ~ belongs ty cfg.
Proof. exact mismatch_iff. Qed.
Print Assumptions C57_mismatch_iff.
(** ... a result was produced by a run with exactly the configured settings (Newton-CG with
    Hager-Zhang line search is the exception, see C58) ... *)
Theorem C57_result_comes_from_configured_run : forall X P ty cfg x0 track s n,
  solve_with_tracking X P ty cfg x0 track = Ok (s, n) -> ncg_hz cfg = false ->
  belongs ty cfg /\
  ((exists job x c k, asks_for x0 cfg job /\ argmin_run X P job = XDone (Some x) c k /\
      s = mk_lsol x c /\ n = if track then k else 0%N) \/
   (exists job x c k, asks_for_cobyla P x0 cfg job /\ cobyla_run X job = XDone x c k /\
      s = mk_lsol x c /\ n = if track then k else 0%N)).
Proof. exact solve_ok_runs_config. Qed.
Print Assumptions C57_result_comes_from_configured_run.
(** ... and if the external library accepts the settings, that run decides the outcome. *)
Theorem C57_matching_config_is_run : forall X P ty cfg x0 track,
  belongs ty cfg -> ncg_hz cfg = false -> ty <> COBYLA ->
  (forall c, ext_ok X c = true) ->
  (forall l, ls_of cfg = Some l -> 2 <= List.length (ls_bounds l)) ->
  exists job, asks_for x0 cfg job /\
    solve_with_tracking X P ty cfg x0 track =
    match argmin_run X P job with
    | XDone (Some x) c k => Ok (mk_lsol x c, if track then k else 0%N)
    | XDone None _ _ => Err NoSolution
    | XFail r => Err (RunFailed (RRun r))
    end.
Proof. exact solve_matching_runs. Qed.
Print Assumptions C57_matching_config_is_run.
Theorem C57_cobyla_config_is_run : forall X P cfg x0 track,
  belongs COBYLA cfg -> List.length (pb_bounds P) = List.length x0 ->
  exists job, asks_for_cobyla P x0 cfg job /\
    solve_with_tracking X P COBYLA cfg x0 track =
    match cobyla_run X job with
    | XDone x c k => Ok (mk_lsol x c, if track then k else 0%N)
    | XFail r => Err (RunFailed (RRun r))
    end.
Proof. exact solve_cobyla_runs. Qed.
Print Assumptions C57_cobyla_config_is_run.
Example C57_example : belongs LBFGS doc_lbfgs /\ ~ belongs LBFGS doc_cobyla /\
  (exists lsj, asks_for [f1] doc_lbfgs (JLBFGS lsj 10 doc_eps doc_sqrt_eps None [f1] 300)) /\
  2 <= List.length (ls_bounds doc_line_search).
Proof.
  repeat split; simpl; auto. exists (LsMoreThuente (lit 1 (10 ^ 4)) (lit 9 10) doc_sqrt_eps pinf (lit 1 (10 ^ 10))).
  constructor. constructor.
Qed.

(** C58 (refuted): with a Hager-Zhang line search neither the curvature threshold nor the
    tolerance reaches the solver, and line search errors are steepest-descent errors. *)
Definition newton_cg_settings_reach_solver : Prop := forall X P it cu tol ls x0 track s n,
  solve_with_tracking X P NewtonCG (CfgNewtonCG it cu tol ls) x0 track = Ok (s, n) ->
  exists job x c k, asks_for x0 (CfgNewtonCG it cu tol ls) job /\
    argmin_run X P job = XDone (Some x) c k /\ s = mk_lsol x c /\ n = if track then k else 0%N.
Theorem C58_newton_cg_settings_refuted : ~ newton_cg_settings_reach_solver.
Proof. exact ncg_drops_settings. Qed.
Print Assumptions C58_newton_cg_settings_refuted.
Definition newton_cg_errors_are_newton_cg_errors : Prop := forall X P it cu tol ls x0 track e,
  solve_with_tracking X P NewtonCG (CfgNewtonCG it cu tol ls) x0 track = Err e ->
  match e with InvalidNewtonCG _ | RunFailed _ | NoSolution => True | _ => False end.
Theorem C58_newton_cg_errors_refuted : ~ newton_cg_errors_are_newton_cg_errors.
Proof. exact ncg_wrong_error. Qed.
Print Assumptions C58_newton_cg_errors_refuted.
(** What holds: with a More-Thuente line search the settings do reach the solver. *)
Theorem C58_more_thuente_partial : forall X P it cu tol c1 c2 w b x0 track s n,
  solve_with_tracking X P NewtonCG (CfgNewtonCG it cu tol (MoreThuente c1 c2 w b)) x0 track = Ok (s, n) ->
  exists job x c k, asks_for x0 (CfgNewtonCG it cu tol (MoreThuente c1 c2 w b)) job /\
    argmin_run X P job = XDone (Some x) c k /\ s = mk_lsol x c /\ n = if track then k else 0%N.
Proof. exact ncg_mt_ok. Qed.
Print Assumptions C58_more_thuente_partial.

(** C59: for every sequence of setter calls on any builder, each field of the built
    configuration is the last value set for it, or the builder's initial value. *)
(** LBFGSBuilder *)
Theorem C59_lb_builder_last_write_wins : forall cs b,
  lb_build (fold_left lb_apply cs b) =
  CfgLBFGS
    (last_written (lb_max_iter b) (sets (fun c => match c with LB_max_iter v => Some v | _ => None end) cs))
    (last_written (lb_tolerance_grad b) (sets (fun c => match c with LB_tolerance_grad v => Some v | _ => None end) cs))
    (last_written (lb_tolerance_cost b) (sets (fun c => match c with LB_tolerance_cost v => Some v | _ => None end) cs))
    (last_written (lb_history_size b) (sets (fun c => match c with LB_history_size v => Some v | _ => None end) cs))
    (last_written (lb_l1_coefficient b) (sets (fun c => match c with LB_l1_coefficient v => Some v | _ => None end) cs))
    (last_written (lb_line_search_params b) (sets (fun c => match c with LB_line_search_params v => Some v | _ => None end) cs)).
Proof. exact lb_last_write_wins. Qed.
Print Assumptions C59_lb_builder_last_write_wins.

(** NelderMeadBuilder *)
Theorem C59_nm_builder_last_write_wins : forall cs b,
  nm_build (fold_left nm_apply cs b) =
  CfgNelderMead
    (last_written (nm_simplex_delta b) (sets (fun c => match c with NM_simplex_delta v => Some v | _ => None end) cs))
    (last_written (nm_sd_tolerance b) (sets (fun c => match c with NM_sd_tolerance v => Some v | _ => None end) cs))
    (last_written (nm_max_iter b) (sets (fun c => match c with NM_max_iter v => Some v | _ => None end) cs))
    (last_written (nm_alpha b) (sets (fun c => match c with NM_alpha v => Some v | _ => None end) cs))
    (last_written (nm_gamma b) (sets (fun c => match c with NM_gamma v => Some v | _ => None end) cs))
    (last_written (nm_rho b) (sets (fun c => match c with NM_rho v => Some v | _ => None end) cs))
    (last_written (nm_sigma b) (sets (fun c => match c with NM_sigma v => Some v | _ => None end) cs)).
Proof. exact nm_last_write_wins. Qed.
Print Assumptions C59_nm_builder_last_write_wins.

(** SteepestDescentBuilder *)
Theorem C59_sd_builder_last_write_wins : forall cs b,
  sd_build (fold_left sd_apply cs b) =
  CfgSteepestDescent
    (last_written (sd_max_iter b) (sets (fun c => match c with SD_max_iter v => Some v | _ => None end) cs))
    (last_written (sd_line_search_params b) (sets (fun c => match c with SD_line_search_params v => Some v | _ => None end) cs)).
Proof. exact sd_last_write_wins. Qed.
Print Assumptions C59_sd_builder_last_write_wins.

(** TrustRegionBuilder *)
Theorem C59_tr_builder_last_write_wins : forall cs b,
  tr_build (fold_left tr_apply cs b) =
  CfgTrustRegion
    (last_written (tr_method_ b) (sets (fun c => match c with TR_method v => Some v | _ => None end) cs))
    (last_written (tr_max_iter b) (sets (fun c => match c with TR_max_iter v => Some v | _ => None end) cs))
    (last_written (tr_radius b) (sets (fun c => match c with TR_radius v => Some v | _ => None end) cs))
    (last_written (tr_max_radius b) (sets (fun c => match c with TR_max_radius v => Some v | _ => None end) cs))
    (last_written (tr_eta b) (sets (fun c => match c with TR_eta v => Some v | _ => None end) cs)).
Proof. exact tr_last_write_wins. Qed.
Print Assumptions C59_tr_builder_last_write_wins.

(** NewtonCGBuilder *)
Theorem C59_ncg_builder_last_write_wins : forall cs b,
  ncg_build (fold_left ncg_apply cs b) =
  CfgNewtonCG
    (last_written (ncg_max_iter b) (sets (fun c => match c with NCG_max_iter v => Some v | _ => None end) cs))
    (last_written (ncg_curvature_threshold b) (sets (fun c => match c with NCG_curvature_threshold v => Some v | _ => None end) cs))
    (last_written (ncg_tolerance b) (sets (fun c => match c with NCG_tolerance v => Some v | _ => None end) cs))
    (last_written (ncg_line_search_params b) (sets (fun c => match c with NCG_line_search_params v => Some v | _ => None end) cs)).
Proof. exact ncg_last_write_wins. Qed.
Print Assumptions C59_ncg_builder_last_write_wins.

(** MoreThuenteBuilder *)
Theorem C59_mt_builder_last_write_wins : forall cs b,
  mt_build (fold_left mt_apply cs b) =
  MoreThuente
    (last_written (mt_c1 b) (sets (fun c => match c with MT_c1 v => Some v | _ => None end) cs))
    (last_written (mt_c2 b) (sets (fun c => match c with MT_c2 v => Some v | _ => None end) cs))
    (last_written (mt_width_tolerance b) (sets (fun c => match c with MT_width_tolerance v => Some v | _ => None end) cs))
    (last_written (mt_bounds b) (sets (fun c => match c with MT_bounds v => Some v | _ => None end) cs)).
Proof. exact mt_last_write_wins. Qed.
Print Assumptions C59_mt_builder_last_write_wins.

(** HagerZhangBuilder *)
Theorem C59_hz_builder_last_write_wins : forall cs b,
  hz_build (fold_left hz_apply cs b) =
  HagerZhang
    (last_written (hz_delta b) (sets (fun c => match c with HZ_delta v => Some v | _ => None end) cs))
    (last_written (hz_sigma b) (sets (fun c => match c with HZ_sigma v => Some v | _ => None end) cs))
    (last_written (hz_epsilon b) (sets (fun c => match c with HZ_epsilon v => Some v | _ => None end) cs))
    (last_written (hz_theta b) (sets (fun c => match c with HZ_theta v => Some v | _ => None end) cs))
    (last_written (hz_gamma b) (sets (fun c => match c with HZ_gamma v => Some v | _ => None end) cs))
    (last_written (hz_eta b) (sets (fun c => match c with HZ_eta v => Some v | _ => None end) cs))
    (last_written (hz_bounds b) (sets (fun c => match c with HZ_bounds v => Some v | _ => None end) cs)).
Proof. exact hz_last_write_wins. Qed.
Print Assumptions C59_hz_builder_last_write_wins.

(** COBYLABuilder *)
Theorem C59_cb_builder_last_write_wins : forall cs b,
  cb_build (fold_left cb_apply cs b) =
  CfgCOBYLA
    (last_written (cb_max_iter b) (sets (fun c => match c with CB_max_iter v => Some v | _ => None end) cs))
    (last_written (cb_initial_step_size b) (sets (fun c => match c with CB_initial_step_size v => Some v | _ => None end) cs))
    (last_written (match cb_ftol_rel b with Some v => v | None => (lit 1 (10 ^ 6)) end)
       (sets (fun c => match c with CB_ftol_rel v => Some v | _ => None end) cs))
    (last_written (match cb_ftol_abs b with Some v => v | None => (lit 1 (10 ^ 8)) end)
       (sets (fun c => match c with CB_ftol_abs v => Some v | _ => None end) cs))
    (last_written (match cb_xtol_rel b with Some v => v | None => f0 end)
       (sets (fun c => match c with CB_xtol_rel v => Some v | _ => None end) cs))
    (last_written (match cb_xtol_abs b with Some v => v | None => [] end)
       (sets (fun c => match c with CB_xtol_abs v => Some v | _ => None end) cs)).
Proof. exact cb_last_write_wins. Qed.
Print Assumptions C59_cb_builder_last_write_wins.
(** The initial values of the default builders are the documented ones ... *)
Theorem C59_defaults_as_documented :
  lb_build lb_default = doc_lbfgs /\ nm_build nm_default = doc_nelder_mead /\
  sd_build sd_default = doc_steepest_descent /\ tr_build tr_default = doc_trust_region /\
  ncg_build ncg_default = doc_newton_cg /\ cb_build cb_default = doc_cobyla /\
  mt_build mt_default = doc_line_search /\ ls_default = doc_line_search.
Proof. exact defaults_as_documented. Qed.
Print Assumptions C59_defaults_as_documented.
(** ... except for the Hager-Zhang step bounds, documented as [sqrt(EPSILON), INFINITY]. *)
Theorem C59_hager_zhang_default_refuted : hz_build hz_default <> doc_hager_zhang.
Proof. exact hz_default_not_documented. Qed.
Print Assumptions C59_hager_zhang_default_refuted.
Example C59_example :
  tr_build (fold_left tr_apply [TR_radius f2; TR_method Steihaug; TR_radius (of_Z 3)] tr_default)
  = CfgTrustRegion Steihaug 300 (of_Z 3) (of_Z 100) (lit 125 1000).
Proof. reflexivity. Qed.

(** C60: solver names. *)
Theorem C60_solver_names : forall s t,
  from_string s = Some t <-> exists w, In (w, t) spellings /\ same_letters s w.
Proof. exact from_string_iff. Qed.
Print Assumptions C60_solver_names.
Theorem C60_everything_else_rejected : forall s,
  from_string s = None <-> forall w t, In (w, t) spellings -> ~ same_letters s w.
Proof. exact from_string_none. Qed.
Print Assumptions C60_everything_else_rejected.
Example C60_example : from_string "Nelder-MEAD" = Some NelderMead /\ from_string "nelder_mead" = None.
Proof. vm_compute. auto. Qed.
