(** * Specification vocabulary used by the property theorems.

    Small definitions, independent of the model's own helpers, that the theorem statements
    in the Properties files are written with.  Only data types and the floating point
    operations of the model are used here. *)
From Coq Require Import ZArith NArith List Bool Arith Permutation Sorted String Ascii.
From Verif Require Import F64 Base Builders Types Filters Runner Observer Env ScatterSearch Codec
  Checkpoint Oqnlp.
Import ListNotations.

(** ** Lists *)
(** the value most recently written, or a default *)
Definition last_written {A} (default : A) (writes : list A) : A := last writes default.
(** [x], at position [i], is the first element of [l] satisfying [P] *)
Definition first_such {A} (P : A -> Prop) (l : list A) (i : nat) (x : A) : Prop :=
  nth_error l i = Some x /\ P x /\ forall j y, j < i -> nth_error l j = Some y -> ~ P y.

(** ** Boxes *)
(** no coordinate compares below its lower or above its upper bound (NaN does neither) *)
Definition not_outside (b : f64 * f64) (x : f64) : Prop :=
  flt x (fst b) = false /\ flt (snd b) x = false.
(** lower <= x <= upper in IEEE comparison (so x is not NaN) *)
Definition inside (b : f64 * f64) (x : f64) : Prop :=
  fle (fst b) x = true /\ fle x (snd b) = true.
Definition in_box (b : list (f64 * f64)) (p : point) : Prop := Forall2 inside b p.

(** ** Solutions *)
(** squared distance at least d^2, in floating point: "not less than" *)
Definition separated (d : f64) (a b : point) : Prop := flt (dist2 a b) (fmul d d) = false.
(** |o1 - o2| <= max(abs, rel * max(|o1|,|o2|)) *)
Definition within_tolerance (abs rel o1 o2 : f64) : Prop :=
  fle (fabs (fsub o1 o2)) (fmax abs (fmul rel (fmax (fabs o1) (fabs o2)))) = true.

(** ** C04: the parameter region and the order in which violations are reported *)
Definition valid_params (p : params) : Prop :=
  4 <= p_population p /\ p_iterations p <= p_population p /\
  fle (p_threshold_factor p) f0 = false /\ flt (p_distance_factor p) f0 = false.
Inductive first_violation (p : params) : oq_error -> Prop :=
| ViolPopulation :
    p_population p < 4 -> first_violation p (InvalidPopulationSize (p_population p))
| ViolIterations :
    4 <= p_population p -> p_population p < p_iterations p ->
    first_violation p (InvalidIterations (p_iterations p) (p_population p))
| ViolThreshold :
    4 <= p_population p -> p_iterations p <= p_population p ->
    fle (p_threshold_factor p) f0 = true ->
    first_violation p (InvalidThresholdFactor (p_threshold_factor p))
| ViolDistance :
    4 <= p_population p -> p_iterations p <= p_population p ->
    fle (p_threshold_factor p) f0 = false -> flt (p_distance_factor p) f0 = true ->
    first_violation p (DistanceFilterError (p_distance_factor p)).
(** what a new optimizer starts with (rustdoc of [OQNLP::new] and its fields) *)
Record fresh_optimizer (p : params) (o : oqnlp) : Prop := {
  fresh_params : o_params o = p;
  fresh_solver : o_solver_type o = p_solver_type p /\ o_solver_config o = p_solver_config p;
  fresh_set : o_set o = None;
  fresh_merit : mf_threshold (o_merit o) = pinf;
  fresh_filter : df_solutions (o_df o) = [] /\
                 fp_distance_factor (df_params (o_df o)) = p_distance_factor p;
  fresh_limits : o_max_time o = None /\ o_target o = None /\ o_batch o = None;
  fresh_flags : o_parallel o = true /\ o_exclude o = false;
  fresh_progress : o_iteration o = 0 /\ o_unchanged o = 0 /\ o_ref o = None /\ o_cp o = None;
  fresh_extras : o_observer o = None /\ o_custom o = None;
  fresh_tolerances : o_abs_tol o = lit 1 (10 ^ 8) /\ o_rel_tol o = lit 1 (10 ^ 6) }.

(** ** C06: a row of custom points is acceptable *)
Definition row_ok (b : list (f64 * f64)) (p : point) : Prop :=
  List.length p = List.length b /\ Forall2 not_outside b p.

(** ** C07: a pair of bounds is rejected *)
Definition empty_or_inverted (b : f64 * f64) : Prop := fle (snd b) (fst b) = true.

(** ** C57: which configurations belong to which solver, and what the solver is asked to do *)
Definition belongs (ty : solver_type) (cfg : solver_config) : Prop :=
  match ty, cfg with
  | LBFGS, CfgLBFGS _ _ _ _ _ _ | NelderMead, CfgNelderMead _ _ _ _ _ _ _
  | SteepestDescent, CfgSteepestDescent _ _ | TrustRegion, CfgTrustRegion _ _ _ _ _
  | NewtonCG, CfgNewtonCG _ _ _ _ | COBYLA, CfgCOBYLA _ _ _ _ _ _ => True
  | _, _ => False
  end.
(** the error a solver reports for a configuration that is not its own *)
Definition mismatch_error (ty : solver_type) : ls_error :=
  match ty with
  | LBFGS => InvalidLBFGSConfig RParseConfig
  | NelderMead => InvalidNelderMeadConfig RParseConfiguration
  | SteepestDescent => InvalidSteepestDescentConfig RParseConfiguration
  | TrustRegion => InvalidTrustRegionConfig RParseConfiguration
  | NewtonCG => InvalidNewtonCG RParseConfiguration
  | COBYLA => InvalidCOBYLAConfig RParseConfiguration
  end.
(** a line search configured with exactly these settings *)
Inductive configured_ls : line_search -> ls_job -> Prop :=
| ConfMT : forall c1 c2 w lo hi more,
    configured_ls (MoreThuente c1 c2 w (lo :: hi :: more)) (LsMoreThuente c1 c2 lo hi w)
| ConfHZ : forall d s e t g et lo hi more,
    configured_ls (HagerZhang d s e t g et (lo :: hi :: more)) (LsHagerZhang d s e t g et lo hi).
(** the simplex around x0: x0 itself and, for each coordinate i, x0 with x0[i] + delta *)
Definition simplex_around (delta : f64) (x0 : point) (simplex : list point) : Prop :=
  List.length simplex = S (List.length x0) /\ nth_error simplex 0 = Some x0 /\
  forall i x, nth_error x0 i = Some x ->
    nth_error simplex (S i) = Some (firstn i x0 ++ fadd x delta :: skipn (S i) x0).
(** the argmin run that a configuration asks for *)
Inductive asks_for (x0 : point) : solver_config -> argmin_job -> Prop :=
| AskLBFGS : forall it tg tc h l1 ls lsj, configured_ls ls lsj ->
    asks_for x0 (CfgLBFGS it tg tc h l1 ls) (JLBFGS lsj h tc tg l1 x0 it)
| AskNM : forall d sd it a g r s sx, simplex_around d x0 sx ->
    asks_for x0 (CfgNelderMead d sd it a g r s) (JNelderMead sx sd a g r s it)
| AskSD : forall it ls lsj, configured_ls ls lsj ->
    asks_for x0 (CfgSteepestDescent it ls) (JSteepestDescent lsj x0 it)
| AskTR : forall m it r mr eta,
    asks_for x0 (CfgTrustRegion m it r mr eta) (JTrustRegion m r mr eta x0 it)
| AskNCG : forall it cu tol ls lsj, configured_ls ls lsj ->
    asks_for x0 (CfgNewtonCG it cu tol ls) (JNewtonCG lsj (Some cu) (Some tol) x0 it).
(** the COBYLA run that a configuration asks for on a problem: objective errors count as
    +infinity, the problem's bounds and constraints are handed over *)
Definition asks_for_cobyla (P : problem) (x0 : point) (cfg : solver_config) (j : cobyla_job) : Prop :=
  match cfg with
  | CfgCOBYLA it step0 fr fa xr xa =>
      (forall x, cj_objective j x = match pb_objective P x with inl v => v | inr _ => pinf end) /\
      cj_x0 j = x0 /\ cj_bounds j = pb_bounds P /\ cj_constraints j = pb_constraints P /\
      cj_max_iter j = it /\ cj_rho_beg j = step0 /\ cj_ftol_rel j = fr /\ cj_ftol_abs j = fa /\
      cj_xtol_rel j = xr /\ cj_xtol_abs j = xa
  | _ => False
  end.

(** ** C59: the values that a sequence of setter calls writes to one field *)
Definition sets {C V} (field_of : C -> option V) (calls : list C) : list V :=
  flat_map (fun c => match field_of c with Some v => [v] | None => [] end) calls.
(** the defaults stated in the rustdoc of each builder *)
Definition doc_sqrt_eps : f64 := fsqrt (Fin false (2 ^ 52) (-104)).
Definition doc_eps : f64 := Fin false (2 ^ 52) (-104).
Definition doc_line_search : line_search :=
  MoreThuente (lit 1 (10 ^ 4)) (lit 9 10) (lit 1 (10 ^ 10)) [doc_sqrt_eps; pinf].
Definition doc_lbfgs : solver_config := CfgLBFGS 300 doc_sqrt_eps doc_eps 10 None doc_line_search.
Definition doc_nelder_mead : solver_config :=
  CfgNelderMead (lit 1 10) doc_eps 300 (of_Z 1) (of_Z 2) (lit 5 10) (lit 5 10).
Definition doc_steepest_descent : solver_config := CfgSteepestDescent 300 doc_line_search.
Definition doc_trust_region : solver_config := CfgTrustRegion Cauchy 300 (of_Z 1) (of_Z 100) (lit 125 1000).
Definition doc_newton_cg : solver_config := CfgNewtonCG 300 f0 doc_eps doc_line_search.
Definition doc_cobyla : solver_config := CfgCOBYLA 300 (lit 5 10) (lit 1 (10 ^ 6)) (lit 1 (10 ^ 8)) f0 [].
Definition doc_hager_zhang : line_search :=
  HagerZhang (lit 1 10) (lit 9 10) (lit 1 (10 ^ 6)) (lit 5 10) (lit 66 100) (lit 1 100) [doc_sqrt_eps; pinf].

(** ** C60: the accepted spellings *)
Definition spellings : list (string * solver_type) :=
  [("lbfgs", LBFGS); ("nelder-mead", NelderMead); ("neldermead", NelderMead);
   ("steepestdescent", SteepestDescent); ("trustregion", TrustRegion);
   ("newton-cg", NewtonCG); ("newtoncg", NewtonCG); ("cobyla", COBYLA)]%string.
(** equal up to the case of ASCII letters, letter by letter *)
Definition upper (c : ascii) : option ascii :=
  let n := N_of_ascii c in
  if (N.leb 97 n && N.leb n 122)%bool then Some (ascii_of_N (n - 32)) else None.
Inductive same_letters : string -> string -> Prop :=
| SlNil : same_letters EmptyString EmptyString
| SlSame : forall c a b, same_letters a b -> same_letters (String c a) (String c b)
| SlUpper : forall c u a b, upper c = Some u -> same_letters a b ->
    same_letters (String u a) (String c b).

(** ** C22-C28: solution sets *)
(** every member but the first is within the tolerances of the first *)
Definition close_to_first (abs rel : f64) (set : solset) : Prop :=
  forall i x first, 0 < i -> nth_error set i = Some x -> nth_error set 0 = Some first ->
    within_tolerance abs rel (ls_obj x) (ls_obj first).
(** any two members at different positions are separated *)
Definition pairwise_separated (d : f64) (set : solset) : Prop :=
  forall i j x y, i <> j -> nth_error set i = Some x -> nth_error set j = Some y ->
    separated d (ls_point x) (ls_point y).
(** no coordinate of the solution is outside its bounds *)
Definition solution_inside (b : list (f64 * f64)) (x : lsol) : Prop :=
  List.length (ls_point x) <= List.length b /\ forall i v lh, nth_error (ls_point x) i = Some v -> nth_error b i = Some lh -> not_outside lh v.
(** the set was stored (became the optimizer's solution set) between the states s and s' *)
Definition stored_during (s s' : st) (set : solset) : Prop :=
  exists new, w_trace (s_w s') = new ++ w_trace (s_w s) /\ In (EvSolutionSet set) new.
(** every checkpoint file that can be decoded satisfies P *)
Definition checkpoints_hold (P : checkpoint -> Prop) (s : st) : Prop :=
  forall f content cp, In (f, content) (d_files (w_disk (s_w s))) ->
    decode_checkpoint content = Some cp -> P cp.
(** a history: local solutions processed one after the other; [history E sols s s'] *)
Inductive history (E : env) : list lsol -> st -> st -> Prop :=
| HistNil : forall s, history E [] s s
| HistCons : forall x sols b s s1 s', process_local_solution E x s = (Ok b, s1) ->
    history E sols s1 s' -> history E (x :: sols) s s'.
(** a binary64 value that is a number *)
Definition number (x : f64) : Prop := wf x = true /\ is_nan x = false.
(** the objective of the first solution of a set *)
Definition leads (set : solset) (v : f64) : Prop := exists x rest, set = x :: rest /\ v = ls_obj x.
(** the tolerance used to compare two objective values *)
Definition tolerance (abs rel o1 o2 : f64) : f64 := fmax abs (fmul rel (fmax (fabs o1) (fabs o2))).
(** the first member of [later] is not worse than the first member of [earlier] *)
Definition not_worse (later earlier : solset) : Prop :=
  exists v w, leads later v /\ leads earlier w /\ fle v w = true.
(** a local solution that the exclusion option does not discard *)
Definition not_excluded (E : env) (o : oqnlp) (x : lsol) : Prop :=
  o_exclude o = false \/ solution_inside (pb_bounds (e_problem E)) x.
(** all objectives of the set are numbers, and there is at least one *)
Definition numeric_set (set : solset) : Prop :=
  set <> [] /\ forall x, In x set -> number (ls_obj x).
(** the tolerances are numbers, the absolute one is not negative *)
Definition tolerances_ok (o : oqnlp) : Prop :=
  wf (o_abs_tol o) = true /\ wf (o_rel_tol o) = true /\ fle f0 (o_abs_tol o) = true.
(** both tolerances are zero (of either sign) *)
Definition zero_tol (o : oqnlp) : Prop :=
  (exists z, o_abs_tol o = Zero z) /\ (exists z, o_rel_tol o = Zero z).
(** no point occurs at two positions *)
Definition no_repeats (set : solset) : Prop :=
  forall i j x y, i <> j -> nth_error set i = Some x -> nth_error set j = Some y -> ls_point x <> ls_point y.
(** all coordinates are finite *)
Definition finite_point (p : point) : Prop := Forall (fun x => is_finite x = true) p.
(** ** C28 *)
(** x is what the configured local solver returns for the start point p, unmodified *)
Definition local_result (E : env) (o : oqnlp) (p : point) (x : lsol) : Prop :=
  exists ty cfg, solve (e_ext E) (e_problem E) ty cfg p = Ok x /\
    ((ty = o_solver_type o /\ cfg = o_solver_config o) \/
     (ty = p_solver_type (o_params o) /\ cfg = p_solver_config (o_params o))).
(** p is the best point of the scatter search with which a run from s begins *)
Definition stage1_found (E : env) (s : st) (p : point) : Prop :=
  exists s0 pts sf, stage1_init E (s_o s) (w_tick (s_w s)) = Ok s0 /\ ss_run E s0 = (Ok (pts, p), sf).
(** x is a member of the solution set of a checkpoint file *)
Definition checkpointed (s : st) (x : lsol) : Prop :=
  exists f content cp set, In (f, content) (d_files (w_disk (s_w s))) /\
    decode_checkpoint content = Some cp /\ cp_solution_set cp = Some set /\ In x set.
