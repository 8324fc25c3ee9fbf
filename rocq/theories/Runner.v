(** * Local solver dispatch (/repo/src/local_solver/runner.rs)

    The argmin and cobyla crates are not modelled: [ext_ok] says which setter calls of
    argmin's builders are accepted, [argmin_run] and [cobyla_run] are what the solvers
    return for the exact request they are handed. *)
From Coq Require Import ZArith NArith List Bool.
From Verif Require Import F64 Base Builders Types.
Import ListNotations.

(** argmin builder calls that can fail *)
Inductive ext_call :=
| XWithC (c1 c2 : f64) | XMTBounds (lo hi : f64) | XWidthTol (w : f64)
| XDeltaSigma (d s : f64) | XEpsilon (v : f64) | XTheta (v : f64) | XGamma (v : f64) | XEta (v : f64)
| XHZBounds (lo hi : f64)
| XTolCost (v : f64) | XTolGrad (v : f64) | XL1 (v : f64)
| XNMSd (v : f64) | XNMAlpha (v : f64) | XNMGamma (v : f64) | XNMRho (v : f64) | XNMSigma (v : f64)
| XRadius (v : f64) | XMaxRadius (v : f64) | XTREta (v : f64)
| XNCGTol (v : f64).

(** A configured line search handed to argmin *)
Inductive ls_job :=
| LsMoreThuente (c1 c2 lo hi w : f64)
| LsHagerZhang (delta sigma epsilon theta gamma eta lo hi : f64).

(** A configured argmin solver and executor; [None] = argmin's own default is kept. *)
Inductive argmin_job :=
| JLBFGS (ls : ls_job) (history : nat) (tol_cost tol_grad : f64) (l1 : option f64)
    (x0 : point) (max_iter : N)
| JNelderMead (simplex : list point) (sd alpha gamma rho sigma : f64) (max_iter : N)
| JSteepestDescent (ls : ls_job) (x0 : point) (max_iter : N)
| JTrustRegion (m : tr_method) (radius max_radius eta : f64) (x0 : point) (max_iter : N)
| JNewtonCG (ls : ls_job) (curvature tolerance : option f64) (x0 : point) (max_iter : N).

(** A call of [cobyla::minimize] *)
Record cobyla_job := mk_cobyla {
  cj_objective : point -> f64;
  cj_x0 : point;
  cj_bounds : list (f64 * f64);
  cj_constraints : list (point -> f64);
  cj_max_iter : N;
  cj_rho_beg : f64;
  cj_ftol_rel : f64; cj_ftol_abs : f64; cj_xtol_rel : f64; cj_xtol_abs : list f64 }.

(** What an external solver returns: best parameter (if any), best cost and the number
    of objective calls made; or a failure. *)
Inductive ext_result (B : Type) := XDone (best : B) (cost : f64) (evals : N) | XFail (reason : N).
Arguments XDone {B}. Arguments XFail {B}.

Record ext := mk_ext {
  ext_ok : ext_call -> bool;
  argmin_run : problem -> argmin_job -> ext_result (option point);
  cobyla_run : cobyla_job -> ext_result point }.

(** Error reasons (the strings of the code, as constructors) *)
Inductive reason :=
| RParseConfig            (* "Error parsing solver config" *)
| RParseConfiguration     (* "Error parsing solver configuration" *)
| RRejected (c : ext_call)(* argmin's message for the rejected call *)
| RBoundsDim (vars rows : nat)
| RRun (n : N).

(** [LocalSolverError], runner.rs 90-119 ([solver_type] is always "unknown", [iterations] 0) *)
Inductive ls_error :=
| InvalidLBFGSConfig (r : reason)
| InvalidNelderMeadConfig (r : reason)
| InvalidSteepestDescentConfig (r : reason)
| InvalidTrustRegionConfig (r : reason)
| InvalidNewtonCG (r : reason)
| InvalidCOBYLAConfig (r : reason)
| RunFailed (r : reason)
| NoSolution.

Section Runner.
Context (X : ext) (P : problem).

(** [.with_..().map_err(..)?] *)
Definition step {A} (mk : reason -> ls_error) (c : ext_call) (k : outcome ls_error A) : outcome ls_error A :=
  if ext_ok X c then k else Err (mk (RRejected c)).

(** [bounds[0]], [bounds[1]] on an [Array1]: out of range is a panic *)
Definition bounds2 {A} (b : list f64) (k : f64 -> f64 -> outcome ls_error A) : outcome ls_error A :=
  match b with lo :: hi :: _ => k lo hi | _ => Panic end.

(** The two line search constructions, repeated in runner.rs 244-257/299-332 (L-BFGS),
    529-542/570-603 (steepest descent) and 843-856/889-922 (Newton-CG). *)
Definition build_ls {A} (mk : reason -> ls_error) (l : ls_params) (k : ls_job -> outcome ls_error A)
  : outcome ls_error A :=
  match l with
  | MoreThuente c1 c2 w b =>
      step mk (XWithC c1 c2) (bounds2 b (fun lo hi =>
      step mk (XMTBounds lo hi) (step mk (XWidthTol w) (k (LsMoreThuente c1 c2 lo hi w)))))
  | HagerZhang d s e t g et b =>
      step mk (XDeltaSigma d s) (step mk (XEpsilon e) (step mk (XTheta t) (step mk (XGamma g)
      (step mk (XEta et) (bounds2 b (fun lo hi => step mk (XHZBounds lo hi)
      (k (LsHagerZhang d s e t g et lo hi))))))))
  end.

(** [Executor::run] and the extraction of the best solution (e.g. runner.rs 274-298);
    evaluations are counted only when tracking is requested. *)
Definition exec (track : bool) (j : argmin_job) : outcome ls_error (lsol * N) :=
  match argmin_run X P j with
  | XFail r => Err (RunFailed (RRun r))
  | XDone None _ _ => Err NoSolution
  | XDone (Some x) c n => Ok (mk_lsol x c, if track then n else 0%N)
  end.

(** runner.rs 193-380 *)
Definition solve_lbfgs (cfg : solver_config) (x0 : point) (track : bool) : outcome ls_error (lsol * N) :=
  match cfg with
  | CfgLBFGS it tg tc h l1 ls =>
      build_ls InvalidLBFGSConfig ls (fun lsj =>
      step InvalidLBFGSConfig (XTolCost tc) (step InvalidLBFGSConfig (XTolGrad tg)
      (match l1 with
       | Some v => step InvalidLBFGSConfig (XL1 v) (exec track (JLBFGS lsj h tc tg l1 x0 it))
       | None => exec track (JLBFGS lsj h tc tg l1 x0 it)
       end)))
  | _ => Err (InvalidLBFGSConfig RParseConfig)
  end.

(** The initial simplex, runner.rs 425-431: [point[i] += simplex_delta] *)
Fixpoint bump (i : nat) (d : f64) (p : point) : point :=
  match p, i with
  | [], _ => []
  | x :: r, O => fadd x d :: r
  | x :: r, S i' => x :: bump i' d r
  end.
Definition nm_simplex (d : f64) (x0 : point) : list point :=
  x0 :: map (fun i => bump i d x0) (seq 0 (length x0)).

(** runner.rs 384-481 *)
Definition solve_nelder_mead (cfg : solver_config) (x0 : point) (track : bool) : outcome ls_error (lsol * N) :=
  match cfg with
  | CfgNelderMead d sd it a g r s =>
      step InvalidNelderMeadConfig (XNMSd sd) (step InvalidNelderMeadConfig (XNMAlpha a)
      (step InvalidNelderMeadConfig (XNMGamma g) (step InvalidNelderMeadConfig (XNMRho r)
      (step InvalidNelderMeadConfig (XNMSigma s)
      (exec track (JNelderMead (nm_simplex d x0) sd a g r s it))))))
  | _ => Err (InvalidNelderMeadConfig RParseConfiguration)
  end.

(** runner.rs 485-637 *)
Definition solve_steepestdescent (cfg : solver_config) (x0 : point) (track : bool) : outcome ls_error (lsol * N) :=
  match cfg with
  | CfgSteepestDescent it ls =>
      build_ls InvalidSteepestDescentConfig ls (fun lsj => exec track (JSteepestDescent lsj x0 it))
  | _ => Err (InvalidSteepestDescentConfig RParseConfiguration)
  end.

(** runner.rs 641-783 *)
Definition solve_trust_region (cfg : solver_config) (x0 : point) (track : bool) : outcome ls_error (lsol * N) :=
  match cfg with
  | CfgTrustRegion m it r mr eta =>
      step InvalidTrustRegionConfig (XRadius r) (step InvalidTrustRegionConfig (XMaxRadius mr)
      (step InvalidTrustRegionConfig (XTREta eta) (exec track (JTrustRegion m r mr eta x0 it))))
  | _ => Err (InvalidTrustRegionConfig RParseConfiguration)
  end.

(** runner.rs 786-955: line search errors carry the steepest-descent variant, and the
    Hager-Zhang branch (line 924) passes neither the curvature threshold nor the tolerance. *)
Definition solve_newton_cg (cfg : solver_config) (x0 : point) (track : bool) : outcome ls_error (lsol * N) :=
  match cfg with
  | CfgNewtonCG it curv tol ls =>
      build_ls InvalidSteepestDescentConfig ls (fun lsj =>
      match ls with
      | MoreThuente _ _ _ _ =>
          step InvalidNewtonCG (XNCGTol tol) (exec track (JNewtonCG lsj (Some curv) (Some tol) x0 it))
      | HagerZhang _ _ _ _ _ _ _ => exec track (JNewtonCG lsj None None x0 it)
      end)
  | _ => Err (InvalidNewtonCG RParseConfiguration)
  end.

(** runner.rs 958-1048: objective errors become +infinity *)
Definition cobyla_objective (x : point) : f64 :=
  match pb_objective P x with inl v => v | inr _ => pinf end.
Definition solve_cobyla (cfg : solver_config) (x0 : point) (track : bool) : outcome ls_error (lsol * N) :=
  match cfg with
  | CfgCOBYLA it step0 fr fa xr xa =>
      if Nat.eqb (length (pb_bounds P)) (length x0) then
        match cobyla_run X (mk_cobyla cobyla_objective x0 (pb_bounds P) (pb_constraints P) it step0 fr fa xr xa) with
        | XDone x v n => Ok (mk_lsol x v, if track then n else 0%N)
        | XFail r => Err (RunFailed (RRun r))
        end
      else Err (InvalidCOBYLAConfig (RBoundsDim (length x0) (length (pb_bounds P))))
  | _ => Err (InvalidCOBYLAConfig RParseConfiguration)
  end.

(** [solve_with_tracking], runner.rs 157-189 *)
Definition solve_with_tracking (ty : solver_type) (cfg : solver_config) (x0 : point) (track : bool)
  : outcome ls_error (lsol * N) :=
  match ty with
  | LBFGS => solve_lbfgs cfg x0 track
  | NelderMead => solve_nelder_mead cfg x0 track
  | SteepestDescent => solve_steepestdescent cfg x0 track
  | TrustRegion => solve_trust_region cfg x0 track
  | NewtonCG => solve_newton_cg cfg x0 track
  | COBYLA => solve_cobyla cfg x0 track
  end.

(** [solve], runner.rs 151-154 *)
Definition solve (ty : solver_type) (cfg : solver_config) (x0 : point) : outcome ls_error lsol :=
  match solve_with_tracking ty cfg x0 false with
  | Ok (s, _) => Ok s
  | Err e => Err e
  | Panic => Panic
  end.
End Runner.
