(** * What a Python call of [optimize] asks for *)
From Coq Require Import ZArith NArith List Bool Arith String.
From Verif Require Import F64 Base Builders Types Filters Runner Observer Env ScatterSearch Codec Checkpoint
  Oqnlp Spec PyBind.
Import ListNotations.

(** the solver that is named, COBYLA if none is *)
Definition asked_solver (a : py_args) : option solver_type :=
  match pa_solver a with Some name => from_string name | None => Some COBYLA end.
(** a line search object and the Rust settings with the same values *)
Inductive same_line_search : py_ls -> line_search -> Prop :=
| SameMT : forall c1 c2 w b, same_line_search (PyMoreThuente c1 c2 w b) (MoreThuente c1 c2 w b)
| SameHZ : forall d s e t g n b, same_line_search (PyHagerZhang d s e t g n b) (HagerZhang d s e t g n b).
(** a configuration object, the solver it is for, and the Rust configuration with the same
    values (for COBYLA the documented defaults stand for what was left out) *)
Definition given {A} (default : A) (o : option A) : A := match o with Some v => v | None => default end.
Inductive same_settings : solver_type -> py_config -> solver_config -> Prop :=
| SameLBFGS : forall it tg tc h l1 ls ls', same_line_search ls ls' ->
    same_settings LBFGS (PyLBFGS it tg tc h l1 ls) (CfgLBFGS it tg tc h l1 ls')
| SameNM : forall d sd it a g r s,
    same_settings NelderMead (PyNelderMead d sd it a g r s) (CfgNelderMead d sd it a g r s)
| SameSD : forall it ls ls', same_line_search ls ls' ->
    same_settings SteepestDescent (PySteepestDescent it ls) (CfgSteepestDescent it ls')
| SameTR : forall m it r mr eta,
    same_settings TrustRegion (PyTrustRegion m it r mr eta) (CfgTrustRegion m it r mr eta)
| SameNCG : forall it cu tol ls ls', same_line_search ls ls' ->
    same_settings NewtonCG (PyNewtonCG it cu tol ls) (CfgNewtonCG it cu tol ls')
| SameCOBYLA : forall it st fr fa xr xa,
    same_settings COBYLA (PyCOBYLA it st fr fa xr xa)
      (CfgCOBYLA it st (given (lit 1 (10 ^ 6)) fr) (given (lit 1 (10 ^ 8)) fa) (given f0 xr) (given [] xa)).
(** the documented default configuration of a solver, used when none is passed *)
Definition doc_config (ty : solver_type) : solver_config :=
  match ty with
  | LBFGS => doc_lbfgs
  | NelderMead => doc_nelder_mead
  | SteepestDescent => doc_steepest_descent
  | TrustRegion => doc_trust_region
  | NewtonCG => doc_newton_cg
  | COBYLA => doc_cobyla
  end.
Definition asked_config (a : py_args) (ty : solver_type) (cfg : solver_config) : Prop :=
  match pa_config a with
  | Some c => same_settings ty c cfg
  | None => cfg = doc_config ty
  end.

(** An optimizer, before its run, that has the settings of the call and is otherwise new *)
Record as_asked (a : py_args) (o : oqnlp) : Prop := {
  aa_params : o_params o = mk_params (pa_iterations a) (pa_population a) (pa_wait_cycle a)
                (pa_threshold_factor a) (pa_distance_factor a) (o_solver_type o) (o_solver_config o)
                (given 0%N (pa_seed a));
  aa_solver : asked_solver a = Some (o_solver_type o) /\ asked_config a (o_solver_type o) (o_solver_config o);
  aa_stop : o_target o = pa_target a /\ o_max_time o = pa_max_time a;
  aa_flags : o_exclude o = given false (pa_exclude a) /\ o_parallel o = given false (pa_parallel a);
  aa_tolerances : o_abs_tol o = pa_abs_tol a /\ o_rel_tol o = pa_rel_tol a;
  aa_observer : match pa_observer a with
                | None => o_observer o = None
                | Some p => exists ob, o_observer o = Some ob /\
                    ob = match po_callback p with
                         | Some n => with_callback (CbUser n) (po_inner p)
                         | None => po_inner p
                         end
                end;
  aa_points : pa_points a = None -> o_custom o = None;
  aa_new : o_set o = None /\ mf_threshold (o_merit o) = pinf /\ df_solutions (o_df o) = [] /\
           fp_distance_factor (df_params (o_df o)) = pa_distance_factor a /\
           o_batch o = None /\ o_cp o = None /\ o_iteration o = 0 /\ o_ref o = None /\ o_unchanged o = 0 }.

(** all rows have the same number of coordinates *)
Definition rectangular (l : list (list f64)) : Prop :=
  forall r r', In r l -> In r' l -> List.length r = List.length r'.
(** the numbers of [l] in reading order, cut into as many rows as [l] has, each as long as
    the first row of [l] *)
Definition recut (l ps : list (list f64)) : Prop :=
  List.concat ps = List.concat l /\ List.length ps = List.length l /\
  forall r, In r ps -> List.length r = List.length (hd [] l).
(** the error for the first row of [ps] that is not a point within the bounds *)
Definition bad_row (b : list (f64 * f64)) (ps : list point) (e : oq_error) : Prop :=
  exists i row, first_such (fun p => ~ row_ok b p) ps i row /\
    (e = InvalidCustomPointsDimension i (List.length b) (List.length row) /\ List.length row <> List.length b \/
     e = CustomPointOutOfBounds i /\ List.length row = List.length b).
(** the Rust observer on which the same methods are called *)
Definition same_call (o : observer) (c : pob_call) : observer :=
  match c with
  | PobStage1 => with_stage1_tracking o
  | PobStage2 => with_stage2_tracking o
  | PobTiming => with_timing o
  | PobMode m => with_mode m o
  | PobFrequency n => with_callback_frequency n o
  | PobCallback n => with_callback (CbUser n) o
  | PobDefault => with_callback CbDefault o
  | PobStage1Cb => with_callback CbStage1 o
  | PobStage2Cb => with_callback CbStage2 o
  | PobUnique => unique_updates o
  end.
(** everything but the callback *)
Definition same_but_callback (a b : observer) : Prop :=
  ob_mode a = ob_mode b /\ ob_stage1 a = ob_stage1 b /\ ob_stage2 a = ob_stage2 b /\
  ob_timing a = ob_timing b /\ ob_frequency a = ob_frequency b /\
  ob_stage1_completed a = ob_stage1_completed b /\ ob_stage2_started a = ob_stage2_started b /\
  ob_previous a = ob_previous b /\ ob_filter a = ob_filter b.
Definition installs_builtin (c : pob_call) : bool :=
  match c with PobDefault | PobStage1Cb | PobStage2Cb => true | _ => false end.
(** iterating over a result object from the start, [n] times *)
Fixpoint iterate (n : nat) (l : list lsol) (i : nat) : list (option lsol) :=
  match n with
  | O => []
  | S n' => let '(v, i') := py_next l i in v :: iterate n' l i'
  end.
