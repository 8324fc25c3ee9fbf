(** * The Python entry point (/repo/python/src/lib.rs 198-425, 771-985; builders.rs;
    observers.rs)

    [verbose] only prints and is not modelled; conversions between Python and Rust numbers
    are not modelled (arguments have already the Rust type). *)
From Coq Require Import ZArith NArith List Bool Arith String.
From Verif Require Import F64 Base Builders Types Filters Runner Observer Env ScatterSearch Codec Checkpoint Oqnlp.
Import ListNotations.

(** ** Solver configuration objects *)
(** python builders.rs 49-72, 130-144, 172-181 *)
Inductive py_ls :=
| PyMoreThuente (c1 c2 width_tolerance : f64) (bounds : list f64)
| PyHagerZhang (delta sigma epsilon theta gamma eta : f64) (bounds : list f64).
(** python builders.rs 286-322, 437-476, 534-547, 616-640, 753-784, 895-932; [PyOtherObject]
    is any other Python object passed as [local_solver_config] *)
Inductive py_config :=
| PyLBFGS (max_iter : N) (tolerance_grad tolerance_cost : f64) (history_size : nat)
    (l1_coefficient : option f64) (ls : py_ls)
| PyNelderMead (simplex_delta sd_tolerance : f64) (max_iter : N) (alpha gamma rho sigma : f64)
| PySteepestDescent (max_iter : N) (ls : py_ls)
| PyTrustRegion (method : tr_method) (max_iter : N) (radius max_radius eta : f64)
| PyNewtonCG (max_iter : N) (curvature_threshold tolerance : f64) (ls : py_ls)
| PyCOBYLA (max_iter : N) (step_size : f64) (ftol_rel ftol_abs xtol_rel : option f64)
    (xtol_abs : option (list f64))
| PyOtherObject.

(** The default arguments of the Python constructors, python builders.rs 326-340 (and the
    same line search in 551-561, 645-657), 480-488, 788-794, 936-943, 76-84, 148-153 *)
Definition py_mt_default : py_ls :=
  PyMoreThuente (lit 1 10000) (lit 9 10) (lit 1 10000000000) [fsqrt f64_epsilon; pinf].
Definition py_hz_default : py_ls :=
  PyHagerZhang lit_0_1 (lit 9 10) lit_1e_6 (lit 1 2) (lit 66 100) (lit 1 100) [fsqrt f64_epsilon; pinf].
Definition py_default_config (ty : solver_type) : py_config :=
  match ty with
  | LBFGS => PyLBFGS 300 (fsqrt f64_epsilon) f64_epsilon 10 None py_mt_default
  | NelderMead => PyNelderMead lit_0_1 f64_epsilon 300 f1 f2 (lit 1 2) (lit 1 2)
  | SteepestDescent => PySteepestDescent 300 py_mt_default
  | TrustRegion => PyTrustRegion Cauchy 300 f1 (of_Z 100) (lit 125 1000)
  | NewtonCG => PyNewtonCG 300 f0 f64_epsilon py_mt_default
  | COBYLA => PyCOBYLA 300 f1 None None None None
  end.

(** The line search of a Python object: setters on the default Rust builder, e.g. python
    builders.rs 362-379 (repeated in 569-586 and 670-687) *)
Definition line_search_of (l : py_ls) : ls_params :=
  match l with
  | PyMoreThuente c1 c2 w b =>
      mt_build (fold_left mt_apply [MT_c1 c1; MT_c2 c2; MT_width_tolerance w; MT_bounds b] mt_default)
  | PyHagerZhang d s e t g n b =>
      hz_build (fold_left hz_apply
        [HZ_delta d; HZ_sigma s; HZ_epsilon e; HZ_theta t; HZ_gamma g; HZ_eta n; HZ_bounds b] hz_default)
  end.
(** [if let Some(v) = field { builder = builder.set(v) }], python builders.rs 959-973 *)
Definition cb_opt {A} (f : A -> cb_set) (o : option A) (b : cb_builder) : cb_builder :=
  match o with Some v => cb_apply b (f v) | None => b end.
(** [extract::<PyX>().to_builder().build()] for the object type that belongs to the solver,
    lib.rs 809-872; [None] is the ValueError "Expected PyX for X solver type".
    to_builder: python builders.rs 361-391, 503-513, 568-590, 669-695, 807-815, 957-976 *)
Definition py_to_config (ty : solver_type) (c : py_config) : option solver_config :=
  match ty, c with
  | LBFGS, PyLBFGS it tg tc h l1 ls => Some (lb_build (mk_lb it tg tc h l1 (line_search_of ls)))
  | NelderMead, PyNelderMead d sd it a g r s => Some (nm_build (mk_nm d sd it a g r s))
  | SteepestDescent, PySteepestDescent it ls => Some (sd_build (mk_sd it (line_search_of ls)))
  | NewtonCG, PyNewtonCG it cu to ls => Some (ncg_build (mk_ncg it cu to (line_search_of ls)))
  | TrustRegion, PyTrustRegion m it r mr eta => Some (tr_build (mk_tr m it r mr eta))
  | COBYLA, PyCOBYLA it st fr fa xr xa =>
      Some (cb_build (cb_opt CB_xtol_abs xa (cb_opt CB_xtol_rel xr (cb_opt CB_ftol_abs fa
             (cb_opt CB_ftol_rel fr (cb_new it st))))))
  | _, _ => None
  end.
(** lib.rs 874-882: the configuration used when none is passed *)
Definition rust_default_config (ty : solver_type) : solver_config :=
  match ty with
  | LBFGS => lb_build lb_default
  | NewtonCG => ncg_build ncg_default
  | TrustRegion => tr_build tr_default
  | NelderMead => nm_build nm_default
  | SteepestDescent => sd_build sd_default
  | COBYLA => cb_build cb_default
  end.

(** ** Observers *)
(** [PyObserver], python observers.rs 302-319; the callback is a Python callable, by number *)
Record py_observer := mk_pob { po_inner : observer; po_callback : option nat }.
(** [clone_inner], python observers.rs 591-609: the callable is wrapped in a Rust closure that passes copies of the two
    states and ignores exceptions *)
Definition clone_inner (p : py_observer) : observer :=
  match po_callback p with
  | Some n => with_callback (CbUser n) (po_inner p)
  | None => po_inner p
  end.

(** The methods of [PyObserver] that change it, python observers.rs 331-480: all but [with_callback]
    replace the inner observer by its clone with the Rust method of that name applied *)
Inductive pob_call :=
| PobStage1 | PobStage2 | PobTiming | PobMode (m : obs_mode) | PobFrequency (n : nat)
| PobCallback (n : nat) | PobDefault | PobStage1Cb | PobStage2Cb | PobUnique.
Definition pob_inner (f : observer -> observer) (p : py_observer) : py_observer :=
  mk_pob (f (po_inner p)) (po_callback p).
Definition pob_apply (p : py_observer) (c : pob_call) : py_observer :=
  match c with
  | PobStage1 => pob_inner with_stage1_tracking p
  | PobStage2 => pob_inner with_stage2_tracking p
  | PobTiming => pob_inner with_timing p
  | PobMode m => pob_inner (with_mode m) p
  | PobFrequency n => pob_inner (with_callback_frequency n) p
  | PobCallback n => mk_pob (po_inner p) (Some n)
  | PobDefault => pob_inner (with_callback CbDefault) p
  | PobStage1Cb => pob_inner (with_callback CbStage1) p
  | PobStage2Cb => pob_inner (with_callback CbStage2) p
  | PobUnique => pob_inner unique_updates p
  end.
(** [PyObserver::new] *)
Definition pob_new : py_observer := mk_pob obs_new None.

(** ** optimize *)
(** the arguments of [optimize], lib.rs 773-800, with [PyOQNLPParams] spelled out *)
Record py_args := mk_pa {
  pa_iterations : nat; pa_population : nat; pa_wait_cycle : nat;
  pa_threshold_factor : f64; pa_distance_factor : f64; pa_abs_tol : f64; pa_rel_tol : f64;
  pa_observer : option py_observer;
  pa_solver : option string;
  pa_config : option py_config;
  pa_seed : option N;
  pa_target : option f64;
  pa_max_time : option f64;
  pa_exclude : option bool;
  pa_parallel : option bool;
  pa_points : option (list (list f64)) }.
(** [optimize(problem, PyOQNLPParams())]: the defaults of [PyOQNLPParams], lib.rs 395-403, and
    of the options of [optimize], lib.rs 771-786 *)
Definition py_default_args : py_args :=
  mk_pa 300 1000 15 (lit 2 10) (lit 75 100) (lit 1 (10 ^ 8)) (lit 1 (10 ^ 6))
    None None None None None None None None None.
(** the causes of the ValueError *)
Inductive py_error :=
| PyUnknownSolver
| PyWrongConfig (ty : solver_type)
| PyPointsShape
| PyOptimizer (e : oq_error).

(** consecutive rows of [cols] numbers each *)
Fixpoint rows_of (rows cols : nat) (l : list f64) : list point :=
  match rows with
  | O => []
  | S r => firstn cols l :: rows_of r cols (skipn cols l)
  end.
(** lib.rs 900-905: the points are flattened and reshaped to (number of rows, length of the
    first row); [from_shape_vec] checks only the total number of elements *)
Definition points_array (l : list (list f64)) : option (list point) :=
  let rows := List.length l in
  let cols := match l with r :: _ => List.length r | [] => 0 end in
  if List.length (List.concat l) =? rows * cols then Some (rows_of rows cols (List.concat l)) else None.

Definition from_oq {A} (r : outcome oq_error A) : outcome py_error A :=
  match r with Ok a => Ok a | Err e => Err (PyOptimizer e) | Panic => Panic end.
Definition or_else {A} (d : A) (o : option A) : A := match o with Some a => a | None => d end.
Definition when_some {A} (o : option A) (f : A -> oqnlp -> oqnlp) (q : oqnlp) : oqnlp :=
  match o with Some a => f a q | None => q end.

(** lib.rs 801-947: the optimizer built from the arguments *)
Definition py_build (E : env) (a : py_args) : outcome py_error oqnlp :=
  match from_string (or_else "cobyla"%string (pa_solver a)) with
  | None => Err PyUnknownSolver
  | Some ty =>
      match (match pa_config a with
             | Some c => py_to_config ty c
             | None => Some (rust_default_config ty)
             end) with
      | None => Err (PyWrongConfig ty)
      | Some cfg =>
          match oq_new (mk_params (pa_iterations a) (pa_population a) (pa_wait_cycle a)
                          (pa_threshold_factor a) (pa_distance_factor a) ty cfg (or_else 0%N (pa_seed a))) with
          | Err e => Err (PyOptimizer e)
          | Panic => Panic
          | Ok o0 =>
              match (match pa_points a with
                     | None => Ok o0
                     | Some l => match points_array l with
                                 | None => Err PyPointsShape
                                 | Some ps => from_oq (with_points E ps o0)
                                 end
                     end) with
              | Ok o1 =>
                  let o2 := when_some (pa_observer a) (fun p => add_observer (clone_inner p)) o1 in
                  let o3 := parallel (or_else false (pa_parallel a)) o2 in
                  let o4 := when_some (pa_target a) target_objective o3 in
                  let o5 := when_some (pa_max_time a) max_time o4 in
                  let o6 := if or_else false (pa_exclude a) then set_exclude_out_of_bounds true o5 else o5 in
                  Ok (with_tolerance (pa_abs_tol a) (pa_rel_tol a) o6)
              | e => e
              end
          end
      end
  end.
(** No files are involved: Python cannot configure checkpointing. *)
Definition py_world : world := mk_world (mk_disk [] 0) 0 [].
(** lib.rs 951-983: the returned solutions and the observer object afterwards; when [run]
    fails the observer object is left alone (the [?] of line 959) *)
Definition py_optimize (E : env) (a : py_args) : outcome py_error (list lsol) * option py_observer :=
  match py_build E a with
  | Ok o =>
      match run E (mk_st o py_world) with
      | (Ok set, s') =>
          (Ok set, match pa_observer a, o_observer (s_o s') with
                   | Some p, Some ob => Some (mk_pob ob (po_callback p))
                   | p, _ => p
                   end)
      | (Err e, _) => (Err (PyOptimizer e), pa_observer a)
      | (Panic, _) => (Panic, pa_observer a)
      end
  | Err e => (Err e, pa_observer a)
  | Panic => (Panic, pa_observer a)
  end.

(** ** The result object *)
(** [PySolutionSet.best_solution], lib.rs 312-314 *)
Definition py_best (l : list lsol) : option lsol :=
  min_by (fun a b => total_cmp (ls_obj a) (ls_obj b)) l.
(** [__getitem__], lib.rs 323-328; [None] is IndexError *)
Definition py_getitem (l : list lsol) (i : nat) : option lsol := nth_error l i.
(** [__next__] of the iterator, lib.rs 381-389: the value and the next state of the index *)
Definition py_next (l : list lsol) (i : nat) : option lsol * nat :=
  if i <? List.length l then (nth_error l i, S i) else (None, i).
