(** * Parameter and result types (/repo/src/types.rs, /repo/src/problem.rs) *)
From Coq Require Import ZArith NArith List Bool Ascii String.
From Verif Require Import F64 Base Builders.
Import ListNotations.

(** types.rs 457-492, in declaration order *)
Inductive solver_type := LBFGS | NelderMead | SteepestDescent | TrustRegion | NewtonCG | COBYLA.

(** [OQNLPParams], types.rs 59-97 ([usize] is [nat], [u64] is [N]) *)
Record params := mk_params {
  p_iterations : nat;
  p_population : nat;
  p_wait_cycle : nat;
  p_threshold_factor : f64;
  p_distance_factor : f64;
  p_solver_type : solver_type;
  p_solver_config : solver_config;
  p_seed : N }.

(** [OQNLPParams::default], types.rs 99-125 *)
Definition params_default : params :=
  mk_params 300 1000 15 (lit 2 10) (lit 75 100) COBYLA (cb_build cb_default) 0.

(** [LocalSolution], types.rs 214-219 *)
Record lsol := mk_lsol { ls_point : point; ls_obj : f64 }.

(** [SolutionSet], types.rs 286-288: the array of solutions *)
Definition solset := list lsol.

(** [SolutionSet::best_solution], types.rs 302-304: [min_by(total_cmp)] over the solutions *)
Definition best_solution (s : solset) : option lsol :=
  min_by (fun a b => total_cmp (ls_obj a) (ls_obj b)) s.

(** [str::to_lowercase] on bytes.  Simplification: only ASCII letters are mapped.  No
    non-ASCII character lowercases to a string over the letters of the solver names
    (the Kelvin sign gives 'k', which occurs in none), so the matches are the same. *)
Definition lower_ascii (c : ascii) : ascii :=
  let n := N_of_ascii c in
  if (N.leb 65 n && N.leb n 90)%bool then ascii_of_N (n + 32) else c.
Fixpoint to_lowercase (s : string) : string :=
  match s with
  | EmptyString => EmptyString
  | String c r => String (lower_ascii c) (to_lowercase r)
  end.

(** [LocalSolverType::from_string], types.rs 499-518; [None] is [Err("Invalid solver type.")] *)
Definition from_string (s : string) : option solver_type :=
  let l := to_lowercase s in
  if String.eqb l "lbfgs" then Some LBFGS
  else if String.eqb l "nelder-mead" then Some NelderMead
  else if String.eqb l "neldermead" then Some NelderMead
  else if String.eqb l "steepestdescent" then Some SteepestDescent
  else if String.eqb l "trustregion" then Some TrustRegion
  else if String.eqb l "newton-cg" then Some NewtonCG
  else if String.eqb l "newtoncg" then Some NewtonCG
  else if String.eqb l "cobyla" then Some COBYLA
  else None.

(** The [Problem] trait, problem.rs: user code, taken as pure functions.  An evaluation
    error is a number ([inr]).  [variable_bounds()] is an n x 2 array. *)
Record problem := mk_problem {
  pb_objective : point -> f64 + N;
  pb_gradient : point -> point + N;
  pb_hessian : point -> list point + N;
  pb_bounds : list (f64 * f64);
  pb_constraints : list (point -> f64) }.
