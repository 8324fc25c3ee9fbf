(** * Specification vocabulary for the use of derivatives (C102) *)
From Coq Require Import ZArith NArith List Bool Arith String.
From Verif Require Import F64 Base Builders Types Filters Runner Observer Env ScatterSearch Codec
  Checkpoint Oqnlp Spec SpecSession.
Import ListNotations.

(** which local solvers are documented to need derivatives *)
Definition uses_gradient (ty : solver_type) : bool := match ty with NelderMead | COBYLA => false | _ => true end.
Definition uses_hessian (ty : solver_type) : bool := match ty with TrustRegion | NewtonCG => true | _ => false end.
(** a problem with other derivative functions, for instance the default ones, which fail *)
Definition with_derivatives (g : point -> point + N) (h : point -> list point + N) (P : problem) : problem :=
  mk_problem (pb_objective P) g h (pb_bounds P) (pb_constraints P).
Definition env_with (P : problem) (E : env) : env :=
  mk_env P (e_ext E) (e_seed_from E) (e_next E) (e_uniform E) (e_perturb E) (e_shuffle E) (e_sort E) (e_select E)
    (e_threads E) (e_sched E) (e_err_pick E) (e_clock E) (e_timestamp E) (e_io E) (e_dir_order E) (e_callback E) (e_overflow_checks E).
(** argmin calls only the functions that the solver it was asked for is declared to need
    (the trait bounds of its solvers) *)
Definition job_type (j : argmin_job) : solver_type :=
  match j with
  | JLBFGS _ _ _ _ _ _ _ => LBFGS
  | JNelderMead _ _ _ _ _ _ _ => NelderMead
  | JSteepestDescent _ _ _ => SteepestDescent
  | JTrustRegion _ _ _ _ _ _ => TrustRegion
  | JNewtonCG _ _ _ _ _ => NewtonCG
  end.
Definition asks_only (X : ext) : Prop := forall P g h j,
  (uses_gradient (job_type j) = true -> g = pb_gradient P) -> (uses_hessian (job_type j) = true -> h = pb_hessian P) ->
  argmin_run X (with_derivatives g h P) j = argmin_run X P j.
(** With the flags [G] and [H]: all the solvers named by parameters are among those that use
    gradients only if [G] and Hessians only if [H]. *)
Definition solver_within (G H : bool) (p : params) : Prop :=
  (uses_gradient (p_solver_type p) = true -> G = true) /\ (uses_hessian (p_solver_type p) = true -> H = true).
Definition call_within (G H : bool) (ec : env * call) : Prop :=
  match snd ec with CNew p | CResumeWith p | CResumeFile _ p => solver_within G H p | _ => True end.
(** two environments that differ at most in the derivatives that are not used *)
Definition same_but_derivatives (G H : bool) (E E' : env) : Prop := asks_only (e_ext E) /\
  exists g h, E' = env_with (with_derivatives g h (e_problem E)) E /\
    (G = true -> g = pb_gradient (e_problem E)) /\ (H = true -> h = pb_hessian (e_problem E)).
