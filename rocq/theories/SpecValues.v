(** * Objective values and constraints of solutions (C93, C95) *)
From Coq Require Import ZArith NArith List Bool Arith String.
From Verif Require Import F64 Base Builders Types Filters Runner Observer Env ScatterSearch Codec Checkpoint Oqnlp
  SpecSession.
Import ListNotations.

(** ** C93 *)
(** the external solvers report the value that the function they minimize has at the point
    they return *)
Definition honest_solvers (E : env) : Prop :=
  (forall j x c n, argmin_run (e_ext E) (e_problem E) j = XDone (Some x) c n -> pb_objective (e_problem E) x = inl c) /\
  (forall j x v n, cobyla_run (e_ext E) j = XDone x v n -> v = cj_objective j x).
(** and COBYLA does not return a worse point than the one it starts from *)
Definition cobyla_improves (E : env) : Prop :=
  forall j x v n, cobyla_run (e_ext E) j = XDone x v n -> flt (cj_objective j (cj_x0 j)) v = false.
(** the objective has the reported value at the reported point *)
Definition true_value (P : problem) (x : lsol) : Prop := pb_objective P (ls_point x) = inl (ls_obj x).
(** the objective fails at the reported point, and +infinity is reported *)
Definition failed_value (P : problem) (x : lsol) : Prop :=
  ls_obj x = pinf /\ exists e, pb_objective P (ls_point x) = inr e.
(** the solver types that a call chooses *)
Definition chooses (T : solver_type -> Prop) (c : call) : Prop :=
  match c with
  | CNew p | CResumeWith p | CResumeFile _ p => T (p_solver_type p)
  | _ => True
  end.
(** calls for the problem P, with solver types in T and solvers that satisfy S *)
Definition about (P : problem) (T : solver_type -> Prop) (S : env -> Prop) (ec : env * call) : Prop :=
  e_problem (fst ec) = P /\ S (fst ec) /\ chooses T (snd ec).

(** ** C95 *)
(** [R bounds constraints x]: whatever COBYLA guarantees of the points it returns for a
    request with these bounds and constraints, for example that no constraint is below
    a tolerance *)
Definition cobyla_ensures (R : list (f64 * f64) -> list (point -> f64) -> point -> Prop) (E : env) : Prop :=
  forall j x v n, cobyla_run (e_ext E) j = XDone x v n -> R (cj_bounds j) (cj_constraints j) x.
(** P with other constraints *)
Definition with_constraints (cs : list (point -> f64)) (P : problem) : problem :=
  mk_problem (pb_objective P) (pb_gradient P) (pb_hessian P) (pb_bounds P) cs.
(** argmin is handed the problem but calls only its objective, gradient and Hessian *)
Definition argmin_ignores_constraints (X : ext) : Prop :=
  forall P cs j, argmin_run X (with_constraints cs P) j = argmin_run X P j.
(** every constraint is at least zero *)
Definition satisfies (cs : list (point -> f64)) (x : point) : Prop := Forall (fun g => fge (g x) f0 = true) cs.
