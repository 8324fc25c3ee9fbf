(** * Specification vocabulary for the local solver in use (C101) *)
From Coq Require Import ZArith NArith List Bool Arith String.
From Verif Require Import F64 Base Builders Types Filters Runner Observer Env ScatterSearch Codec
  Checkpoint Oqnlp Spec SpecStage2 SpecSession.
Import ListNotations.

(** parameters that name the local solver [ty] with the settings [cfg] *)
Definition names (ty : solver_type) (cfg : solver_config) (p : params) : Prop :=
  p_solver_type p = ty /\ p_solver_config p = cfg.
(** the solver [ty] with settings [cfg] explains all local searches in the record [new] of a run
    that ended with [r]: every processed solution is its result for the start of a search, an
    error of the local solver is its error, and a successful run had a result for every search *)
Definition explains (E : env) (ty : solver_type) (cfg : solver_config) {A} (r : outcome oq_error A) (new : list event) : Prop :=
  (forall x, In (EvResult x) new -> exists it p, In (EvSearch it p) new /\ solve (e_ext E) (e_problem E) ty cfg p = Ok x) /\
  (forall e, r = Err (LocalSolverError e) -> exists it p, In (EvSearch it p) new /\ solve (e_ext E) (e_problem E) ty cfg p = Err e) /\
  (forall a it p, r = Ok a -> In (EvSearch it p) new -> exists x, solve (e_ext E) (e_problem E) ty cfg p = Ok x).
(** calls that keep to one solver *)
Definition keeps_solver (ty : solver_type) (cfg : solver_config) (ec : env * call) : Prop :=
  match snd ec with CNew p | CResumeWith p | CResumeFile _ p => names ty cfg p | _ => True end.
