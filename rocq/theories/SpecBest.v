(** * What it means that a result is as good as all that the search saw (C105) *)
From Coq Require Import ZArith NArith List Bool Arith.
From Verif Require Import F64 Base Builders Types Filters Runner Observer Env ScatterSearch Codec Checkpoint Oqnlp Spec SpecStage2 SpecCost.
Import ListNotations.

(** [v] is the objective's value at a point at which the optimizer itself evaluated it, in
    Stage 1 or in Stage 2 *)
Definition seen_value (E : env) (l : list event) (v : f64) : Prop :=
  exists p, In p (objective_calls l) /\ pb_objective (e_problem E) p = inl v.
(** a local search from a point at which the objective is a number ends with a value that is not
    greater; [o] names the solver *)
Definition descends (E : env) (o : oqnlp) : Prop := forall p tracked x n v,
  solve_tracked E (o_solver_type o) (o_solver_config o) p tracked = Ok (x, n) ->
  pb_objective (e_problem E) p = inl v -> is_nan v = false -> fle (ls_obj x) v = true.
(** some member of [set] has a value that is not greater than [v] *)
Definition as_good (set : solset) (v : f64) : Prop := exists x, In x set /\ fle (ls_obj x) v = true.
(** it is the first one *)
Definition leads_to (set : solset) (v : f64) : Prop := exists w, leads set w /\ fle w v = true.
(** a checkpoint whose first solution is as good as all points of its reference set; the values
    are numbers and the tolerances are not negative *)
Definition good_checkpoint (E : env) (cp : checkpoint) : Prop :=
  wf (cp_abs_tol cp) = true /\ wf (cp_rel_tol cp) = true /\ fle f0 (cp_abs_tol cp) = true /\
  exists set, cp_solution_set cp = Some set /\ numeric_set set /\
    forall p v, In p (cp_reference_set cp) -> pb_objective (e_problem E) p = inl v -> leads_to set v.
