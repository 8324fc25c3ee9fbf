(** * What the result of a run says about failures (C94) *)
From Coq Require Import ZArith NArith List Bool Arith String.
From Verif Require Import F64 Base Builders Types Filters Runner Observer Env ScatterSearch Codec Checkpoint Oqnlp Spec SpecStage2.
Import ListNotations.

(** the local solver fails with e on the start point p; compare [local_result] *)
Definition local_fails (E : env) (o : oqnlp) (p : point) (e : ls_error) : Prop :=
  exists ty cfg, solve (e_ext E) (e_problem E) ty cfg p = Err e /\
    ((ty = o_solver_type o /\ cfg = o_solver_config o) \/
     (ty = p_solver_type (o_params o) /\ cfg = p_solver_config (o_params o))).
(** the n-th disk operation was made between the states s and s' *)
Definition disk_operation (s s' : st) (n : nat) : Prop := d_tick (w_disk (s_w s)) <= n < d_tick (w_disk (s_w s')).
(** the optimizer asks the directory for numbered checkpoints before it starts *)
Definition lists_directory (o : oqnlp) : Prop :=
  exists c, o_cp o = Some c /\ cc_auto_resume c = true /\ cc_keep_all c = true.

(** The run that recorded [new] between s and s' met the failure that e reports.  The
    errors in the last case are those of the constructor and of [with_points]. *)
Definition met (E : env) (s s' : st) (new : list event) (e : oq_error) : Prop :=
  match e with
  | LocalSolverError le => exists i p, In (EvSearch i p) new /\ local_fails E (s_o s') p le
  | ObjectiveFunctionEvaluationFailed => exists i p n, In (EvObjective i p) new /\ pb_objective (e_problem E) p = inr n
  | ScatterSearchRunError (EvaluationError n) =>
      exists p, In (EvStage1 (SsEval p)) new /\ pb_objective (e_problem E) p = inr n
  | ScatterSearchRunError (NoFeasibleCandidates _ _) => pb_constraints (e_problem E) <> []
  | ScatterSearchRunError NoCandidates => p_population (o_params (s_o s')) = 0
  | ScatterSearchError (InvalidBounds i lo hi) =>
      nth_error (pb_bounds (e_problem E)) i = Some (lo, hi) /\ fge lo hi = true
  | NoFeasibleSolution => o_set (s_o s') = None /\
      forall x, In (EvResult x) new -> o_exclude (s_o s') = true /\
        within_bounds (pb_bounds (e_problem E)) (ls_point x) = Some false
  | CheckpointError CpSerialization => o_cp (s_o s) <> None /\
      exists f b, In (f, b) (d_files (w_disk (s_w s))) /\ decode_checkpoint b = None
  | CheckpointError (CpIo _) => o_cp (s_o s) <> None /\ exists n, disk_operation s s' n /\ e_io E n <> IoOk
  | _ => False
  end.
