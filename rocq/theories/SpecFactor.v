(** * What it means to run with another threshold factor (C111) *)
From Coq Require Import NArith List Bool Arith.
From Verif Require Import F64 Base Types Filters Observer Env ScatterSearch Codec Checkpoint Oqnlp.
Import ListNotations.

(** the parameters, the optimizer and the program with another threshold_factor; the
    optimizer's distance filter has a copy of it (OQNLP::new, src/oqnlp.rs 457-461) *)
Definition p_factored (f : f64) (p : params) : params :=
  mk_params (p_iterations p) (p_population p) (p_wait_cycle p) f (p_distance_factor p)
            (p_solver_type p) (p_solver_config p) (p_seed p).
Definition df_factored (f : f64) (d : distance_filter) : distance_filter :=
  mk_df (df_solutions d) (mk_fparams (fp_distance_factor (df_params d)) (fp_wait_cycle (df_params d)) f).
Definition factored (f : f64) (o : oqnlp) : oqnlp :=
  set_o_df (df_factored f (o_df o)) (set_o_params (p_factored f (o_params o)) o).
Definition factored_state (f : f64) (s : st) : st := mk_st (factored f (s_o s)) (s_w s).

(** What a run does, latest first, apart from the checkpoint files it writes: evaluations,
    decisions, local searches and their results, stored solution sets, thresholds, callbacks,
    messages, clock readings.  (A decision is recorded with the optimizer that made it; the
    threshold factor in there is left out.) *)
Definition move (e : event) : list event :=
  match e with
  | EvSave _ _ => []
  | EvDecide i p v o go => [EvDecide i p v (factored f1 o) go]
  | e => [e]
  end.
Definition moved (l : list event) : list event := flat_map move l.
