(** * What it means to run with another wait cycle (C112) *)
From Coq Require Import NArith List Bool Arith.
From Verif Require Import F64 Base Types Filters Observer Env ScatterSearch Codec Checkpoint Oqnlp.
Import ListNotations.

(** the parameters, the optimizer and the program with another wait_cycle; the
    optimizer's distance filter has a copy of it (OQNLP::new, src/oqnlp.rs 457-461) *)
Definition p_waiting (n : nat) (p : params) : params :=
  mk_params (p_iterations p) (p_population p) n (p_threshold_factor p) (p_distance_factor p)
            (p_solver_type p) (p_solver_config p) (p_seed p).
Definition df_waiting (n : nat) (d : distance_filter) : distance_filter :=
  mk_df (df_solutions d) (mk_fparams (fp_distance_factor (df_params d)) n (fp_threshold_factor (df_params d))).
Definition waiting (n : nat) (o : oqnlp) : oqnlp :=
  set_o_df (df_waiting n (o_df o)) (set_o_params (p_waiting n (o_params o)) o).
Definition waiting_state (n : nat) (s : st) : st := mk_st (waiting n (s_o s)) (s_w s).

(** What a run does, latest first, apart from the checkpoint files it writes: evaluations,
    decisions, local searches and their results, stored solution sets, thresholds, callbacks,
    messages, clock readings.  (A decision is recorded with the optimizer that made it; the
    wait cycle in there is left out.) *)
Definition chore (e : event) : list event :=
  match e with
  | EvSave _ _ => []
  | EvDecide i p v o go => [EvDecide i p v (waiting 0 o) go]
  | e => [e]
  end.
Definition chores (l : list event) : list event := flat_map chore l.
