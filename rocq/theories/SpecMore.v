(** * What it means to ask for more iterations (C106) *)
From Coq Require Import NArith List Bool Arith.
From Verif Require Import F64 Base Types Observer Env ScatterSearch Codec Checkpoint Oqnlp.
Import ListNotations.

(** the parameters, the optimizer and the program with another number of iterations *)
Definition p_asking (n : nat) (p : params) : params :=
  mk_params n (p_population p) (p_wait_cycle p) (p_threshold_factor p) (p_distance_factor p)
            (p_solver_type p) (p_solver_config p) (p_seed p).
Definition asking (n : nat) (o : oqnlp) : oqnlp := set_o_params (p_asking n (o_params o)) o.
Definition asking_state (n : nat) (s : st) : st := mk_st (asking n (s_o s)) (s_w s).

(** What a run does, latest first, apart from the checkpoint files it writes: evaluations,
    decisions, local searches and their results, stored solution sets, thresholds, callbacks,
    messages, clock readings.  (A decision is recorded with the optimizer that made it; the
    number of iterations in there is left out.) *)
Definition step (e : event) : list event :=
  match e with
  | EvSave _ _ => []
  | EvDecide i p v o go => [EvDecide i p v (asking 0 o) go]
  | e => [e]
  end.
Definition steps (l : list event) : list event := flat_map step l.

(** The candidates are worked on in batches of the same size, and the smaller number of
    iterations is a whole number of batches. *)
Definition whole_batches (o : oqnlp) : Prop :=
  o_parallel o = false \/
  exists k, o_batch o = Some k /\ exists m, p_iterations (o_params o) = m * k.

(** The batch size does not depend on the number of iterations: sequential mode, or a batch
    size that was set.  (In parallel mode, the local searches use the solver of the
    parameters, as in every optimizer that [new] returns.) *)
Definition fixed_batches (o : oqnlp) : Prop :=
  o_parallel o = false \/
  (exists k, o_batch o = Some k) /\
  o_solver_type o = p_solver_type (o_params o) /\ o_solver_config o = p_solver_config (o_params o).
