(** * What it means to ask for a lower target (C107) *)
From Coq Require Import NArith List Bool Arith.
From Verif Require Import F64 Base Types Observer Env ScatterSearch Codec Checkpoint Oqnlp.
Import ListNotations.

(** the program with another target objective, or none (builder target_objective,
    src/oqnlp.rs 1293-1296) *)
Definition aiming_state (g : option f64) (s : st) : st := mk_st (set_o_target g (s_o s)) (s_w s).
(** no target, or one that is at most [t] *)
Definition at_most (g : option f64) (t : f64) : Prop :=
  g = None \/ exists t', g = Some t' /\ fle t' t = true.

(** What a run does, latest first, apart from the checkpoint files it writes: evaluations,
    decisions, local searches and their results, stored solution sets, thresholds, callbacks,
    messages, clock readings.  (A decision is recorded with the optimizer that made it; the
    target in there is left out.) *)
Definition move (e : event) : list event :=
  match e with
  | EvSave _ _ => []
  | EvDecide i p v o go => [EvDecide i p v (set_o_target None o) go]
  | e => [e]
  end.
Definition moves (l : list event) : list event := flat_map move l.
