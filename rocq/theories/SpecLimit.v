(** * What it means to ask for a longer time limit (C108) *)
From Coq Require Import NArith List Bool Arith.
From Verif Require Import F64 Base Types Observer Env ScatterSearch Codec Checkpoint Oqnlp.
Import ListNotations.

(** the program with another time limit, or none (builder max_time, src/oqnlp.rs 1188-1191) *)
Definition limited_state (g : option f64) (s : st) : st := mk_st (set_o_max_time g (s_o s)) (s_w s).
(** no limit, or one that is at least [m] *)
Definition at_least (g : option f64) (m : f64) : Prop :=
  g = None \/ exists m', g = Some m' /\ fle m m' = true.

(** What a run does, latest first, apart from reading the clock and writing checkpoint files:
    evaluations, decisions, local searches and their results, stored solution sets, thresholds,
    callbacks, messages.  (A decision is recorded with the optimizer that made it; the time
    limit in there is left out.) *)
Definition deed (e : event) : list event :=
  match e with
  | EvSave _ _ | EvClock _ => []
  | EvDecide i p v o go => [EvDecide i p v (set_o_max_time None o) go]
  | e => [e]
  end.
Definition deeds (l : list event) : list event := flat_map deed l.
