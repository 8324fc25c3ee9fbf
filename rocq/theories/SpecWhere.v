(** * Vocabulary of C97: where the optimizer evaluates the objective *)
From Coq Require Import ZArith NArith List Bool Arith String.
From Verif Require Import F64 Base Builders Types Filters Runner Observer Env EnvSpec ScatterSearch Codec Checkpoint
  Oqnlp Spec SpecStage1 SpecStage2 SpecObserver SpecCheckpoint SpecPanic SpecSession.
Import ListNotations.

(** the points at which an event shows the optimizer calling the objective itself, or
    handing a starting point to the local solver *)
Definition visited (e : event) : list point :=
  match e with
  | EvStage1 (SsEval p) => [p]
  | EvObjective _ p => [p]
  | EvSearch _ p => [p]
  | _ => []
  end.
(** inside the bounds, and no constraint is negative *)
Definition allowed (P : problem) (q : point) : Prop := in_box (pb_bounds P) q /\ feasible P q.
(** calls made for the problem [P]; custom points are f64 values *)
Definition for_problem (P : problem) (ec : env * call) : Prop :=
  e_problem (fst ec) = P /\ env_ok (fst ec) /\
  match snd ec with CPoints l => Forall canonical l | _ => True end.
(** custom points without NaN *)
Definition numbers (ec : env * call) : Prop :=
  match snd ec with CPoints l => Forall (Forall (fun x => is_nan x = false)) l | _ => True end.
