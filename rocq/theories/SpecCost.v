(** * Vocabulary of C98: how much work a run does *)
From Coq Require Import ZArith NArith List Bool Arith String.
From Verif Require Import F64 Base Builders Types Filters Runner Observer Env EnvSpec ScatterSearch Codec Checkpoint
  Oqnlp Spec SpecStage1 SpecStage2.
Import ListNotations.

(** the points at which the optimizer itself called the objective, in Stage 1 or 2 *)
Definition objective_calls (l : list event) : list point :=
  flat_map (fun e => match e with EvStage1 (SsEval p) => [p] | EvObjective _ p => [p] | _ => [] end) l.
(** the starts of local searches *)
Definition search_starts (l : list event) : list point :=
  flat_map (fun e => match e with EvSearch _ p => [p] | _ => [] end) l.
(** the size of the first reference set: the population size, or the number of seeds and
    custom points that violate no constraint, if that is larger *)
Definition first_members (P : problem) (o : oqnlp) : nat :=
  Nat.max (p_population (o_params o))
    (List.length (starting_points P (match o_custom o with Some c => c | None => [] end))).
