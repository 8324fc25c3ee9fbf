(** * What the Stage 1 state of an observer should show (C104) *)
From Coq Require Import ZArith NArith List Bool Arith.
From Verif Require Import F64 Base Builders Types Filters Runner Observer Env ScatterSearch Codec Checkpoint Oqnlp Spec SpecStage2 SpecObserver.
Import ListNotations.

(** Lists of events have the latest event first. *)
(** what Stage 1 learns at an event: the value of a point that it evaluates, or the solution
    that its local search finds *)
Definition learned (E : env) (o : oqnlp) (e : event) : list (point * f64) :=
  match e with
  | EvStage1 (SsEval p) => match pb_objective (e_problem E) p with inl v => [(p, v)] | inr _ => [] end
  | EvSearch None p =>
      match solve_with_tracking (e_ext E) (e_problem E) (o_solver_type o) (o_solver_config o) p true with
      | Ok (x, _) => [(ls_point x, ls_obj x)]
      | _ => []
      end
  | _ => []
  end.
Definition known (E : env) (o : oqnlp) (l : list event) : list (point * f64) := flat_map (learned E o) l.
(** [st] shows the least of these values and a point that has it, or what it showed before,
    [st0], when that is no greater *)
Definition shows_least (st0 st : stage1) (l : list (point * f64)) : Prop :=
  best_of (s1_best st0 :: map snd l) (s1_best st) /\
  ((s1_best st = s1_best st0 /\ s1_best_point st = s1_best_point st0) \/
   exists p, In (p, s1_best st) l /\ s1_best_point st = Some p).
(** the observer that a callback of Stage 1 is invoked with *)
Definition stage1_callback (e : event) : option observer :=
  match e with
  | EvStage1 (SsCallback ob) => Some ob
  | EvCallback None ob => Some ob
  | _ => None
  end.
