(** * What the Stage 2 state of an observer should show (C90) *)
From Coq Require Import ZArith NArith List Bool Arith.
From Verif Require Import F64 Base Builders Types Filters Observer Env ScatterSearch Codec Checkpoint Oqnlp Spec SpecStage2 SpecObserver.
Import ListNotations.

(** Lists of events have the latest event first. *)
(** the threshold a run starts with: the optimizer's, or that of the checkpoint *)
Definition threshold_before (E : env) (s : st) (t : f64) : Prop :=
  (t = mf_threshold (o_merit (s_o s)) /\ forall cp, ~ resumes_from E s cp) \/ exists cp, resumes_from E s cp /\ t = cp_threshold cp.
Definition is_batch (e : event) : bool := match e with EvBatch => true | _ => false end.
(** the solution sets that Stage 2 had so far, latest first, when the run started with [b]: the
    set with which Stage 2 began, and every set stored since *)
Fixpoint sets_in_stage2 (b : option solset) (l : list event) : list solset :=
  match l with
  | [] => match b with Some x => [x] | None => [] end
  | EvSolutionSet x :: r => if existsb is_batch r then x :: sets_in_stage2 b r else [x]
  | _ :: r => sets_in_stage2 b r
  end.
(** what [best_solution()] gives for these sets *)
Definition leaders (sets : list solset) : list lsol :=
  flat_map (fun set => match best_solution set with Some x => [x] | None => [] end) sets.
(** [st] shows the size of the current set, and the best of the solutions that were the best of a
    set, or what it showed before *)
Definition shows_sets (st0 st : stage2) (sets : list solset) : Prop :=
  s2_set_size st = match sets with x :: _ => List.length x | [] => s2_set_size st0 end /\
  best_of (s2_best st0 :: map ls_obj (leaders sets)) (s2_best st) /\
  ((s2_best st = s2_best st0 /\ s2_best_point st = s2_best_point st0) \/
   exists x, In x (leaders sets) /\ s2_best st = ls_obj x /\ s2_best_point st = Some (ls_point x)).
(** the solution that came last into a set that replaced or extended another *)
Definition newest (set : solset) : option point := option_map ls_point (hd_error (rev set)).
Definition is_set (e : event) : bool := match e with EvSolutionSet _ => true | _ => false end.
Fixpoint last_added (b : option solset) (p0 : option point) (l : list event) : option point :=
  match l with
  | [] => p0
  | EvSolutionSet x :: r => if existsb is_set r || match b with Some _ => true | None => false end then newest x else p0
  | _ :: r => last_added b p0 r
  end.
(** the events before the iteration that is under way *)
Fixpoint before_iteration (l : list event) : list event :=
  match l with
  | [] => []
  | EvIteration _ :: r => r
  | _ :: r => before_iteration r
  end.
