(** * Specification vocabulary for checkpoints made by runs, and for resuming (C44, C52 - C56) *)
From Coq Require Import ZArith NArith List Bool Arith String.
From Verif Require Import F64 Base Builders Types Filters Runner Observer Env ScatterSearch Codec
  Checkpoint Oqnlp Spec SpecStage2 SpecObserver SpecCheckpoint.
Import ListNotations.

(** ** C44: what a checkpoint records of an optimizer *)
Definition points_of (o : oqnlp) : list point := match o_ref o with Some r => r | None => [] end.
Definition agrees (o : oqnlp) (cp : checkpoint) : Prop :=
  o_params o = cp_params cp /\ o_iteration o = cp_iteration cp /\
  mf_threshold (o_merit o) = cp_threshold cp /\ o_set o = cp_solution_set cp /\
  points_of o = cp_reference_set cp /\ df_solutions (o_df o) = cp_df_solutions cp /\
  o_unchanged o = cp_unchanged cp /\ o_seed o = cp_seed cp /\ o_target o = cp_target cp /\
  o_exclude o = cp_exclude_oob cp /\ o_batch o = cp_batch cp /\ o_parallel o = cp_parallel cp /\
  o_abs_tol o = cp_abs_tol cp /\ o_rel_tol o = cp_rel_tol cp.
(** the same parameters, progress and settings *)
Definition same_progress (o o' : oqnlp) : Prop :=
  o_params o' = o_params o /\ o_iteration o' = o_iteration o /\
  mf_threshold (o_merit o') = mf_threshold (o_merit o) /\ o_set o' = o_set o /\
  points_of o' = points_of o /\ df_solutions (o_df o') = df_solutions (o_df o) /\
  o_unchanged o' = o_unchanged o /\ o_seed o' = o_seed o /\ o_target o' = o_target o /\
  o_exclude o' = o_exclude o /\ o_batch o' = o_batch o /\ o_parallel o' = o_parallel o /\
  o_abs_tol o' = o_abs_tol o /\ o_rel_tol o' = o_rel_tol o.

(** ** C52: what the checkpoints of a run carry.  Records have the latest event first. *)
(** the solution set after the events [l] *)
Fixpoint latest_set (set0 : option solset) (l : list event) : option solset :=
  match l with
  | [] => set0
  | EvSolutionSet set :: _ => Some set
  | _ :: r => latest_set set0 r
  end.
(** the local solutions processed in [l], oldest first *)
Definition processed (l : list event) : list lsol :=
  rev (flat_map (fun e => match e with EvResult x => [x] | _ => [] end) l).
(** the optimizer a run works with: its own, or one that agrees with the checkpoint it resumes from *)
Definition starts_as (E : env) (s : st) (o : oqnlp) : Prop :=
  (o = s_o s /\ forall cp, ~ resumes_from E s cp) \/ exists cp, resumes_from E s cp /\ agrees o cp.
(** [cp] records the state that the events [l] lead to from [o], with reference set [refs] *)
Definition carries (o : oqnlp) (l : list event) (refs : list point) (cp : checkpoint) : Prop :=
  cp_solution_set cp = latest_set (o_set o) l /\
  cp_threshold cp = threshold_after (mf_threshold (o_merit o)) l /\
  cp_df_solutions cp = df_solutions (o_df o) ++ processed l /\
  cp_reference_set cp = refs /\ cp_params cp = o_params o /\ cp_target cp = o_target o /\
  cp_exclude_oob cp = o_exclude o /\ cp_batch cp = o_batch o /\ cp_parallel cp = o_parallel o /\
  cp_abs_tol cp = o_abs_tol o /\ cp_rel_tol cp = o_rel_tol o.
(** events that change none of the recorded state *)
Definition idle (e : event) : Prop :=
  match e with EvCallback _ _ | EvPrint _ | EvSave _ _ | EvClock _ | EvBatch => True | _ => False end.
(** in the events [l1] recorded after some moment, only idle ones precede the next iteration
    (or there is no next one) *)
Definition idle_until_next (l1 : list event) : Prop :=
  exists later gap, l1 = later ++ gap /\ Forall idle gap /\ (later = [] \/ exists a i, later = a ++ [EvIteration i]).

(** ** C54: candidate [i] was judged and, when accepted, it was searched and the result was processed *)
Definition settled (E : env) (o : oqnlp) (i : nat) (l : list event) : Prop :=
  (exists p obj o', In (EvDecide i p obj o' false) l) \/
  exists p obj o' x, In (EvDecide i p obj o' true) l /\ In (EvSearch (Some i) p) l /\ In (EvResult x) l /\ local_result E o p x.

(** ** C53: what is on disk when the process stops right after the save of [cp] as file [f] *)
Definition stopped_with (f : fname) (cp : checkpoint) (o : oqnlp) : st :=
  mk_st o (mk_world (mk_disk [(f, enc_checkpoint cp)] 0) 0 []).
