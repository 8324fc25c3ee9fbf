(** * Specification vocabulary for Stage 2 (C29 - C37) *)
From Coq Require Import ZArith NArith List Bool Arith String.
From Verif Require Import F64 Base Builders Types Filters Runner Observer Env ScatterSearch Codec
  Checkpoint Oqnlp Spec.
Import ListNotations.

(** ** C29-C37: Stage 2.  Lists of events have the latest event first. *)
(** the merit threshold in force after the events [l], when it was [t0] before them *)
Fixpoint threshold_after (t0 : f64) (l : list event) : f64 :=
  match l with
  | [] => t0
  | EvThreshold v :: _ | EvRelax v :: _ => v
  | _ :: r => threshold_after t0 r
  end.
(** the local solutions processed in [l] *)
Definition result_in (l : list event) (x : lsol) : Prop := In (EvResult x) l.
(** the filter state a run begins with: the optimizer's, or that of a checkpoint file *)
Definition initial_filter (s : st) (t0 : f64) (sols0 : list lsol) : Prop :=
  (t0 = mf_threshold (o_merit (s_o s)) /\ sols0 = df_solutions (o_df (s_o s))) \/
  exists f content cp, In (f, content) (d_files (w_disk (s_w s))) /\
    decode_checkpoint content = Some cp /\ t0 = cp_threshold cp /\ sols0 = cp_df_solutions cp.
(** the events of one run *)
Definition recorded (s s' : st) (new : list event) : Prop := w_trace (s_w s') = new ++ w_trace (s_w s).

(** ** C31: the candidates a run worked on, by index *)
Definition indices (f : event -> option nat) (l : list event) : list nat :=
  flat_map (fun e => match f e with Some i => [i] | None => [] end) l.
Definition begun : list event -> list nat := indices (fun e => match e with EvIteration i => Some i | _ => None end).
Definition evaluated : list event -> list nat := indices (fun e => match e with EvObjective i _ => Some i | _ => None end).
Definition decided : list event -> list nat := indices (fun e => match e with EvDecide i _ _ _ _ => Some i | _ => None end).
Definition searched : list event -> list nat := indices (fun e => match e with EvSearch (Some i) _ => Some i | _ => None end).
Definition stage1_searches (l : list event) : list event :=
  filter (fun e => match e with EvSearch None _ => true | _ => false end) l.
Definition reference_set (s : st) : list point := match o_ref (s_o s) with Some r => r | None => [] end.
Definition work_bound (s : st) : nat :=
  Nat.min (p_iterations (o_params (s_o s))) (List.length (reference_set s)).
Definition once_below (n : nat) (l : list nat) : Prop := NoDup l /\ forall i, In i l -> i < n.

(** ** C32: the target *)
(** the best stored objective is not above the target (and the point is inside when exclusion is on) *)
Definition target_hit (E : env) (o : oqnlp) (set : solset) : Prop :=
  exists t best, o_target o = Some t /\ best_solution set = Some best /\ fle (ls_obj best) t = true /\
    (o_exclude o = true -> solution_inside (pb_bounds (e_problem E)) best).
(** events that are work on candidates: none of these may follow *)
Definition work (e : event) : Prop :=
  match e with
  | EvObjective _ _ | EvDecide _ _ _ _ _ | EvSearch _ _ | EvResult _ | EvSolutionSet _
  | EvRelax _ | EvIteration _ | EvBatch => True
  | _ => False
  end.

(** ** C33: the clock *)
(** the largest batch that Stage 2 forms *)
Definition max_batch (o : oqnlp) : nat :=
  if o_parallel o then match o_batch o with Some n => n | None => 8 end else 1.
(** a piece of a record without a batch start *)
Definition within_batch (l : list event) : Prop := ~ In EvBatch l.

(** ** C34: rejected candidates and relaxations *)
Definition rejections (l : list event) : nat :=
  List.length (filter (fun e => match e with EvDecide _ _ _ _ false => true | _ => false end) l).
Definition relaxations (l : list event) : nat :=
  List.length (filter (fun e => match e with EvRelax _ => true | _ => false end) l).
(** the number of rejections after which the threshold is relaxed *)
Definition cycle (o : oqnlp) : nat := Nat.max 1 (p_wait_cycle (o_params o)).
(** the counter a run begins with: zero, or that of a checkpoint file *)
Definition initial_counter (s : st) (u : nat) : Prop :=
  u = 0 \/ exists f content cp, In (f, content) (d_files (w_disk (s_w s))) /\
    decode_checkpoint content = Some cp /\ u = cp_unchanged cp.
(** the same environment with another clock *)
Definition with_clock (c : nat -> f64) (E : env) : env :=
  mk_env (e_problem E) (e_ext E) (e_seed_from E) (e_next E) (e_uniform E) (e_perturb E) (e_shuffle E)
    (e_sort E) (e_select E) (e_threads E) (e_sched E) (e_err_pick E) c (e_timestamp E) (e_io E)
    (e_dir_order E) (e_callback E) (e_overflow_checks E).
