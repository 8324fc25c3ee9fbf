(** * Specification vocabulary for observers (C38 - C43, C65) *)
From Coq Require Import ZArith NArith List Bool Arith String.
From Verif Require Import F64 Base Builders Types Filters Runner Observer Env ScatterSearch Codec
  Checkpoint Oqnlp Spec SpecStage2.
Import ListNotations.

(** ** C39, C41: histories of calls *)
(** the calls that change a Stage 1 state *)
Inductive call1 :=
| Size1 (n : nat) | Best1 (v : f64) | Solution1 (v : f64) (p : point) | Substage (name : string)
| Evals1 (n : nat) | Trials (n : nat).
Definition do1 (s : stage1) (c : call1) : stage1 :=
  match c with
  | Size1 n => s1_set_ref_size n s
  | Best1 v => s1_set_best_objective v s
  | Solution1 v p => s1_set_best_solution v p s
  | Substage n => s1_enter n s
  | Evals1 n => s1_add_evals n s
  | Trials n => s1_add_trials n s
  end.
(** the objective values reported by a history *)
Definition reported1 (h : list call1) : list f64 :=
  flat_map (fun c => match c with Best1 v | Solution1 v _ => [v] | _ => [] end) h.
(** the calls that change a Stage 2 state *)
Inductive call2 :=
| Iteration (n : nat) | Best2 (v : f64) | Solution2 (v : f64) (p : point) | SetSize (n : nat)
| Threshold (v : f64) | LocalCall (improved : bool) | Evals2 (n : nat) | Unchanged (n : nat) | LastAdded (p : point).
Definition do2 (s : stage2) (c : call2) : stage2 :=
  match c with
  | Iteration n => s2_set_iteration n s
  | Best2 v => s2_set_best_objective v s
  | Solution2 v p => s2_set_best_solution v p s
  | SetSize n => s2_set_set_size n s
  | Threshold v => s2_set_threshold v s
  | LocalCall b => s2_add_call b s
  | Evals2 n => s2_add_evals n s
  | Unchanged n => s2_set_unchanged n s
  | LastAdded p => s2_set_last_added p s
  end.
Definition reported2 (h : list call2) : list f64 :=
  flat_map (fun c => match c with Best2 v | Solution2 v _ => [v] | _ => [] end) h.
(** [b] is the least of the values [vs]: NaN when all are, else a value none is less than *)
Definition best_of (vs : list f64) (b : f64) : Prop :=
  (is_nan b = true /\ forall v, In v vs -> is_nan v = true) \/
  (is_nan b = false /\ In b vs /\ forall v, In v vs -> flt v b = false).
(** the calls on an observer *)
Inductive ocall :=
| TrackStage1 | TrackStage2 | TrackTiming | SetMode (m : obs_mode) | SetCallback (c : Observer.callback)
| SetFrequency (n : nat) | UniqueUpdates | Update1 (c : call1) | Update2 (c : call2)
| Stage1Complete | Stage2Started | Invoke.
Definition odo (user : nat -> observer -> observer) (o : observer) (c : ocall) : observer :=
  match c with
  | TrackStage1 => with_stage1_tracking o
  | TrackStage2 => with_stage2_tracking o
  | TrackTiming => with_timing o
  | SetMode m => with_mode m o
  | SetCallback c => with_callback c o
  | SetFrequency n => with_callback_frequency n o
  | UniqueUpdates => unique_updates o
  | Update1 c => upd_stage1 (fun s => do1 s c) o
  | Update2 c => upd_stage2 (fun s => do2 s c) o
  | Stage1Complete => mark_stage1_complete o
  | Stage2Started => mark_stage2_started o
  | Invoke => fst (invoke_callback user o)
  end.
Definition after (user : nat -> observer -> observer) (h : list ocall) : observer :=
  fold_left (odo user) h obs_new.
(** a user callback that only looks *)
Definition only_looks (user : nat -> observer -> observer) : Prop := forall n o, user n o = o.

(** ** C65: the lines of the default callback *)
(** the compared fields agree (as f64 comparison sees them) *)
Definition same_line (a b : stage2) : Prop :=
  feq (s2_best a) (s2_best b) = true /\ s2_set_size a = s2_set_size b /\
  feq (s2_threshold a) (s2_threshold b) = true /\ s2_calls a = s2_calls b /\
  s2_improved a = s2_improved b /\ s2_evals a = s2_evals b.
(** the states, of those seen by successive calls, for which a line is printed; [prev] is the
    state seen by the call before *)
Inductive lines : option stage2 -> list stage2 -> list stage2 -> Prop :=
| LnNil : forall prev, lines prev [] []
| LnZero : forall prev s r out, s2_iteration s = 0 -> lines prev r out -> lines prev (s :: r) out
| LnSame : forall p s r out, 0 < s2_iteration s -> same_line p s -> lines (Some s) r out ->
    lines (Some p) (s :: r) out
| LnNew : forall prev s r out, 0 < s2_iteration s -> (forall p, prev = Some p -> ~ same_line p s) ->
    lines (Some s) r out -> lines prev (s :: r) (s :: out).
(** the callback, invoked on an observer after each of these Stage 2 states was recorded *)
Fixpoint shown (user : nat -> observer -> observer) (o : observer) (states : list stage2) : list msg :=
  match states with
  | [] => []
  | s :: r => let '(o', m) := invoke_callback user (set_stage2 (Some s) o) in m ++ shown user o' r
  end.

(** ** C38: the same optimizer with another observer (or none) *)
Definition observed_by (ob : option observer) (s : st) : st := mk_st (set_o_observer ob (s_o s)) (s_w s).
(** callbacks that leave a usable frequency *)
Definition callbacks_ok (E : env) : Prop :=
  forall n o, ob_frequency o <> 0 -> ob_frequency (e_callback E n o) <> 0.

(** ** C40, C42: counting in the record of a run (latest event first) *)
Definition called : list event -> list nat := indices (fun e => match e with EvCallback (Some i) _ => Some i | _ => None end).
Definition multiple (f i : nat) : bool := i mod f =? 0.
(** local solutions processed *)
Definition results (l : list event) : nat :=
  List.length (filter (fun e => match e with EvResult _ => true | _ => false end) l).
(** solution sets stored *)
Definition stores (l : list event) : nat :=
  List.length (filter (fun e => match e with EvSolutionSet _ => true | _ => false end) l).
(** solution sets stored that keep an earlier solution beside the new one *)
Definition joins (l : list event) : nat :=
  List.length (filter (fun e => match e with EvSolutionSet set => 2 <=? List.length set | _ => false end) l).
(** [l] is the Stage 2 part of the record [new]: what follows the first batch start *)
Definition stage2_part (new l : list event) : Prop :=
  exists before, new = l ++ EvBatch :: before /\ ~ In EvBatch before.
(** the Stage 2 state that the optimizer's observer holds *)
Definition stage2_of (o : oqnlp) : option stage2 :=
  match o_observer o with Some ob => ob_stage2 ob | None => None end.
Definition stage1_of (o : oqnlp) : option stage1 :=
  match o_observer o with Some ob => ob_stage1 ob | None => None end.

(** ** C40, C52, C54: the order of events in sequential mode *)
(** the callback frequency, when a callback is set *)
Definition callback_frequency (o : oqnlp) : option nat :=
  match o_observer o with
  | Some ob => match ob_callback ob with Some _ => Some (ob_frequency ob) | None => None end
  | None => None
  end.
(** what was recorded since the current batch was started, and the candidates it accepted *)
Fixpoint this_batch (l : list event) : list event :=
  match l with [] => [] | EvBatch :: _ => [] | e :: r => e :: this_batch r end.
Definition accepted : list event -> list nat := indices (fun e => match e with EvDecide i _ _ _ true => Some i | _ => None end).
(** callbacks that leave the callback settings of the observer alone *)
Definition callbacks_keep_settings (E : env) : Prop := forall n o,
  ob_callback (e_callback E n o) = ob_callback o /\ ob_frequency (e_callback E n o) = ob_frequency o.
(** the iterations that checkpoints were saved for *)
Definition saved : list event -> list nat := indices (fun e => match e with EvSave _ cp => Some (cp_iteration cp) | _ => None end).
(** candidate [i] was judged and, when accepted, searched, and the result was processed *)
Definition finished (E : env) (o : oqnlp) (i : nat) (l : list event) : Prop :=
  (exists p obj o', In (EvDecide i p obj o' false) l) \/
  exists p obj o' x l1 l2, l = l1 ++ EvResult x :: EvSearch (Some i) p :: l2 /\ local_result E o p x /\
    In (EvDecide i p obj o' true) l2.
(** the checkpoint a run resumes from: the latest one, when auto_resume is on and one exists *)
Definition resumes_from (E : env) (s : st) (cp : checkpoint) : Prop :=
  exists c, o_cp (s_o s) = Some c /\ cc_auto_resume c = true /\
    fst (checkpoint_exists E c (w_disk (s_w s))) = Ok true /\
    fst (load_latest E c (snd (checkpoint_exists E c (w_disk (s_w s))))) = Ok cp.
(** the candidate index a run begins with *)
Definition first_index (E : env) (s : st) (start : nat) : Prop :=
  (start = 0 /\ forall cp, ~ resumes_from E s cp) \/ exists cp, resumes_from E s cp /\ start = cp_iteration cp.
(** is a callback (a save) due after iteration [i]? [q]: the callback frequency, [c]: the checkpoint
    settings *)
Definition due (q : option nat) (i : nat) : bool := match q with Some f => multiple f i | None => false end.
Definition due_save (c : option cp_config) (i : nat) : bool :=
  match c with Some c => multiple (cc_save_frequency c) i | None => false end.
(** what the save at the end of Stage 2 records: one checkpoint of iteration [it] *)
Definition final_record (c : option cp_config) (it : nat) (l : list event) : Prop :=
  match c with
  | Some cfg => exists cp, l = [EvSave (file_name cfg it) cp] /\ cp_iteration cp = it
  | None => l = []
  end.
(** ** C42 *)
(** callbacks that leave the Stage 2 counters of the observer alone *)
Definition callbacks_keep_stage2 (E : env) : Prop := forall n o,
  ob_mode (e_callback E n o) = ob_mode o /\ ob_stage2 (e_callback E n o) = ob_stage2 o.
(** the optimizer's observer records Stage 2, and holds [st] *)
Definition tracks2 (o : oqnlp) (st : stage2) : Prop :=
  exists ob, o_observer o = Some ob /\ ob_mode ob <> Stage1Only /\ ob_stage2 ob = Some st.
(** a run begins with a solution set: that of the checkpoint it resumes from, or the optimizer's *)
Definition begins_with_set (E : env) (s : st) : Prop :=
  (exists cp, resumes_from E s cp /\ cp_solution_set cp <> None) \/
  ((forall cp, ~ resumes_from E s cp) /\ o_set (s_o s) <> None).
(** ** C43 *)
(** callbacks that leave the Stage 1 counters of the observer alone *)
Definition callbacks_keep_stage1 (E : env) : Prop := forall n o,
  ob_mode (e_callback E n o) = ob_mode o /\ ob_stage1 (e_callback E n o) = ob_stage1 o.
(** the observer records Stage 1, and holds [st] *)
Definition observing1 (ob : option observer) (st : stage1) : Prop :=
  exists o, ob = Some o /\ ob_mode o <> Stage2Only /\ ob_stage1 o = Some st.
(** the evaluations that a local search from [p] reports when they are tracked *)
Definition search_reports (E : env) (o : oqnlp) (p : point) (k : nat) : Prop :=
  exists x n, solve_with_tracking (e_ext E) (e_problem E) (o_solver_type o) (o_solver_config o) p true = Ok (x, n) /\ k = N.to_nat n.
(** the points the scatter search of a run evaluated, in order *)
Definition stage1_evaluations (l : list event) : list point :=
  flat_map (fun e => match e with EvStage1 (SsEval p) => [p] | _ => [] end) (rev l).

(** ** C81 *)
(** a local search of Stage 2 from [p] reports [k] evaluations when they are tracked *)
Definition tracked_search (E : env) (o : oqnlp) (p : point) (k : nat) : Prop :=
  exists ty cfg x n, solve_with_tracking (e_ext E) (e_problem E) ty cfg p true = Ok (x, n) /\ k = N.to_nat n /\
    ((ty = o_solver_type o /\ cfg = o_solver_config o) \/
     (ty = p_solver_type (o_params o) /\ cfg = p_solver_config (o_params o))).
(** the evaluations of Stage 2 in a record: one for each candidate evaluated, and for each
    local search of a candidate those that the search reports *)
Inductive stage2_work (E : env) (o : oqnlp) : list event -> nat -> Prop :=
| work_none : stage2_work E o [] 0
| work_candidate : forall i p l n, stage2_work E o l n -> stage2_work E o (EvObjective i p :: l) (S n)
| work_search : forall i p k l n, tracked_search E o p k -> stage2_work E o l n ->
    stage2_work E o (EvSearch (Some i) p :: l) (k + n)
| work_other : forall e l n, (forall i p, e <> EvObjective i p) -> (forall i p, e <> EvSearch (Some i) p) ->
    stage2_work E o l n -> stage2_work E o (e :: l) n.
