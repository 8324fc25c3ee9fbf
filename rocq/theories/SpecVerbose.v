(** * What the verbose output should say *)
From Coq Require Import ZArith NArith List Bool Arith.
From Verif Require Import F64 Base Builders Types Filters Env ScatterSearch Codec Checkpoint Oqnlp Verbose Spec SpecStage2 SpecObserver.
Import ListNotations.

(** the output in the order in which it was printed *)
Definition lines (c : con) : list line := rev (map snd (c_out c)).

(** ** Solutions *)
(** the solution sets a run went through, in order ([new]: its events, latest first) *)
Definition sets_of (new : list event) : list solset :=
  flat_map (fun e => match e with EvSolutionSet x => [x] | _ => [] end) (rev new).
(** the lines about the solution set *)
Definition about_set (l : line) : bool :=
  match l with LAdded _ _ | LReplaced _ _ | LSize _ => true | _ => false end.
(** what is to be said when the set becomes [set]: its newest member, whether it was added to
    the set or took its place, and the new size *)
Definition entry (before : option solset) (set : solset) : list line :=
  match rev set with
  | [] => []
  | x :: older =>
      [match before, older with
       | Some _, [] => LReplaced (ls_obj x) (ls_point x)
       | _, _ => LAdded (ls_obj x) (ls_point x)
       end; LSize (List.length set)]
  end.
Fixpoint announce (before : option solset) (sets : list solset) : list line :=
  match sets with
  | [] => []
  | set :: r => entry before set ++ announce (Some set) r
  end.
(** the set a run starts with: the stored one, or the one of the checkpoint *)
Definition set_before (E : env) (s : st) (b : option solset) : Prop :=
  (b = o_set (s_o s) /\ forall cp, ~ resumes_from E s cp) \/ exists cp, resumes_from E s cp /\ b = cp_solution_set cp.

(** ** The threshold *)
(** the values that the threshold was relaxed to *)
Definition relaxed_to (new : list event) : list f64 :=
  flat_map (fun e => match e with EvRelax x => [x] | _ => [] end) (rev new).
(** the values between which it was said to change *)
Definition said_changes (l : list line) : list (f64 * f64) :=
  flat_map (fun x => match x with LAdjust _ a b => [(a, b)] | _ => [] end) l.

(** ** Files *)
(** the files that a run started to write *)
Definition files_of (new : list event) : list fname :=
  flat_map (fun e => match e with EvSave f _ => [f] | _ => [] end) (rev new).
Definition said_files (l : list line) : list fname :=
  flat_map (fun x => match x with LSaved f | LFinal f => [f] | _ => [] end) l.

(** ** A line that is true of the state in which it is printed *)
(** a coordinate outside its bounds *)
Definition outside (b : list (f64 * f64)) (p : point) : Prop :=
  exists i r x, nth_error b i = Some r /\ nth_error p i = Some x /\ (flt x (fst r) = true \/ fgt x (snd r) = true).
(** the stored set reaches the target [t] *)
Definition at_target (E : env) (o : oqnlp) (t : f64) : Prop :=
  o_target o = Some t /\ exists set, o_set o = Some set /\ target_hit E o set.
(** the newest solution of the stored set *)
Definition newest (o : oqnlp) (x : lsol) : Prop := exists older, o_set o = Some (older ++ [x]).
Definition true_then (E : env) (sl : st * line) : Prop :=
  let '(s, l) := sl in
  let o := s_o s in
  let past := w_trace (s_w s) in
  match l with
  | LResuming i => o_iteration o = i
  | LStage1Local v => mf_threshold (o_merit o) = v /\ exists p r, past = EvThreshold v :: EvSearch None p :: r
  | LStage1Target t | LTarget t => at_target E o t
  | LIterTarget i t => o_iteration o = i /\ at_target E o t
  | LTimeout m => o_max_time o = Some m /\ exists x r, past = EvClock x :: r /\ fgt x m = true
  | LRejected v => o_exclude o = true /\ exists x r, past = EvResult x :: r /\ ls_obj x = v /\
      outside (pb_bounds (e_problem E)) (ls_point x)
  | LIterAdded i v => o_iteration o = i /\ exists x, newest o x /\ ls_obj x = v
  | LPoint p => exists x, newest o x /\ ls_point x = p
  | LAdjust i a _ => o_iteration o = i /\ mf_threshold (o_merit o) = a
  | LSaved f | LFinal f => exists cp r, past = EvSave f cp :: r /\
      lookup f (d_files (w_disk (s_w s))) = Some (enc_checkpoint cp)
  | LRestored i n => o_iteration o = i /\
      n = match o_set o with Some l => List.length l | None => 0 end
  | LModified _ n | LModifiedFrom _ _ n => p_iterations (o_params o) = n
  | LSize _ | LAdded _ _ | LReplaced _ _ => True   (* see [announce] *)
  | LStage1 | LStage2 => True
  | LExpanded _ _ | LSmaller _ _ | LKeeping _ => True   (* of the resume functions *)
  end.

(** ** Resuming with other parameters *)
(** the checkpoint that [resume_with_modified_params] continues *)
Definition latest_of (E : env) (s : st) (cp : checkpoint) : Prop :=
  exists c, o_cp (s_o s) = Some c /\
    fst (checkpoint_exists E c (w_disk (s_w s))) = Ok true /\
    fst (load_latest E c (snd (checkpoint_exists E c (w_disk (s_w s))))) = Ok cp.
Definition set_size (cp : checkpoint) : nat := match cp_solution_set cp with Some l => List.length l | None => 0 end.
(** the size of the reference set of an optimizer *)
Definition ref_size (o : oqnlp) : nat := match o_ref o with Some l => List.length l | None => 0 end.
