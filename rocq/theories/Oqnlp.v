(** * The OQNLP driver (/repo/src/oqnlp.rs, features rayon and checkpointing on)

    Verbose and warning printing and the progress bar are not modelled. *)
From Coq Require Import ZArith NArith List Bool Arith String.
From Verif Require Import F64 Base Builders Types Filters Runner Observer Env ScatterSearch Codec Checkpoint.
Import ListNotations.
Local Open Scope monad_scope.

(** oqnlp.rs 152-219 *)
Inductive oq_error :=
| LocalSolverError (e : ls_error)
| NoFeasibleSolution
| ObjectiveFunctionEvaluationFailed
| ScatterSearchError (e : ss_error)
| ScatterSearchRunError (e : ss_error)
| InvalidPopulationSize (n : nat)
| InvalidIterations (n p : nat)
| DistanceFilterError (v : f64)
| InvalidThresholdFactor (v : f64)
| InvalidCustomPointsDimension (index expected got : nat)
| CustomPointOutOfBounds (index : nat)
| CheckpointError (e : cp_error).

(** The [OQNLP] struct, oqnlp.rs 314-422.  [o_solver_type] and [o_solver_config] are the
    fields of its [LocalSolver] member; [problem] is in the environment; [start_time] is
    not modelled (it is always set when a checkpoint is created). *)
Record oqnlp := mk_oq {
  o_params : params;
  o_merit : merit_filter;
  o_df : distance_filter;
  o_solver_type : solver_type;
  o_solver_config : solver_config;
  o_set : option solset;
  o_max_time : option f64;
  o_batch : option nat;
  o_parallel : bool;
  o_target : option f64;
  o_exclude : bool;
  o_cp : option cp_config;
  o_iteration : nat;
  o_ref : option (list point);
  o_unchanged : nat;
  o_seed : N;
  o_observer : option observer;
  o_custom : option (list point);
  o_abs_tol : f64;
  o_rel_tol : f64 }.
Definition set_o_params (v : params) (o : oqnlp) : oqnlp :=
  mk_oq v (o_merit o) (o_df o) (o_solver_type o) (o_solver_config o) (o_set o) (o_max_time o) (o_batch o) (o_parallel o) (o_target o) (o_exclude o) (o_cp o) (o_iteration o) (o_ref o) (o_unchanged o) (o_seed o) (o_observer o) (o_custom o) (o_abs_tol o) (o_rel_tol o).
Definition set_o_merit (v : merit_filter) (o : oqnlp) : oqnlp :=
  mk_oq (o_params o) v (o_df o) (o_solver_type o) (o_solver_config o) (o_set o) (o_max_time o) (o_batch o) (o_parallel o) (o_target o) (o_exclude o) (o_cp o) (o_iteration o) (o_ref o) (o_unchanged o) (o_seed o) (o_observer o) (o_custom o) (o_abs_tol o) (o_rel_tol o).
Definition set_o_df (v : distance_filter) (o : oqnlp) : oqnlp :=
  mk_oq (o_params o) (o_merit o) v (o_solver_type o) (o_solver_config o) (o_set o) (o_max_time o) (o_batch o) (o_parallel o) (o_target o) (o_exclude o) (o_cp o) (o_iteration o) (o_ref o) (o_unchanged o) (o_seed o) (o_observer o) (o_custom o) (o_abs_tol o) (o_rel_tol o).
Definition set_o_solver_type (v : solver_type) (o : oqnlp) : oqnlp :=
  mk_oq (o_params o) (o_merit o) (o_df o) v (o_solver_config o) (o_set o) (o_max_time o) (o_batch o) (o_parallel o) (o_target o) (o_exclude o) (o_cp o) (o_iteration o) (o_ref o) (o_unchanged o) (o_seed o) (o_observer o) (o_custom o) (o_abs_tol o) (o_rel_tol o).
Definition set_o_solver_config (v : solver_config) (o : oqnlp) : oqnlp :=
  mk_oq (o_params o) (o_merit o) (o_df o) (o_solver_type o) v (o_set o) (o_max_time o) (o_batch o) (o_parallel o) (o_target o) (o_exclude o) (o_cp o) (o_iteration o) (o_ref o) (o_unchanged o) (o_seed o) (o_observer o) (o_custom o) (o_abs_tol o) (o_rel_tol o).
Definition set_o_set (v : option solset) (o : oqnlp) : oqnlp :=
  mk_oq (o_params o) (o_merit o) (o_df o) (o_solver_type o) (o_solver_config o) v (o_max_time o) (o_batch o) (o_parallel o) (o_target o) (o_exclude o) (o_cp o) (o_iteration o) (o_ref o) (o_unchanged o) (o_seed o) (o_observer o) (o_custom o) (o_abs_tol o) (o_rel_tol o).
Definition set_o_max_time (v : option f64) (o : oqnlp) : oqnlp :=
  mk_oq (o_params o) (o_merit o) (o_df o) (o_solver_type o) (o_solver_config o) (o_set o) v (o_batch o) (o_parallel o) (o_target o) (o_exclude o) (o_cp o) (o_iteration o) (o_ref o) (o_unchanged o) (o_seed o) (o_observer o) (o_custom o) (o_abs_tol o) (o_rel_tol o).
Definition set_o_batch (v : option nat) (o : oqnlp) : oqnlp :=
  mk_oq (o_params o) (o_merit o) (o_df o) (o_solver_type o) (o_solver_config o) (o_set o) (o_max_time o) v (o_parallel o) (o_target o) (o_exclude o) (o_cp o) (o_iteration o) (o_ref o) (o_unchanged o) (o_seed o) (o_observer o) (o_custom o) (o_abs_tol o) (o_rel_tol o).
Definition set_o_parallel (v : bool) (o : oqnlp) : oqnlp :=
  mk_oq (o_params o) (o_merit o) (o_df o) (o_solver_type o) (o_solver_config o) (o_set o) (o_max_time o) (o_batch o) v (o_target o) (o_exclude o) (o_cp o) (o_iteration o) (o_ref o) (o_unchanged o) (o_seed o) (o_observer o) (o_custom o) (o_abs_tol o) (o_rel_tol o).
Definition set_o_target (v : option f64) (o : oqnlp) : oqnlp :=
  mk_oq (o_params o) (o_merit o) (o_df o) (o_solver_type o) (o_solver_config o) (o_set o) (o_max_time o) (o_batch o) (o_parallel o) v (o_exclude o) (o_cp o) (o_iteration o) (o_ref o) (o_unchanged o) (o_seed o) (o_observer o) (o_custom o) (o_abs_tol o) (o_rel_tol o).
Definition set_o_exclude (v : bool) (o : oqnlp) : oqnlp :=
  mk_oq (o_params o) (o_merit o) (o_df o) (o_solver_type o) (o_solver_config o) (o_set o) (o_max_time o) (o_batch o) (o_parallel o) (o_target o) v (o_cp o) (o_iteration o) (o_ref o) (o_unchanged o) (o_seed o) (o_observer o) (o_custom o) (o_abs_tol o) (o_rel_tol o).
Definition set_o_cp (v : option cp_config) (o : oqnlp) : oqnlp :=
  mk_oq (o_params o) (o_merit o) (o_df o) (o_solver_type o) (o_solver_config o) (o_set o) (o_max_time o) (o_batch o) (o_parallel o) (o_target o) (o_exclude o) v (o_iteration o) (o_ref o) (o_unchanged o) (o_seed o) (o_observer o) (o_custom o) (o_abs_tol o) (o_rel_tol o).
Definition set_o_iteration (v : nat) (o : oqnlp) : oqnlp :=
  mk_oq (o_params o) (o_merit o) (o_df o) (o_solver_type o) (o_solver_config o) (o_set o) (o_max_time o) (o_batch o) (o_parallel o) (o_target o) (o_exclude o) (o_cp o) v (o_ref o) (o_unchanged o) (o_seed o) (o_observer o) (o_custom o) (o_abs_tol o) (o_rel_tol o).
Definition set_o_ref (v : option (list point)) (o : oqnlp) : oqnlp :=
  mk_oq (o_params o) (o_merit o) (o_df o) (o_solver_type o) (o_solver_config o) (o_set o) (o_max_time o) (o_batch o) (o_parallel o) (o_target o) (o_exclude o) (o_cp o) (o_iteration o) v (o_unchanged o) (o_seed o) (o_observer o) (o_custom o) (o_abs_tol o) (o_rel_tol o).
Definition set_o_unchanged (v : nat) (o : oqnlp) : oqnlp :=
  mk_oq (o_params o) (o_merit o) (o_df o) (o_solver_type o) (o_solver_config o) (o_set o) (o_max_time o) (o_batch o) (o_parallel o) (o_target o) (o_exclude o) (o_cp o) (o_iteration o) (o_ref o) v (o_seed o) (o_observer o) (o_custom o) (o_abs_tol o) (o_rel_tol o).
Definition set_o_seed (v : N) (o : oqnlp) : oqnlp :=
  mk_oq (o_params o) (o_merit o) (o_df o) (o_solver_type o) (o_solver_config o) (o_set o) (o_max_time o) (o_batch o) (o_parallel o) (o_target o) (o_exclude o) (o_cp o) (o_iteration o) (o_ref o) (o_unchanged o) v (o_observer o) (o_custom o) (o_abs_tol o) (o_rel_tol o).
Definition set_o_observer (v : option observer) (o : oqnlp) : oqnlp :=
  mk_oq (o_params o) (o_merit o) (o_df o) (o_solver_type o) (o_solver_config o) (o_set o) (o_max_time o) (o_batch o) (o_parallel o) (o_target o) (o_exclude o) (o_cp o) (o_iteration o) (o_ref o) (o_unchanged o) (o_seed o) v (o_custom o) (o_abs_tol o) (o_rel_tol o).
Definition set_o_custom (v : option (list point)) (o : oqnlp) : oqnlp :=
  mk_oq (o_params o) (o_merit o) (o_df o) (o_solver_type o) (o_solver_config o) (o_set o) (o_max_time o) (o_batch o) (o_parallel o) (o_target o) (o_exclude o) (o_cp o) (o_iteration o) (o_ref o) (o_unchanged o) (o_seed o) (o_observer o) v (o_abs_tol o) (o_rel_tol o).
Definition set_o_abs_tol (v : f64) (o : oqnlp) : oqnlp :=
  mk_oq (o_params o) (o_merit o) (o_df o) (o_solver_type o) (o_solver_config o) (o_set o) (o_max_time o) (o_batch o) (o_parallel o) (o_target o) (o_exclude o) (o_cp o) (o_iteration o) (o_ref o) (o_unchanged o) (o_seed o) (o_observer o) (o_custom o) v (o_rel_tol o).
Definition set_o_rel_tol (v : f64) (o : oqnlp) : oqnlp :=
  mk_oq (o_params o) (o_merit o) (o_df o) (o_solver_type o) (o_solver_config o) (o_set o) (o_max_time o) (o_batch o) (o_parallel o) (o_target o) (o_exclude o) (o_cp o) (o_iteration o) (o_ref o) (o_unchanged o) (o_seed o) (o_observer o) (o_custom o) (o_abs_tol o) v.

(** What a run does that can be observed, in order (ghost). *)
Inductive event :=
| EvStage1 (e : ss_event)
| EvObjective (iter : nat) (p : point)          (* the user's objective was called in Stage 2 *)
| EvDecide (iter : nat) (p : point) (obj : f64) (o : oqnlp) (go : bool)
                                                (* candidate judged in state o; go = search it *)
| EvSearch (iter : option nat) (p : point)      (* a local search was started from p
                                                   (None: the one that ends Stage 1) *)
| EvResult (s : lsol)                           (* its result was processed *)
| EvSolutionSet (s : solset)                    (* the solution set became s *)
| EvThreshold (v : f64)                         (* the merit threshold became v *)
| EvRelax (v : f64)                             (* ... by the wait-cycle relaxation *)
| EvCallback (iter : option nat) (o : observer) (* callback invoked (iteration in Stage 2) *)
| EvPrint (m : msg)
| EvSave (f : fname) (c : checkpoint)           (* a checkpoint write was attempted *)
| EvIteration (iter : nat)                      (* Stage 2 began to process this iteration *)
| EvClock (v : f64)                             (* the clock was read for the time check *)
| EvBatch.                                      (* Stage 2 passed the time check of a batch *)

(** Disk, counter of clock readings/scheduler contexts, and trace (latest event first) *)
Record world := mk_world { w_disk : disk; w_tick : nat; w_trace : list event }.
Record st := mk_st { s_o : oqnlp; s_w : world }.
Definition OM (A : Type) := M st oq_error A.

Definition upd (f : oqnlp -> oqnlp) : OM unit := modify (fun s => mk_st (f (s_o s)) (s_w s)).
Definition emit (l : list event) : OM unit :=
  modify (fun s => mk_st (s_o s) (mk_world (w_disk (s_w s)) (w_tick (s_w s)) (rev l ++ w_trace (s_w s)))).
Definition tick : OM nat :=
  fun s => (Ok (w_tick (s_w s)),
            mk_st (s_o s) (mk_world (w_disk (s_w s)) (S (w_tick (s_w s))) (w_trace (s_w s)))).
(** run a checkpoint-manager operation on the disk; errors become [CheckpointError] *)
Definition on_disk {A} (m : DM A) : OM A :=
  fun s => let '(r, d) := m (w_disk (s_w s)) in
           let s' := mk_st (s_o s) (mk_world d (w_tick (s_w s)) (w_trace (s_w s))) in
           match r with
           | Ok a => (Ok a, s')
           | Err e => (Err (CheckpointError e), s')
           | Panic => (Panic, s')
           end.
Definition the_oqnlp : OM oqnlp := s <- get ;; ret (s_o s).
Definition of_solver {A} (r : outcome ls_error A) : OM A :=
  match r with Ok a => ret a | Err e => fail (LocalSolverError e) | Panic => panic end.

(** ** Construction *)
(** oqnlp.rs 438-499 *)
Definition oq_new (p : params) : outcome oq_error oqnlp :=
  if p_population p <=? 3 then Err (InvalidPopulationSize (p_population p))
  else if p_population p <? p_iterations p then Err (InvalidIterations (p_iterations p) (p_population p))
  else if fle (p_threshold_factor p) f0 then Err (InvalidThresholdFactor (p_threshold_factor p))
  else match df_new (mk_fparams (p_distance_factor p) (p_wait_cycle p) (p_threshold_factor p)) with
       | inr v => Err (DistanceFilterError v)
       | inl df => Ok (mk_oq p mf_new df (p_solver_type p) (p_solver_config p) None None None true
                             None false None 0 None 0 (p_seed p) None None lit_1e_8 lit_1e_6)
       end.

(** The coordinate check of oqnlp.rs 662-668 and 1061-1068; [None] is the index panic of a
    point with more coordinates than bounds *)
Fixpoint within_bounds (b : list (f64 * f64)) (p : point) : option bool :=
  match p, b with
  | [], _ => Some true
  | x :: p', (lo, hi) :: b' => if flt x lo || fgt x hi then Some false else within_bounds b' p'
  | _ :: _, [] => None
  end.
(** the loop of oqnlp.rs 649-671 *)
Fixpoint check_points (b : list (f64 * f64)) (i : nat) (l : list point) : outcome oq_error unit :=
  match l with
  | [] => Ok tt
  | p :: r =>
      if List.length p =? List.length b then
        match within_bounds b p with
        | Some true => check_points b (S i) r
        | Some false => Err (CustomPointOutOfBounds i)
        | None => Panic
        end
      else Err (InvalidCustomPointsDimension i (List.length b) (List.length p))
  end.
(** oqnlp.rs 643-675 *)
Definition with_points (E : env) (l : list point) (o : oqnlp) : outcome oq_error oqnlp :=
  match check_points (pb_bounds (e_problem E)) 0 l with
  | Ok _ => Ok (set_o_custom (Some l) o)
  | Err e => Err e
  | Panic => Panic
  end.
(** oqnlp.rs 579-582, 1188-1218, 1260-1351 *)
Definition add_observer (ob : observer) : oqnlp -> oqnlp := set_o_observer (Some ob).
Definition max_time (t : f64) : oqnlp -> oqnlp := set_o_max_time (Some t).
Definition batch_iterations (n : nat) : oqnlp -> oqnlp := set_o_batch (Some n).
Definition parallel (b : bool) : oqnlp -> oqnlp := set_o_parallel b.
Definition target_objective (t : f64) : oqnlp -> oqnlp := set_o_target (Some t).
Definition set_exclude_out_of_bounds (b : bool) : oqnlp -> oqnlp := set_o_exclude b.
Definition with_tolerance (a r : f64) (o : oqnlp) : oqnlp := set_o_rel_tol r (set_o_abs_tol a o).
(** oqnlp.rs 1357-1360 *)
Definition with_checkpointing (E : env) (c : cp_config) : OM unit :=
  c' <- on_disk (manager_new E c) ;; upd (set_o_cp (Some c')).

(** ** Filters, target, solution processing *)
(** oqnlp.rs 1034-1038 *)
Definition should_start_local (o : oqnlp) (p : point) (obj : f64) : bool :=
  mf_check (o_merit o) obj && df_check (o_df o) p.
(** oqnlp.rs 1041-1055; [None] is the panic of is_within_bounds *)
Definition target_reached (E : env) (o : oqnlp) : option bool :=
  match o_target o, o_set o with
  | Some t, Some s =>
      match best_solution s with
      | Some b =>
          let r := fle (ls_obj b) t in
          if o_exclude o && r
          then within_bounds (pb_bounds (e_problem E)) (ls_point b)
          else Some r
      | None => Some false
      end
  | _, _ => Some false
  end.
(** oqnlp.rs 1115-1116 *)
Definition tol_of (abs_tol rel_tol o1 o2 : f64) : f64 :=
  fmax abs_tol (fmul rel_tol (fmax (fabs o1) (fabs o2))).
(** oqnlp.rs 1171-1179 *)
Definition is_duplicate (df : f64) (p : point) (set : solset) : bool :=
  existsb (fun s => flt (dist2 p (ls_point s)) (fmul df df)) set.

Definition obs (f : observer -> observer) : OM unit :=
  upd (fun o => set_o_observer (option_map f (o_observer o)) o).
Definition set_threshold (v : f64) : OM unit :=
  upd (fun o => set_o_merit (mf_update (o_merit o) v) o) ;;; emit [EvThreshold v].
Definition set_solutions (s : solset) : OM unit :=
  upd (set_o_set (Some s)) ;;; emit [EvSolutionSet s].
Definition add_to_filter (s : lsol) : OM unit := upd (fun o => set_o_df (df_add (o_df o) s) o).

(** oqnlp.rs 1074-1168 *)
Definition process_local_solution (E : env) (s : lsol) : OM bool :=
  o <- the_oqnlp ;;
  inside <- (if o_exclude o then unwrap (within_bounds (pb_bounds (e_problem E)) (ls_point s)) else ret true) ;;
  if negb inside then
    emit [EvResult s] ;;; add_to_filter s ;;; ret false
  else
    match o_set o with
    | None =>
        emit [EvResult s] ;;;
        set_solutions [s] ;;;
        set_threshold (ls_obj s) ;;;
        add_to_filter s ;;; ret true
    | Some sols =>
        match sols with
        | [] => panic
        | cur :: _ =>
            let o1 := ls_obj s in
            let o2 := ls_obj cur in
            let diff := fabs (fsub o1 o2) in
            let tol := tol_of (o_abs_tol o) (o_rel_tol o) o1 o2 in
            emit [EvResult s] ;;;
            added <- (if flt o1 (fsub o2 tol) then
                        set_solutions [s] ;;;
                        set_threshold o1 ;;;
                        obs (upd_stage2_any (s2_set_last_added (ls_point s))) ;;;
                        ret false
                      else if fle diff tol && negb (is_duplicate (p_distance_factor (o_params o)) (ls_point s) sols) then
                        set_solutions (sols ++ [s]) ;;;
                        obs (upd_stage2_any (s2_set_last_added (ls_point s))) ;;;
                        ret true
                      else ret false) ;;
            add_to_filter s ;;;
            ret added
        end
    end.

(** oqnlp.rs 1622-1626 *)
Definition relaxed (factor thr : f64) : f64 := fadd thr (fmul factor (fadd f1 (fabs thr))).
Definition adjust_threshold : OM unit :=
  o <- the_oqnlp ;;
  let v := relaxed (p_threshold_factor (o_params o)) (mf_threshold (o_merit o)) in
  upd (fun o => set_o_merit (mf_update (o_merit o) v) o) ;;; emit [EvRelax v].

(** ** Observers and checkpoints during a run *)
Definition callback (E : env) (iter : option nat) : OM unit :=
  o <- the_oqnlp ;;
  match o_observer o with
  | None => ret tt
  | Some ob =>
      match ob_callback ob with
      | None => ret tt
      | Some _ =>
          let '(ob', msgs) := invoke_callback (e_callback E) ob in
          emit (EvCallback iter ob :: map EvPrint msgs) ;;;
          upd (set_o_observer (Some ob'))
      end
  end.
(** oqnlp.rs 1762-1766, 1873-1877, 1966-1970 *)
Definition callback_at (E : env) (iter : nat) : OM unit :=
  o <- the_oqnlp ;;
  match o_observer o with
  | None => ret tt
  | Some ob =>
      match should_invoke_callback ob iter with
      | None => panic
      | Some true => callback E (Some iter)
      | Some false => ret tt
      end
  end.
(** oqnlp.rs 1562-1586 *)
Definition create_checkpoint (E : env) : OM checkpoint :=
  t <- tick ;;
  o <- the_oqnlp ;;
  ret (mk_cp (o_params o) (o_iteration o) (mf_threshold (o_merit o)) (o_set o)
             (match o_ref o with Some r => r | None => [] end) (o_unchanged o) (e_clock E t)
             (df_solutions (o_df o)) (o_seed o) (o_target o) (o_exclude o) (o_batch o) (o_parallel o)
             (o_abs_tol o) (o_rel_tol o) (e_timestamp E t)).
Definition save_now (E : env) (c : cp_config) : OM unit :=
  cp <- create_checkpoint E ;;
  o <- the_oqnlp ;;
  emit [EvSave (file_name c (o_iteration o)) cp] ;;;
  on_disk (save_checkpoint E c cp (o_iteration o)) ;;;
  ret tt.
(** oqnlp.rs 1590-1602; [% 0] panics *)
Definition maybe_save_checkpoint (E : env) : OM unit :=
  o <- the_oqnlp ;;
  match o_cp o with
  | None => ret tt
  | Some c =>
      match cc_save_frequency c with
      | O => panic
      | S _ => if o_iteration o mod cc_save_frequency c =? 0 then save_now E c else ret tt
      end
  end.
(** oqnlp.rs 1606-1616 *)
Definition maybe_save_final_checkpoint (E : env) : OM unit :=
  o <- the_oqnlp ;;
  match o_cp o with None => ret tt | Some c => save_now E c end.

(** oqnlp.rs 1512-1558: the distance filter's parameters, the local solver, max_time and
    the observer are left as they are *)
Definition restored (cp : checkpoint) (o : oqnlp) : oqnlp :=
  mk_oq (cp_params cp) (mf_update (o_merit o) (cp_threshold cp)) (df_set (o_df o) (cp_df_solutions cp))
        (o_solver_type o) (o_solver_config o) (cp_solution_set cp) (o_max_time o) (cp_batch cp)
        (cp_parallel cp) (cp_target cp) (cp_exclude_oob cp) (o_cp o) (cp_iteration cp)
        (Some (cp_reference_set cp)) (cp_unchanged cp) (cp_seed cp) (o_observer o) (o_custom o)
        (cp_abs_tol cp) (cp_rel_tol cp).
Definition restore_from_checkpoint (cp : checkpoint) : OM unit := upd (restored cp).
(** oqnlp.rs 1366-1375 *)
Definition try_resume_from_checkpoint (E : env) : OM bool :=
  o <- the_oqnlp ;;
  match o_cp o with
  | None => ret false
  | Some c =>
      if cc_auto_resume c then
        ex <- on_disk (checkpoint_exists E c) ;;
        if ex then
          cp <- on_disk (load_latest E c) ;;
          restore_from_checkpoint cp ;;;
          ret true
        else ret false
      else ret false
  end.

Definition with_pop_seed (p : params) (pop : nat) (seed : N) : params :=
  mk_params (p_iterations p) pop (p_wait_cycle p) (p_threshold_factor p) (p_distance_factor p)
            (p_solver_type p) (p_solver_config p) seed.
(** run a scatter-search computation, recording its events; [wrap] is the error conversion *)
Definition run_ss {A} (wrap : ss_error -> oq_error) (m : M ss ss_error A) (s0 : ss) : OM (A * ss) :=
  let '(r, s1) := m s0 in
  emit (map EvStage1 (rev (ss_log s1))) ;;;
  match r with Ok a => ret (a, s1) | Err e => fail (wrap e) | Panic => panic end.
(** oqnlp.rs 1448-1478 *)
Definition expand_reference_set (E : env) (refs : list point) (old_size new_size : nat) : OM (list point) :=
  if new_size <=? old_size then ret refs
  else
    o <- the_oqnlp ;;
    t <- tick ;;
    seed <- unwrap (add_u64 E (o_seed o) (N.of_nat (List.length refs))) ;;
    match ss_new E (with_pop_seed (o_params o) new_size seed) t with
    | Err e => fail (ScatterSearchError e)
    | Panic => panic
    | Ok s0 =>
        r <- run_ss ScatterSearchError
               (diversify_reference_set E refs (pb_constraints (e_problem E)))
               (ss_set_parallel (o_parallel o) s0) ;;
        ret (fst r)
    end.
Definition cp_with (p : params) (refs : list point) (c : checkpoint) : checkpoint :=
  mk_cp p (cp_iteration c) (cp_threshold c) (cp_solution_set c) refs (cp_unchanged c) (cp_elapsed c)
        (cp_df_solutions c) (cp_seed c) (cp_target c) (cp_exclude_oob c) (cp_batch c) (cp_parallel c)
        (cp_abs_tol c) (cp_rel_tol c) (cp_timestamp c).
(** oqnlp.rs 1382-1441 *)
Definition resume_with_modified_params (E : env) (np : params) : OM bool :=
  o <- the_oqnlp ;;
  match o_cp o with
  | None => ret false
  | Some c =>
      ex <- on_disk (checkpoint_exists E c) ;;
      if ex then
        cp <- on_disk (load_latest E c) ;;
        let old := p_population (cp_params cp) in
        refs <- (if old <? p_population np
                 then expand_reference_set E (cp_reference_set cp) old (p_population np)
                 else ret (cp_reference_set cp)) ;;
        restore_from_checkpoint (cp_with np refs cp) ;;;
        ret true
      else ret false
  end.
(** oqnlp.rs 1482-1508 *)
Definition resume_from_checkpoint_with_params (E : env) (f : fname) (np : params) : OM unit :=
  o <- the_oqnlp ;;
  match o_cp o with
  | None => ret tt
  | Some _ =>
      cp <- on_disk (load_from_path E f) ;;
      restore_from_checkpoint (cp_with np (cp_reference_set cp) cp)
  end.

(** ** Stage 2 *)
Definition observes1 (o : oqnlp) : bool :=
  match o_observer o with Some ob => should_observe_stage1 ob | None => false end.
Definition observes2 (o : oqnlp) : bool :=
  match o_observer o with Some ob => should_observe_stage2 ob | None => false end.
(** the pattern "if tracking { solve_with_tracking(x, true) } else { (solve(x), 0) }" *)
Definition solve_tracked (E : env) (ty : solver_type) (cfg : solver_config) (x : point) (track : bool)
    : outcome ls_error (lsol * N) :=
  if track then solve_with_tracking (e_ext E) (e_problem E) ty cfg x true
  else match solve (e_ext E) (e_problem E) ty cfg x with
       | Ok s => Ok (s, 0%N)
       | Err e => Err e
       | Panic => Panic
       end.

(** oqnlp.rs 1643-1653: checkpoint bookkeeping at the start of an iteration *)
Definition begin_iteration (E : env) (iter unchanged : nat) : OM unit :=
  upd (fun o => set_o_unchanged unchanged (set_o_iteration iter o)) ;;;
  o <- the_oqnlp ;;
  seed <- unwrap (add_u64 E (p_seed (o_params o)) (N.of_nat iter)) ;;
  upd (set_o_seed seed) ;;;
  emit [EvIteration iter].
(** oqnlp.rs 1658-1666: iteration, unchanged cycles and threshold reported to the observer *)
Definition obs_iteration (iter unchanged : nat) : OM unit :=
  o <- the_oqnlp ;;
  obs (upd_stage2 (fun s => s2_set_threshold (mf_threshold (o_merit o))
                             (s2_set_unchanged unchanged (s2_set_iteration iter s)))).
(** oqnlp.rs 1669-1679, 1802-1813 *)
Definition cand_objective (E : env) (objs : option (list f64)) (iter : nat) (p : point)
    : outcome oq_error f64 :=
  match objs with
  | Some l => match List.length l with
              | O => Panic
              | n => match nth_error l (iter mod n) with Some v => Ok v | None => Panic end
              end
  | None => match pb_objective (e_problem E) p with
            | inl v => Ok v
            | inr _ => Err ObjectiveFunctionEvaluationFailed
            end
  end.
Definition emit_eval (objs : option (list f64)) (iter : nat) (p : point) : OM unit :=
  match objs with Some _ => ret tt | None => emit [EvObjective iter p] end.
(** oqnlp.rs 1709-1722: what the observer records about a finished local search *)
Definition obs_search (added : bool) (evals : N) : OM unit :=
  o <- the_oqnlp ;;
  obs (upd_stage2 (fun s =>
    let s := s2_add_evals (N.to_nat evals) (s2_add_call added s) in
    match o_set o with
    | None => s
    | Some set =>
        s2_set_set_size (List.length set)
          (match best_solution set with
           | Some b => s2_set_best_solution (ls_obj b) (ls_point b) s
           | None => s
           end)
    end)).
(** oqnlp.rs 1744-1758, 1847-1859: a rejected candidate *)
Definition count_unchanged (unchanged : nat) : OM nat :=
  o <- the_oqnlp ;;
  if p_wait_cycle (o_params o) <=? S unchanged
  then adjust_threshold ;;; ret 0
  else ret (S unchanged).

(** One candidate of oqnlp.rs 1637-1771; the boolean is true after the early return on
    reaching the target *)
Definition process_one_seq (E : env) (objs : option (list f64)) (iter : nat) (p : point)
    (unchanged : nat) : OM (nat * bool) :=
  begin_iteration E iter unchanged ;;;
  obs_iteration iter unchanged ;;;
  emit_eval objs iter p ;;;
  obj <- of_result (cand_objective E objs iter p) ;;
  (match objs with None => obs (upd_stage2 (s2_add_evals 1)) | Some _ => ret tt end) ;;;
  o <- the_oqnlp ;;
  let go := should_start_local o p obj in
  emit [EvDecide iter p obj o go] ;;;
  r <- (if go then
          set_threshold obj ;;;
          emit [EvSearch (Some iter) p] ;;;
          r <- of_solver (solve_tracked E (o_solver_type o) (o_solver_config o) p (observes2 o)) ;;
          added <- process_local_solution E (fst r) ;;
          obs_search added (snd r) ;;;
          o2 <- the_oqnlp ;;
          stop <- unwrap (target_reached E o2) ;;
          ret (unchanged, stop)
        else
          u <- count_unchanged unchanged ;;
          ret (u, false)) ;;
  let '(u, stop) := r in
  if (stop : bool) then ret (u, true)
  else
    callback_at E iter ;;;
    maybe_save_checkpoint E ;;;
    ret (u, false).
(** oqnlp.rs 1629-1773 *)
Fixpoint process_batch_sequential (E : env) (start : nat) (resumed : bool) (objs : option (list f64))
    (batch : list (nat * point)) (unchanged : nat) : OM nat :=
  match batch with
  | [] => ret unchanged
  | (iter, p) :: rest =>
      if resumed && (iter <? start) then process_batch_sequential E start resumed objs rest unchanged
      else
        r <- process_one_seq E objs iter p unchanged ;;
        let '(u, stop) := r in
        if (stop : bool) then ret u
        else process_batch_sequential E start resumed objs rest u
  end.

(** [par_iter().map(f).collect::<Result<Vec<_>, _>>()] where f may also panic: a panic
    propagates; otherwise some error, otherwise all values in order. *)
Definition oc_panic {A} (r : outcome oq_error A) : bool := match r with Panic => true | _ => false end.
Definition oc_errs {A} (l : list (outcome oq_error A)) : list oq_error :=
  flat_map (fun r => match r with Err e => [e] | _ => [] end) l.
Definition oc_vals {A} (l : list (outcome oq_error A)) : list A :=
  flat_map (fun r => match r with Ok a => [a] | _ => [] end) l.
Definition par_collect {A} (pick : nat) (l : list (outcome oq_error A)) : outcome oq_error (list A) :=
  if existsb oc_panic l then Panic
  else match oc_errs l with
       | [] => Ok (oc_vals l)
       | e :: r => Err (nth (pick mod List.length (e :: r)) (e :: r) e)
       end.
Definition lift_solver {A} (r : outcome ls_error A) : outcome oq_error A :=
  match r with Ok a => Ok a | Err e => Err (LocalSolverError e) | Panic => Panic end.

(** One rejected ("quick") candidate, oqnlp.rs 1839-1881 *)
Definition process_quick (E : env) (iter : nat) (unchanged : nat) : OM nat :=
  begin_iteration E iter unchanged ;;;
  u <- count_unchanged unchanged ;;
  obs_iteration iter u ;;;
  callback_at E iter ;;;
  maybe_save_checkpoint E ;;;
  ret u.
Fixpoint process_quicks (E : env) (l : list (nat * point * f64)) (unchanged : nat) : OM nat :=
  match l with
  | [] => ret unchanged
  | (iter, _, _) :: r => u <- process_quick E iter unchanged ;; process_quicks E r u
  end.
(** One result of the parallel local searches, oqnlp.rs 1919-1985 *)
Definition process_par_result (E : env) (iter : nat) (obj : f64) (sol : lsol) (evals : N)
    (unchanged : nat) : OM bool :=
  begin_iteration E iter unchanged ;;;
  set_threshold obj ;;;
  added <- process_local_solution E sol ;;
  obs_search added evals ;;;
  obs_iteration iter unchanged ;;;
  callback_at E iter ;;;
  o <- the_oqnlp ;;
  stop <- unwrap (target_reached E o) ;;
  if (stop : bool) then ret true else maybe_save_checkpoint E ;;; ret false.
Fixpoint process_par_results (E : env) (l : list (nat * point * f64 * (lsol * N))) (unchanged : nat) : OM unit :=
  match l with
  | [] => ret tt
  | (iter, _, obj, (sol, evals)) :: r =>
      stop <- process_par_result E iter obj sol evals unchanged ;;
      if (stop : bool) then ret tt else process_par_results E r unchanged
  end.
(** One candidate of the "single local search" branch, oqnlp.rs 1988-2066 *)
Definition process_single (E : env) (iter : nat) (p : point) (obj : f64) (unchanged : nat) : OM bool :=
  begin_iteration E iter unchanged ;;;
  set_threshold obj ;;;
  o <- the_oqnlp ;;
  emit [EvSearch (Some iter) p] ;;;
  r <- of_solver (solve_tracked E (o_solver_type o) (o_solver_config o) p (observes2 o)) ;;
  added <- process_local_solution E (fst r) ;;
  obs_search added (snd r) ;;;
  obs_iteration iter unchanged ;;;
  callback E (Some iter) ;;;
  o2 <- the_oqnlp ;;
  stop <- unwrap (target_reached E o2) ;;
  if (stop : bool) then ret true else maybe_save_checkpoint E ;;; ret false.
Fixpoint process_singles (E : env) (l : list (nat * point * f64)) (unchanged : nat) : OM unit :=
  match l with
  | [] => ret tt
  | (iter, p, obj) :: r =>
      stop <- process_single E iter p obj unchanged ;;
      if (stop : bool) then ret tt else process_singles E r unchanged
  end.
(** oqnlp.rs 1777-2112 *)
Definition process_batch_parallel (E : env) (start : nat) (resumed : bool) (objs : option (list f64))
    (batch : list (nat * point)) (unchanged : nat) : OM nat :=
  let fb := if resumed then filter (fun b => start <=? fst b) batch else batch in
  if match fb with [] => true | _ => false end then ret unchanged
  else
    (match objs with None => emit (map (fun b => EvObjective (fst b) (snd b)) fb) | Some _ => ret tt end) ;;;
    t <- tick ;;
    results <- of_result (par_collect (e_err_pick E [t; 1])
                 (map (fun b => match cand_objective E objs (fst b) (snd b) with
                                | Ok v => Ok (fst b, snd b, v)
                                | Err e => Err e
                                | Panic => Panic
                                end) fb)) ;;
    (match objs with None => obs (upd_stage2 (s2_add_evals (List.length results))) | Some _ => ret tt end) ;;;
    o <- the_oqnlp ;;
    let passes := fun c : nat * point * f64 => should_start_local o (snd (fst c)) (snd c) in
    let '(local, quick) := partition passes results in
    emit (map (fun c => EvDecide (fst (fst c)) (snd (fst c)) (snd c) o (passes c)) results) ;;;
    u <- process_quicks E quick unchanged ;;
    o <- the_oqnlp ;;
    (if (2 <=? List.length local) && o_parallel o then
       emit (map (fun c => EvSearch (Some (fst (fst c))) (snd (fst c))) local) ;;;
       rs <- of_result (par_collect (e_err_pick E [t; 2])
               (map (fun c => match lift_solver (solve_tracked E (p_solver_type (o_params o))
                                       (p_solver_config (o_params o)) (snd (fst c)) (observes2 o)) with
                              | Ok r => Ok (c, r)
                              | Err e => Err e
                              | Panic => Panic
                              end) local)) ;;
       process_par_results E rs u
     else process_singles E local u) ;;;
    ret u.

(** [slice.chunks(n)]; the list is consumed in pieces of n (the fuel is its length) *)
Fixpoint chunks_fuel {A} (fuel n : nat) (l : list A) : list (list A) :=
  match fuel, l with
  | O, _ | _, [] => []
  | S f, _ => firstn n l :: chunks_fuel f n (skipn n l)
  end.
Definition chunks {A} (n : nat) (l : list A) : list (list A) := chunks_fuel (List.length l) n l.

(** The batch size, oqnlp.rs 938-953 *)
Definition batch_size (E : env) (o : oqnlp) (start : nat) : nat :=
  if negb (o_parallel o) then 1
  else match o_batch o with
       | Some n => n
       | None =>
           let remaining := p_iterations (o_params o) - start in
           if (remaining <? 4) || (e_threads E =? 1) then 1
           else Nat.min (Nat.max (remaining / (e_threads E * 2)) 2) 8
       end.
(** oqnlp.rs 962-1014 *)
Fixpoint stage2_loop (E : env) (size start : nat) (resumed : bool) (objs : option (list f64))
    (batches : list (list (nat * point))) (unchanged : nat) : OM unit :=
  match batches with
  | [] => ret tt
  | b :: rest =>
      o <- the_oqnlp ;;
      timeout <- (match o_max_time o with
                  | Some m => t <- tick ;; emit [EvClock (e_clock E t)] ;;; ret (fgt (e_clock E t) m)
                  | None => ret false
                  end) ;;
      if (timeout : bool) then ret tt
      else
        emit [EvBatch] ;;;
        u <- (if 1 <? size then process_batch_parallel E start resumed objs b unchanged
              else process_batch_sequential E start resumed objs b unchanged) ;;
        o2 <- the_oqnlp ;;
        stop <- unwrap (target_reached E o2) ;;
        if (stop : bool) then ret tt else stage2_loop E size start resumed objs rest u
  end.

(** oqnlp.rs 1029, 833-836 *)
Definition final_set : OM solset :=
  o <- the_oqnlp ;;
  match o_set o with Some s => ret s | None => fail NoFeasibleSolution end.

(** ** Stage 1, oqnlp.rs 716-860.  [None] means the target was reached (early return). *)
Definition stage1_enter (name : string) : OM unit := obs (upd_stage1 (s1_enter name)).
Definition end_stage1 (E : env) : OM unit :=
  stage1_enter "stage1_complete" ;;; callback E None ;;; obs mark_stage1_complete.
(** the scatter search, configured (oqnlp.rs 718-745) *)
Definition stage1_init (E : env) (o : oqnlp) (t : nat) : outcome ss_error ss :=
  match ss_new E (o_params o) t with
  | Ok s0 =>
      let s1 := ss_set_parallel (o_parallel o) s0 in
      let s2 := match o_custom o with Some c => ss_set_custom c s1 | None => s1 end in
      Ok (if observes1 o then ss_set_observer (o_observer o) s2 else s2)
  | Err e => Err e
  | Panic => Panic
  end.
Definition stage1_run (E : env) : OM (option (list point * list f64)) :=
  o <- the_oqnlp ;;
  t <- tick ;;
  match stage1_init E o t with
  | Err e => fail (ScatterSearchError e)
  | Panic => panic
  | Ok s3 =>
      let '(res, sf) := ss_run E s3 in
      (if observes1 o then upd (set_o_observer (ss_observer sf)) else ret tt) ;;;
      emit (map EvStage1 (rev (ss_log sf))) ;;;
      match res with
      | Err e => fail (ScatterSearchRunError e)
      | Panic => panic
      | Ok (pts, cand) =>
          let refs := map fst pts in
          let objs := map snd pts in
          obs (upd_stage1 (fun s =>
            let s := s1_set_ref_size (List.length refs) (s1_enter "scatter_search_complete" s) in
            match min_by cmp_snd (enumerate objs) with
            | Some (i, b) => match nth_error refs i with
                             | Some p => s1_set_best_solution b p s
                             | None => s
                             end
            | None => s
            end)) ;;;
          callback E None ;;;
          stage1_enter "local_optimization" ;;;
          o <- the_oqnlp ;;
          emit [EvSearch None cand] ;;;
          r <- of_solver (solve_tracked E (o_solver_type o) (o_solver_config o) cand (observes1 o)) ;;
          set_threshold (ls_obj (fst r)) ;;;
          obs (upd_stage1 (fun s =>
            s1_add_evals (N.to_nat (snd r))
              (s1_set_best_solution (ls_obj (fst r)) (ls_point (fst r))
                (s1_enter "local_optimization_complete" s)))) ;;;
          callback E None ;;;
          process_local_solution E (fst r) ;;;
          o <- the_oqnlp ;;
          stop <- unwrap (target_reached E o) ;;
          if (stop : bool) then end_stage1 E ;;; ret None
          else
            upd (set_o_ref (Some refs)) ;;;
            end_stage1 E ;;;
            ret (Some (refs, objs))
      end
  end.

(** The start of Stage 2 as reported to the observer, oqnlp.rs 867-882 *)
Definition begin_stage2 : OM unit :=
  o <- the_oqnlp ;;
  obs (upd_stage2 (fun s =>
    s2_set_threshold (mf_threshold (o_merit o))
      (match o_set o with
       | None => s
       | Some set =>
           s2_set_set_size (List.length set)
             (match best_solution set with
              | Some b => s2_set_best_solution (ls_obj b) (ls_point b) s
              | None => s
              end)
       end))) ;;;
  obs mark_stage2_started.

(** Stage 2, oqnlp.rs 862-1030, from the reference points and cached objectives *)
Definition stage2_run (E : env) (resumed : bool) (refs : list point) (objs : option (list f64))
    (unchanged : nat) : OM solset :=
  begin_stage2 ;;;
  o <- the_oqnlp ;;
  refs <- (if resumed then ret refs
           else
             seed <- unwrap (add_u64 E (p_seed (o_params o)) (N.of_nat (o_iteration o))) ;;
             upd (set_o_seed seed) ;;;
             ret (e_shuffle E (e_seed_from E seed) refs)) ;;
  let start := if resumed then o_iteration o else 0 in
  let size := batch_size E o start in
  let trials := skipn start (enumerate (firstn (p_iterations (o_params o)) refs)) in
  (if size =? 0 then panic
   else stage2_loop E size start resumed objs (chunks size trials) unchanged) ;;;
  maybe_save_final_checkpoint E ;;;
  final_set.

(** oqnlp.rs 678-1030 *)
Definition run (E : env) : OM solset :=
  resumed <- try_resume_from_checkpoint E ;;
  if (resumed : bool) then
    o <- the_oqnlp ;;
    stage2_run E true (match o_ref o with Some r => r | None => [] end) None (o_unchanged o)
  else
    r <- stage1_run E ;;
    match r with
    | None => final_set
    | Some (refs, objs) => stage2_run E false refs (Some objs) 0
    end.
