(** * The output of a run with [verbose()]

    The lines that oqnlp.rs prints while it works are kept beside the state, each with the
    state in which it was printed.  A line carries the numbers and points themselves: their
    formatting (eight decimals for objective values) is not modelled.  Every [println!] is
    one write; the standard library turns a failed write into a panic.  What the user's
    callback prints is in the trace ([EvPrint]) and not here.  The warnings on the standard
    error stream of the constructor (452-456) and of [batch_iterations] (1209-1213) are not
    modelled; the one of [resume_with_modified_params] is. *)
From Coq Require Import ZArith NArith List Bool Arith String.
From Verif Require Import F64 Base Builders Types Filters Runner Observer Env ScatterSearch Codec Checkpoint Oqnlp.
Import ListNotations.
Local Open Scope monad_scope.

(** What is printed; the numbers are the lines of oqnlp.rs *)
Inductive line :=
| LResuming (iter : nat)                       (* 706 *)
| LStage1                                      (* 718 *)
| LStage1Local (obj : f64)                     (* 789-792 *)
| LStage1Target (t : f64)                      (* 813-816 *)
| LStage2                                      (* 863 *)
| LTimeout (m : f64)                           (* 967 *)
| LTarget (t : f64)                            (* 1007-1010 *)
| LRejected (obj : f64)                        (* 1081-1084 *)
| LAdded (obj : f64) (p : point)               (* 1096-1099, 1154-1157 *)
| LReplaced (obj : f64) (p : point)            (* 1132-1135 *)
| LSize (n : nat)                              (* 1100, 1136, 1158 *)
| LIterAdded (iter : nat) (obj : f64)          (* 1725-1728, 1947-1950, 2046-2049 *)
| LPoint (p : point)                           (* 1729, 1951, 2050 *)
| LIterTarget (iter : nat) (t : f64)           (* 1735-1739, 1974-1978, 2055-2059 *)
| LAdjust (iter : nat) (from to : f64)         (* 1748-1753, 1850-1855 *)
| LSaved (f : fname)                           (* 1597 *)
| LFinal (f : fname)                           (* 1612 *)
| LExpanded (from to : nat)                    (* 1404-1407 *)
| LSmaller (new old : nat)                     (* 1411-1414, standard error *)
| LKeeping (n : nat)                           (* 1417-1420 *)
| LModified (from to : nat)                    (* 1431-1434 *)
| LModifiedFrom (f : fname) (from to : nat)    (* 1499-1504 *)
| LRestored (iter solutions : nat).            (* 1551-1554 *)

(** What was printed, latest first, and the number of writes that were tried *)
Record con := mk_con { c_out : list (st * line); c_writes : nat }.
(** before the run; oqnlp.rs 477 *)
Definition silent : con := mk_con [] 0.
(** a computation with a console *)
Definition VM (A : Type) := M (st * con) oq_error A.
(** code that prints nothing *)
Definition quietly {A} (m : OM A) : VM A :=
  fun sc => let '(r, s) := m (fst sc) in (r, (s, snd sc)).

Section Verbose.
(** [io n]: write number [n] succeeds; [v]: [self.verbose], oqnlp.rs 363, 1223-1226 *)
Context (E : env) (io : nat -> bool) (v : bool).

(** [println!], [eprintln!] *)
Definition print (l : line) : VM unit :=
  fun sc =>
    let '(s, c) := sc in
    if io (c_writes c) then (Ok tt, (s, mk_con ((s, l) :: c_out c) (S (c_writes c))))
    else (Panic, (s, mk_con (c_out c) (S (c_writes c)))).
(** [if self.verbose { println!(..) }], e.g. oqnlp.rs 717-719 *)
Definition say (l : line) : VM unit := if v then print l else ret tt.

(** oqnlp.rs 1074-1168 with its output *)
Definition v_process_local_solution (s : lsol) : VM bool :=
  o <- quietly the_oqnlp ;;
  inside <- quietly (if o_exclude o then unwrap (within_bounds (pb_bounds (e_problem E)) (ls_point s)) else ret true) ;;
  if negb inside then
    quietly (emit [EvResult s]) ;;;
    say (LRejected (ls_obj s)) ;;;
    quietly (add_to_filter s) ;;; ret false
  else
    match o_set o with
    | None =>
        quietly (emit [EvResult s]) ;;;
        say (LAdded (ls_obj s) (ls_point s)) ;;;
        say (LSize 1) ;;;
        quietly (set_solutions [s]) ;;;
        quietly (set_threshold (ls_obj s)) ;;;
        quietly (add_to_filter s) ;;; ret true
    | Some sols =>
        match sols with
        | [] => panic
        | cur :: _ =>
            let o1 := ls_obj s in
            let o2 := ls_obj cur in
            let diff := fabs (fsub o1 o2) in
            let tol := tol_of (o_abs_tol o) (o_rel_tol o) o1 o2 in
            quietly (emit [EvResult s]) ;;;
            added <- (if flt o1 (fsub o2 tol) then
                        quietly (set_solutions [s]) ;;;
                        quietly (set_threshold o1) ;;;
                        quietly (obs (upd_stage2_any (s2_set_last_added (ls_point s)))) ;;;
                        say (LReplaced (ls_obj s) (ls_point s)) ;;;
                        say (LSize 1) ;;;
                        ret false
                      else if fle diff tol && negb (is_duplicate (p_distance_factor (o_params o)) (ls_point s) sols) then
                        quietly (set_solutions (sols ++ [s])) ;;;
                        quietly (obs (upd_stage2_any (s2_set_last_added (ls_point s)))) ;;;
                        say (LAdded (ls_obj s) (ls_point s)) ;;;
                        say (LSize (List.length (sols ++ [s]))) ;;;
                        ret true
                      else ret false) ;;
            quietly (add_to_filter s) ;;;
            ret added
        end
    end.

(** oqnlp.rs 1744-1758, 1847-1859 with their output: the second number printed is
    threshold + 0.1 * |threshold| *)
Definition announced (thr : f64) : f64 := fadd thr (fmul (lit 1 10) (fabs thr)).
Definition v_count_unchanged (iter unchanged : nat) : VM nat :=
  o <- quietly the_oqnlp ;;
  if p_wait_cycle (o_params o) <=? S unchanged then
    say (LAdjust iter (mf_threshold (o_merit o)) (announced (mf_threshold (o_merit o)))) ;;;
    quietly adjust_threshold ;;; ret 0
  else ret (S unchanged).

(** oqnlp.rs 1590-1602, 1606-1616 with their output *)
Definition v_save (final : bool) (c : cp_config) : VM unit :=
  quietly (save_now E c) ;;;
  o <- quietly the_oqnlp ;;
  say ((if final then LFinal else LSaved) (file_name c (o_iteration o))).
Definition v_maybe_save : VM unit :=
  o <- quietly the_oqnlp ;;
  match o_cp o with
  | None => ret tt
  | Some c =>
      match cc_save_frequency c with
      | O => panic
      | S _ => if o_iteration o mod cc_save_frequency c =? 0 then v_save false c else ret tt
      end
  end.
Definition v_final_save : VM unit :=
  o <- quietly the_oqnlp ;;
  match o_cp o with None => ret tt | Some c => v_save true c end.

(** oqnlp.rs 1512-1558 with its output *)
Definition v_restore (cp : checkpoint) : VM unit :=
  quietly (restore_from_checkpoint cp) ;;;
  say (LRestored (cp_iteration cp) (match cp_solution_set cp with Some l => List.length l | None => 0 end)).
(** oqnlp.rs 1366-1375 *)
Definition v_try_resume : VM bool :=
  o <- quietly the_oqnlp ;;
  match o_cp o with
  | None => ret false
  | Some c =>
      if cc_auto_resume c then
        ex <- quietly (on_disk (checkpoint_exists E c)) ;;
        if (ex : bool) then
          cp <- quietly (on_disk (load_latest E c)) ;;
          v_restore cp ;;;
          ret true
        else ret false
      else ret false
  end.
(** oqnlp.rs 1382-1441 with its output *)
Definition v_resume_modified (np : params) : VM bool :=
  o <- quietly the_oqnlp ;;
  match o_cp o with
  | None => ret false
  | Some c =>
      ex <- quietly (on_disk (checkpoint_exists E c)) ;;
      if (ex : bool) then
        cp <- quietly (on_disk (load_latest E c)) ;;
        let old := p_population (cp_params cp) in
        let new := p_population np in
        refs <- (if old <? new then
                   r <- quietly (expand_reference_set E (cp_reference_set cp) old new) ;;
                   say (LExpanded old new) ;;;
                   ret r
                 else if new <? old then
                   print (LSmaller new old) ;;;
                   say (LKeeping old) ;;;
                   ret (cp_reference_set cp)
                 else ret (cp_reference_set cp)) ;;
        v_restore (cp_with np refs cp) ;;;
        say (LModified (p_iterations (cp_params cp)) (p_iterations np)) ;;;
        ret true
      else ret false
  end.
(** oqnlp.rs 1482-1508 with its output *)
Definition v_resume_path (f : fname) (np : params) : VM unit :=
  o <- quietly the_oqnlp ;;
  match o_cp o with
  | None => ret tt
  | Some _ =>
      cp <- quietly (on_disk (load_from_path E f)) ;;
      v_restore (cp_with np (cp_reference_set cp) cp) ;;;
      say (LModifiedFrom f (p_iterations (cp_params cp)) (p_iterations np))
  end.

(** [self.target_objective.unwrap()] in a message, oqnlp.rs 815, 1009, 1738, 1977, 2058 *)
Definition say_target (l : f64 -> line) : VM unit :=
  if v then o <- quietly the_oqnlp ;; t <- quietly (unwrap (o_target o)) ;; print (l t) else ret tt.
(** oqnlp.rs 1724-1730, 1946-1952, 2045-2051 *)
Definition say_added (added : bool) (iter : nat) (s : lsol) : VM unit :=
  if added then say (LIterAdded iter (ls_obj s)) ;;; say (LPoint (ls_point s)) else ret tt.

(** oqnlp.rs 1637-1771 with its output *)
Definition v_process_one (objs : option (list f64)) (iter : nat) (p : point)
    (unchanged : nat) : VM (nat * bool) :=
  quietly (begin_iteration E iter unchanged) ;;;
  quietly (obs_iteration iter unchanged) ;;;
  quietly (emit_eval objs iter p) ;;;
  obj <- quietly (of_result (cand_objective E objs iter p)) ;;
  quietly (match objs with None => obs (upd_stage2 (s2_add_evals 1)) | Some _ => ret tt end) ;;;
  o <- quietly the_oqnlp ;;
  let go := should_start_local o p obj in
  quietly (emit [EvDecide iter p obj o go]) ;;;
  r <- (if go then
          quietly (set_threshold obj) ;;;
          quietly (emit [EvSearch (Some iter) p]) ;;;
          r <- quietly (of_solver (solve_tracked E (o_solver_type o) (o_solver_config o) p (observes2 o))) ;;
          added <- v_process_local_solution (fst r) ;;
          quietly (obs_search added (snd r)) ;;;
          say_added added iter (fst r) ;;;
          o2 <- quietly the_oqnlp ;;
          stop <- quietly (unwrap (target_reached E o2)) ;;
          if (stop : bool) then say_target (LIterTarget iter) ;;; ret (unchanged, true)
          else ret (unchanged, false)
        else
          u <- v_count_unchanged iter unchanged ;;
          ret (u, false)) ;;
  let '(u, stop) := r in
  if (stop : bool) then ret (u, true)
  else
    quietly (callback_at E iter) ;;;
    v_maybe_save ;;;
    ret (u, false).
(** oqnlp.rs 1629-1773 *)
Fixpoint v_batch_sequential (start : nat) (resumed : bool) (objs : option (list f64))
    (batch : list (nat * point)) (unchanged : nat) : VM nat :=
  match batch with
  | [] => ret unchanged
  | (iter, p) :: rest =>
      if resumed && (iter <? start) then v_batch_sequential start resumed objs rest unchanged
      else
        r <- v_process_one objs iter p unchanged ;;
        let '(u, stop) := r in
        if (stop : bool) then ret u
        else v_batch_sequential start resumed objs rest u
  end.

(** oqnlp.rs 1839-1881 with its output *)
Definition v_quick (iter : nat) (unchanged : nat) : VM nat :=
  quietly (begin_iteration E iter unchanged) ;;;
  u <- v_count_unchanged iter unchanged ;;
  quietly (obs_iteration iter u) ;;;
  quietly (callback_at E iter) ;;;
  v_maybe_save ;;;
  ret u.
Fixpoint v_quicks (l : list (nat * point * f64)) (unchanged : nat) : VM nat :=
  match l with
  | [] => ret unchanged
  | (iter, _, _) :: r => u <- v_quick iter unchanged ;; v_quicks r u
  end.
(** oqnlp.rs 1919-1985 with its output *)
Definition v_par_result (iter : nat) (obj : f64) (sol : lsol) (evals : N)
    (unchanged : nat) : VM bool :=
  quietly (begin_iteration E iter unchanged) ;;;
  quietly (set_threshold obj) ;;;
  added <- v_process_local_solution sol ;;
  quietly (obs_search added evals) ;;;
  say_added added iter sol ;;;
  quietly (obs_iteration iter unchanged) ;;;
  quietly (callback_at E iter) ;;;
  o <- quietly the_oqnlp ;;
  stop <- quietly (unwrap (target_reached E o)) ;;
  if (stop : bool) then say_target (LIterTarget iter) ;;; ret true else v_maybe_save ;;; ret false.
Fixpoint v_par_results (l : list (nat * point * f64 * (lsol * N))) (unchanged : nat) : VM unit :=
  match l with
  | [] => ret tt
  | (iter, _, obj, (sol, evals)) :: r =>
      stop <- v_par_result iter obj sol evals unchanged ;;
      if (stop : bool) then ret tt else v_par_results r unchanged
  end.
(** oqnlp.rs 1988-2066 with its output *)
Definition v_single (iter : nat) (p : point) (obj : f64) (unchanged : nat) : VM bool :=
  quietly (begin_iteration E iter unchanged) ;;;
  quietly (set_threshold obj) ;;;
  o <- quietly the_oqnlp ;;
  quietly (emit [EvSearch (Some iter) p]) ;;;
  r <- quietly (of_solver (solve_tracked E (o_solver_type o) (o_solver_config o) p (observes2 o))) ;;
  added <- v_process_local_solution (fst r) ;;
  quietly (obs_search added (snd r)) ;;;
  quietly (obs_iteration iter unchanged) ;;;
  quietly (callback E (Some iter)) ;;;
  say_added added iter (fst r) ;;;
  o2 <- quietly the_oqnlp ;;
  stop <- quietly (unwrap (target_reached E o2)) ;;
  if (stop : bool) then say_target (LIterTarget iter) ;;; ret true else v_maybe_save ;;; ret false.
Fixpoint v_singles (l : list (nat * point * f64)) (unchanged : nat) : VM unit :=
  match l with
  | [] => ret tt
  | (iter, p, obj) :: r =>
      stop <- v_single iter p obj unchanged ;;
      if (stop : bool) then ret tt else v_singles r unchanged
  end.
(** oqnlp.rs 1777-2112 with its output *)
Definition v_batch_parallel (start : nat) (resumed : bool) (objs : option (list f64))
    (batch : list (nat * point)) (unchanged : nat) : VM nat :=
  let fb := if resumed then filter (fun b => start <=? fst b) batch else batch in
  if match fb with [] => true | _ => false end then ret unchanged
  else
    quietly (match objs with None => emit (map (fun b => EvObjective (fst b) (snd b)) fb) | Some _ => ret tt end) ;;;
    t <- quietly tick ;;
    results <- quietly (of_result (par_collect (e_err_pick E [t; 1])
                 (map (fun b => match cand_objective E objs (fst b) (snd b) with
                                | Ok v => Ok (fst b, snd b, v)
                                | Err e => Err e
                                | Panic => Panic
                                end) fb))) ;;
    quietly (match objs with None => obs (upd_stage2 (s2_add_evals (List.length results))) | Some _ => ret tt end) ;;;
    o <- quietly the_oqnlp ;;
    let passes := fun c : nat * point * f64 => should_start_local o (snd (fst c)) (snd c) in
    let '(local, quick) := partition passes results in
    quietly (emit (map (fun c => EvDecide (fst (fst c)) (snd (fst c)) (snd c) o (passes c)) results)) ;;;
    u <- v_quicks quick unchanged ;;
    o <- quietly the_oqnlp ;;
    (if (2 <=? List.length local) && o_parallel o then
       quietly (emit (map (fun c => EvSearch (Some (fst (fst c))) (snd (fst c))) local)) ;;;
       rs <- quietly (of_result (par_collect (e_err_pick E [t; 2])
               (map (fun c => match lift_solver (solve_tracked E (p_solver_type (o_params o))
                                       (p_solver_config (o_params o)) (snd (fst c)) (observes2 o)) with
                              | Ok r => Ok (c, r)
                              | Err e => Err e
                              | Panic => Panic
                              end) local))) ;;
       v_par_results rs u
     else v_singles local u) ;;;
    ret u.

(** oqnlp.rs 962-1014 with its output *)
Fixpoint v_stage2_loop (size start : nat) (resumed : bool) (objs : option (list f64))
    (batches : list (list (nat * point))) (unchanged : nat) : VM unit :=
  match batches with
  | [] => ret tt
  | b :: rest =>
      o <- quietly the_oqnlp ;;
      timeout <- quietly (match o_max_time o with
                  | Some m => t <- tick ;; emit [EvClock (e_clock E t)] ;;; ret (fgt (e_clock E t) m)
                  | None => ret false
                  end) ;;
      if (timeout : bool) then
        match o_max_time o with Some m => say (LTimeout m) | None => ret tt end
      else
        quietly (emit [EvBatch]) ;;;
        u <- (if 1 <? size then v_batch_parallel start resumed objs b unchanged
              else v_batch_sequential start resumed objs b unchanged) ;;
        o2 <- quietly the_oqnlp ;;
        stop <- quietly (unwrap (target_reached E o2)) ;;
        if (stop : bool) then say_target LTarget ;;; ret tt
        else v_stage2_loop size start resumed objs rest u
  end.

(** oqnlp.rs 716-860 with its output *)
Definition v_stage1 : VM (option (list point * list f64)) :=
  say LStage1 ;;;
  o <- quietly the_oqnlp ;;
  t <- quietly tick ;;
  match stage1_init E o t with
  | Err e => fail (ScatterSearchError e)
  | Panic => panic
  | Ok s3 =>
      let '(res, sf) := ss_run E s3 in
      quietly (if observes1 o then upd (set_o_observer (ss_observer sf)) else ret tt) ;;;
      quietly (emit (map EvStage1 (rev (ss_log sf)))) ;;;
      match res with
      | Err e => fail (ScatterSearchRunError e)
      | Panic => panic
      | Ok (pts, cand) =>
          let refs := map fst pts in
          let objs := map snd pts in
          quietly (obs (upd_stage1 (fun s =>
            let s := s1_set_ref_size (List.length refs) (s1_enter "scatter_search_complete" s) in
            match min_by cmp_snd (enumerate objs) with
            | Some (i, b) => match nth_error refs i with
                             | Some p => s1_set_best_solution b p s
                             | None => s
                             end
            | None => s
            end))) ;;;
          quietly (callback E None) ;;;
          quietly (stage1_enter "local_optimization") ;;;
          o <- quietly the_oqnlp ;;
          quietly (emit [EvSearch None cand]) ;;;
          r <- quietly (of_solver (solve_tracked E (o_solver_type o) (o_solver_config o) cand (observes1 o))) ;;
          quietly (set_threshold (ls_obj (fst r))) ;;;
          say (LStage1Local (ls_obj (fst r))) ;;;
          quietly (obs (upd_stage1 (fun s =>
            s1_add_evals (N.to_nat (snd r))
              (s1_set_best_solution (ls_obj (fst r)) (ls_point (fst r))
                (s1_enter "local_optimization_complete" s))))) ;;;
          quietly (callback E None) ;;;
          v_process_local_solution (fst r) ;;;
          o <- quietly the_oqnlp ;;
          stop <- quietly (unwrap (target_reached E o)) ;;
          if (stop : bool) then say_target LStage1Target ;;; quietly (end_stage1 E) ;;; ret None
          else
            quietly (upd (set_o_ref (Some refs))) ;;;
            quietly (end_stage1 E) ;;;
            ret (Some (refs, objs))
      end
  end.

(** oqnlp.rs 862-1030 with its output *)
Definition v_stage2 (resumed : bool) (refs : list point) (objs : option (list f64))
    (unchanged : nat) : VM solset :=
  say LStage2 ;;;
  quietly begin_stage2 ;;;
  o <- quietly the_oqnlp ;;
  refs <- quietly (if resumed then ret refs
           else
             seed <- unwrap (add_u64 E (p_seed (o_params o)) (N.of_nat (o_iteration o))) ;;
             upd (set_o_seed seed) ;;;
             ret (e_shuffle E (e_seed_from E seed) refs)) ;;
  let start := if resumed then o_iteration o else 0 in
  let size := batch_size E o start in
  let trials := skipn start (enumerate (firstn (p_iterations (o_params o)) refs)) in
  (if size =? 0 then panic
   else v_stage2_loop size start resumed objs (chunks size trials) unchanged) ;;;
  v_final_save ;;;
  quietly final_set.

(** oqnlp.rs 678-1030 with its output *)
Definition v_run : VM solset :=
  resumed <- v_try_resume ;;
  if (resumed : bool) then
    o <- quietly the_oqnlp ;;
    say (LResuming (o_iteration o)) ;;;
    v_stage2 true (match o_ref o with Some r => r | None => [] end) None (o_unchanged o)
  else
    r <- v_stage1 ;;
    match r with
    | None => quietly final_set
    | Some (refs, objs) => v_stage2 false refs (Some objs) 0
    end.
End Verbose.
