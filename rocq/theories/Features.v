(** * The other builds: the optional features [rayon] and [checkpointing]

    Cargo.toml's default features contain neither, so the default build has both off.  The
    files before this one model the build with both on.  Here every function whose text
    depends on one of the two features is written again with each [#[cfg(..)]] as a case
    distinction on the build, and functions that call those.  Struct fields that a build does
    not have stay in the model's records: such a build neither reads nor writes them. *)
From Coq Require Import ZArith NArith List Bool Arith Ascii String.
From Verif Require Import F64 Base Builders Types Filters Runner Observer Env ScatterSearch Codec
  Checkpoint Oqnlp.
Import ListNotations.
Local Open Scope parser_scope.
Local Open Scope monad_scope.

(** Cargo.toml 28-33 *)
Record features := mk_features { f_rayon : bool; f_checkpointing : bool }.
Definition full_build : features := mk_features true true.
Definition default_build : features := mk_features false false.

(** ** Scatter search *)
(** scatter_search.rs 601-640: without rayon only the loop with early return *)
Definition b_min_distance (F : features) (par : bool) (t : stree) (p : point) (refs : list point) : f64 :=
  if f_rayon F then min_distance par t p refs else min_distance_seq p refs.
(** scatter_search.rs 482-502 *)
Definition b_argmax (F : features) (par : bool) (t : stree) (ds : list f64) : option nat :=
  if f_rayon F then argmax par t ds else option_map fst (max_by cmp_snd (enumerate ds)).
(** scatter_search.rs 481-545; the three versions of the update of the distances are the same *)
Fixpoint b_greedy (F : features) (E : env) (ctx : nat) (par : bool) (n : nat)
    (refs cands : list point) (ds : list f64) : outcome ss_error (list point) :=
  match n with
  | O => Ok refs
  | S n' =>
      match b_argmax F par (e_sched E [ctx; 1; n]) ds with
      | None => Err NoCandidates
      | Some i =>
          match swap_remove i cands, swap_remove i ds with
          | Some (far, cands'), Some (_, ds') =>
              b_greedy F E ctx par n' (refs ++ [far]) cands' (refresh far cands' ds')
          | _, _ => Panic
          end
      end
  end.
(** scatter_search.rs 431-548; sampling (551-598) computes the same list in every build *)
Definition b_diversify (F : features) (E : env) (refs : list point) (cs : list (point -> f64))
    : M ss ss_error (list point) :=
  s <- get ;;
  let pop := p_population (ss_params s) in
  let dim := List.length (ss_lower s) in
  cands0 <- generate_stratified_samples E pop ;;
  cands <- (if match cs with [] => true | _ => false end then ret cands0
            else
              r <- refill E pop cs 10 0 (filter (is_feasible cs) cands0) ;;
              let '(cands1, attempts) := r in
              if match cands1 with [] => true | _ => false end
              then fail (NoFeasibleCandidates attempts dim)
              else if List.length refs + List.length cands1 <? pop
              then fail (NoFeasibleCandidates attempts dim)
              else ret cands1) ;;
  let par := ss_parallel s in
  let ds := map (fun ic => b_min_distance F par (e_sched E [ss_ctx s; 0; fst ic]) (snd ic) refs)
                (enumerate cands) in
  of_result (b_greedy F E (ss_ctx s) par (pop - List.length refs) refs cands ds).
(** scatter_search.rs 320-428; the evaluation of the points is 392-409 *)
Definition b_initialize (F : features) (E : env) : M ss ss_error unit :=
  s <- get ;;
  let cs := pb_constraints (e_problem E) in
  let seeds := filter (is_feasible cs) (seed_points (ss_lower s) (ss_upper s)) in
  let custom := match ss_custom s with
                | Some c => filter (is_feasible cs) c
                | None => []
                end in
  refs <- b_diversify F E (seeds ++ custom) cs ;;
  let obj := pb_objective (e_problem E) in
  let '(called, results) :=
    if f_rayon F then
      let par := ss_parallel s && (20 <=? List.length refs) in
      (if par then refs else upto_error obj refs,
       if par then collect_par (e_err_pick E [ss_ctx s; 0]) (map obj refs) else collect_seq (map obj refs))
    else (upto_error obj refs, collect_seq (map obj refs)) in
  modify (ss_emit (map SsEval called)) ;;;
  match results with
  | inr e => fail (EvaluationError e)
  | inl objs =>
      let sorted := e_sort E (combine refs objs) in
      modify (ss_with_ref (map fst sorted) (map snd sorted))
  end.
(** scatter_search.rs 732-773 *)
Definition b_dist_threshold (F : features) (E : env) (s : ss) : option f64 :=
  let refs := ss_ref s in
  let n := List.length refs in
  if n <? 2 then Some f0
  else
    let k := ksel n in
    match all_some (map (fun i =>
             match nth_error refs i, nth_error refs (S i mod n) with
             | Some a, Some b => Some (dist2 a b)
             | _, _ => None
             end) (seq 0 k)) with
    | None => None
    | Some ds =>
        let sum := if f_rayon F
                   then if ss_parallel s then tree_sum (e_sched E [ss_ctx s; 2]) ds else fsum ds
                   else fsum ds in
        Some (fmul (fdiv sum (of_nat k)) (lit 10 100))
    end.
(** scatter_search.rs 721-850 *)
Definition b_update (F : features) (E : env) (trials : list point) : M ss ss_error unit :=
  if match trials with [] => true | _ => false end then ret tt
  else
    s <- get ;;
    let worst := last (ss_objs s) pinf in
    thr <- unwrap (b_dist_threshold F E s) ;;
    let res := map (fun p => (p, evaluate_trial E (ss_ref s) worst thr p)) trials in
    modify (ss_emit (map (fun r => SsEval (fst r)) (filter (fun r => fst (snd r)) res))) ;;;
    let accepted := flat_map (fun r => match snd (snd r) with Some x => [x] | None => [] end) res in
    if match accepted with [] => true | _ => false end then ret tt
    else
      kept <- unwrap (keep_best E (p_population (ss_params s))
                                (combine (ss_ref s) (ss_objs s) ++ accepted)) ;;
      modify (ss_with_ref (map fst kept) (map snd kept)).
(** scatter_search.rs 852-880 *)
Definition b_best_solution (F : features) (E : env) : M ss ss_error point :=
  s <- get ;;
  let l := enumerate (ss_objs s) in
  match (if f_rayon F then
           if ss_parallel s then tree_reduce_with (pick_min cmp_snd) (e_sched E [ss_ctx s; 3]) l
           else min_by cmp_snd l
         else min_by cmp_snd l) with
  | None => fail NoCandidates
  | Some (i, _) => unwrap (nth_error (ss_ref s) i)
  end.
(** scatter_search.rs 240-318 *)
Definition b_ss_run (F : features) (E : env) : M ss ss_error (list (point * f64) * point) :=
  b_initialize F E ;;;
  ss_obs (upd_stage1 (fun s1 => s1_set_ref_size 3 (s1_enter "initialization_complete" s1))) ;;;
  ss_callback E ;;;
  s <- get ;;
  ss_obs (upd_stage1 (fun s1 =>
    s1_add_evals (List.length (ss_ref s))
      (s1_set_ref_size (List.length (ss_ref s)) (s1_enter "diversification_complete" s1)))) ;;;
  ss_callback E ;;;
  trials <- generate_trial_points E ;;
  b_update F E trials ;;;
  s <- get ;;
  ss_obs (upd_stage1 (fun s1 =>
    s1_set_ref_size (List.length (ss_ref s))
      (s1_add_trials (List.length trials) (s1_enter "intensification_complete" s1)))) ;;;
  ss_callback E ;;;
  best <- b_best_solution F E ;;
  s <- get ;;
  ret (combine (ss_ref s) (ss_objs s), best).

(** ** Checkpoint files: without rayon the two fields batch_iterations and enable_parallel
    (types.rs 683-689) are not written and not read *)
Definition b_enc_checkpoint (F : features) (c : checkpoint) : bytes :=
  enc_params (cp_params c) ++ enc_usize (cp_iteration c) ++ enc_f64 (cp_threshold c) ++
  enc_option enc_solset (cp_solution_set c) ++ enc_vec (enc_vec enc_f64) (cp_reference_set c) ++
  enc_usize (cp_unchanged c) ++ enc_f64 (cp_elapsed c) ++ enc_vec enc_lsol (cp_df_solutions c) ++
  enc_u64 (cp_seed c) ++ enc_option enc_f64 (cp_target c) ++ enc_bool (cp_exclude_oob c) ++
  (if f_rayon F then enc_option enc_usize (cp_batch c) else []) ++
  (if f_rayon F then enc_bool (cp_parallel c) else []) ++
  enc_f64 (cp_abs_tol c) ++ enc_f64 (cp_rel_tol c) ++ enc_string (cp_timestamp c).
(** a checkpoint read without rayon has [None] and [false] in the place of the two fields *)
Definition b_dec_checkpoint (F : features) : parser checkpoint :=
  a <~ dec_params ;; b <~ dec_usize ;; c <~ dec_f64 ;; d <~ dec_option dec_solset ;;
  e <~ dec_vec (dec_vec dec_f64) ;; f <~ dec_usize ;; g <~ dec_f64 ;; h <~ dec_vec dec_lsol ;;
  i <~ dec_u64 ;; j <~ dec_option dec_f64 ;; k <~ dec_bool ;;
  l <~ (if f_rayon F then dec_option dec_usize else pret None) ;;
  m <~ (if f_rayon F then dec_bool else pret false) ;;
  n <~ dec_f64 ;; o <~ dec_f64 ;; p <~ dec_string ;;
  pret (mk_cp a b c d e f g h i j k l m n o p).
Definition b_decode (F : features) (b : bytes) : option checkpoint := option_map fst (b_dec_checkpoint F b).
(** checkpoint.rs 229-255 *)
Definition b_save_checkpoint (F : features) (E : env) (c : cp_config) (cp : checkpoint) (iteration : nat) : DM fname :=
  fs_write E (file_name c iteration) (b_enc_checkpoint F cp) ;;;
  ret (file_name c iteration).
(** checkpoint.rs 270-293 and 419-439 *)
Definition b_load_from_path (F : features) (E : env) (f : fname) : DM checkpoint :=
  d <- get ;;
  match lookup f (d_files d) with
  | None => fail CpNotFound
  | Some content =>
      r <- next_io E ;;
      match r with
      | IoOk => match b_decode F content with
                | Some cp => ret cp
                | None => fail CpSerialization
                end
      | _ => fail (CpIo "read")
      end
  end.
(** checkpoint.rs 258-267 *)
Definition b_load_latest (F : features) (E : env) (c : cp_config) : DM checkpoint :=
  f <- (if cc_keep_all c then find_latest E c else ret (file_name c 0)) ;;
  b_load_from_path F E f.

(** ** The driver *)
(** the writes inside oqnlp.rs 1590-1602 and 1606-1616 *)
Definition b_save_now (F : features) (E : env) (c : cp_config) : OM unit :=
  cp <- create_checkpoint E ;;
  o <- the_oqnlp ;;
  emit [EvSave (file_name c (o_iteration o)) cp] ;;;
  on_disk (b_save_checkpoint F E c cp (o_iteration o)) ;;;
  ret tt.
(** oqnlp.rs 1590-1602, and its calls (1769-1770, 1879-1880, 1983-1984, 2064-2065), which need
    the feature *)
Definition b_maybe_save (F : features) (E : env) : OM unit :=
  if f_checkpointing F then
    o <- the_oqnlp ;;
    match o_cp o with
    | None => ret tt
    | Some c =>
        match cc_save_frequency c with
        | O => panic
        | S _ => if o_iteration o mod cc_save_frequency c =? 0 then b_save_now F E c else ret tt
        end
    end
  else ret tt.
(** oqnlp.rs 1606-1616, called at 1026-1027 *)
Definition b_maybe_save_final (F : features) (E : env) : OM unit :=
  if f_checkpointing F then
    o <- the_oqnlp ;;
    match o_cp o with None => ret tt | Some c => b_save_now F E c end
  else ret tt.
(** oqnlp.rs 1512-1558; 1532-1541 need rayon *)
Definition b_restored (F : features) (cp : checkpoint) (o : oqnlp) : oqnlp :=
  let r := restored cp o in
  if f_rayon F then r else set_o_batch (o_batch o) (set_o_parallel (o_parallel o) r).
(** oqnlp.rs 1366-1375, called at 690-693 *)
Definition b_try_resume (F : features) (E : env) : OM bool :=
  if f_checkpointing F then
    o <- the_oqnlp ;;
    match o_cp o with
    | None => ret false
    | Some c =>
        if cc_auto_resume c then
          ex <- on_disk (checkpoint_exists E c) ;;
          if ex then
            cp <- on_disk (b_load_latest F E c) ;;
            upd (b_restored F cp) ;;;
            ret true
          else ret false
        else ret false
    end
  else ret false.
(** oqnlp.rs 1643-1653, 1840-1844, 1920-1926, 1989-1995 *)
Definition b_begin_iteration (F : features) (E : env) (iter unchanged : nat) : OM unit :=
  (if f_checkpointing F then
     upd (fun o => set_o_unchanged unchanged (set_o_iteration iter o)) ;;;
     o <- the_oqnlp ;;
     seed <- unwrap (add_u64 E (p_seed (o_params o)) (N.of_nat iter)) ;;
     upd (set_o_seed seed)
   else ret tt) ;;;
  emit [EvIteration iter].
(** oqnlp.rs 1637-1771 *)
Definition b_process_one (F : features) (E : env) (objs : option (list f64)) (iter : nat) (p : point)
    (unchanged : nat) : OM (nat * bool) :=
  b_begin_iteration F E iter unchanged ;;;
  obs_iteration iter unchanged ;;;
  emit_eval objs iter p ;;;
  obj <- of_result (cand_objective E objs iter p) ;;
  (match objs with None => obs (upd_stage2 (s2_add_evals 1)) | Some _ => ret tt end) ;;;
  o <- the_oqnlp ;;
  let go := should_start_local o p obj in
  emit [EvDecide iter p obj o go] ;;;
  r <- (if go then
          set_threshold obj ;;;
          emit [EvSearch (Some iter) p] ;;;
          r <- of_solver (solve_tracked E (o_solver_type o) (o_solver_config o) p (observes2 o)) ;;
          added <- process_local_solution E (fst r) ;;
          obs_search added (snd r) ;;;
          o2 <- the_oqnlp ;;
          stop <- unwrap (target_reached E o2) ;;
          ret (unchanged, stop)
        else
          u <- count_unchanged unchanged ;;
          ret (u, false)) ;;
  let '(u, stop) := r in
  if (stop : bool) then ret (u, true)
  else
    callback_at E iter ;;;
    b_maybe_save F E ;;;
    ret (u, false).
(** oqnlp.rs 1629-1773 *)
Fixpoint b_batch_sequential (F : features) (E : env) (start : nat) (resumed : bool) (objs : option (list f64))
    (batch : list (nat * point)) (unchanged : nat) : OM nat :=
  match batch with
  | [] => ret unchanged
  | (iter, p) :: rest =>
      if resumed && (iter <? start) then b_batch_sequential F E start resumed objs rest unchanged
      else
        r <- b_process_one F E objs iter p unchanged ;;
        let '(u, stop) := r in
        if (stop : bool) then ret u
        else b_batch_sequential F E start resumed objs rest u
  end.
(** oqnlp.rs 1839-1881 *)
Definition b_quick (F : features) (E : env) (iter : nat) (unchanged : nat) : OM nat :=
  b_begin_iteration F E iter unchanged ;;;
  u <- count_unchanged unchanged ;;
  obs_iteration iter u ;;;
  callback_at E iter ;;;
  b_maybe_save F E ;;;
  ret u.
Fixpoint b_quicks (F : features) (E : env) (l : list (nat * point * f64)) (unchanged : nat) : OM nat :=
  match l with
  | [] => ret unchanged
  | (iter, _, _) :: r => u <- b_quick F E iter unchanged ;; b_quicks F E r u
  end.
(** oqnlp.rs 1919-1985 *)
Definition b_par_result (F : features) (E : env) (iter : nat) (obj : f64) (sol : lsol) (evals : N)
    (unchanged : nat) : OM bool :=
  b_begin_iteration F E iter unchanged ;;;
  set_threshold obj ;;;
  added <- process_local_solution E sol ;;
  obs_search added evals ;;;
  obs_iteration iter unchanged ;;;
  callback_at E iter ;;;
  o <- the_oqnlp ;;
  stop <- unwrap (target_reached E o) ;;
  if (stop : bool) then ret true else b_maybe_save F E ;;; ret false.
Fixpoint b_par_results (F : features) (E : env) (l : list (nat * point * f64 * (lsol * N))) (unchanged : nat) : OM unit :=
  match l with
  | [] => ret tt
  | (iter, _, obj, (sol, evals)) :: r =>
      stop <- b_par_result F E iter obj sol evals unchanged ;;
      if (stop : bool) then ret tt else b_par_results F E r unchanged
  end.
(** oqnlp.rs 1988-2066 *)
Definition b_single (F : features) (E : env) (iter : nat) (p : point) (obj : f64) (unchanged : nat) : OM bool :=
  b_begin_iteration F E iter unchanged ;;;
  set_threshold obj ;;;
  o <- the_oqnlp ;;
  emit [EvSearch (Some iter) p] ;;;
  r <- of_solver (solve_tracked E (o_solver_type o) (o_solver_config o) p (observes2 o)) ;;
  added <- process_local_solution E (fst r) ;;
  obs_search added (snd r) ;;;
  obs_iteration iter unchanged ;;;
  callback E (Some iter) ;;;
  o2 <- the_oqnlp ;;
  stop <- unwrap (target_reached E o2) ;;
  if (stop : bool) then ret true else b_maybe_save F E ;;; ret false.
Fixpoint b_singles (F : features) (E : env) (l : list (nat * point * f64)) (unchanged : nat) : OM unit :=
  match l with
  | [] => ret tt
  | (iter, p, obj) :: r =>
      stop <- b_single F E iter p obj unchanged ;;
      if (stop : bool) then ret tt else b_singles F E r unchanged
  end.
(** oqnlp.rs 1776-2112; exists with rayon only *)
Definition b_batch_parallel (F : features) (E : env) (start : nat) (resumed : bool) (objs : option (list f64))
    (batch : list (nat * point)) (unchanged : nat) : OM nat :=
  let fb := if resumed then filter (fun b => start <=? fst b) batch else batch in
  if match fb with [] => true | _ => false end then ret unchanged
  else
    (match objs with None => emit (map (fun b => EvObjective (fst b) (snd b)) fb) | Some _ => ret tt end) ;;;
    t <- tick ;;
    results <- of_result (par_collect (e_err_pick E [t; 1])
                 (map (fun b => match cand_objective E objs (fst b) (snd b) with
                                | Ok v => Ok (fst b, snd b, v)
                                | Err e => Err e
                                | Panic => Panic
                                end) fb)) ;;
    (match objs with None => obs (upd_stage2 (s2_add_evals (List.length results))) | Some _ => ret tt end) ;;;
    o <- the_oqnlp ;;
    let passes := fun c : nat * point * f64 => should_start_local o (snd (fst c)) (snd c) in
    let '(local, quick) := partition passes results in
    emit (map (fun c => EvDecide (fst (fst c)) (snd (fst c)) (snd c) o (passes c)) results) ;;;
    u <- b_quicks F E quick unchanged ;;
    o <- the_oqnlp ;;
    (if (2 <=? List.length local) && o_parallel o then
       emit (map (fun c => EvSearch (Some (fst (fst c))) (snd (fst c))) local) ;;;
       rs <- of_result (par_collect (e_err_pick E [t; 2])
               (map (fun c => match lift_solver (solve_tracked E (p_solver_type (o_params o))
                                       (p_solver_config (o_params o)) (snd (fst c)) (observes2 o)) with
                              | Ok r => Ok (c, r)
                              | Err e => Err e
                              | Panic => Panic
                              end) local)) ;;
       b_par_results F E rs u
     else b_singles F E local u) ;;;
    ret u.
(** oqnlp.rs 937-956 *)
Definition b_batch_size (F : features) (E : env) (o : oqnlp) (start : nat) : nat :=
  if f_rayon F then batch_size E o start else 1.
(** oqnlp.rs 962-1014 *)
Fixpoint b_loop (F : features) (E : env) (size start : nat) (resumed : bool) (objs : option (list f64))
    (batches : list (list (nat * point))) (unchanged : nat) : OM unit :=
  match batches with
  | [] => ret tt
  | b :: rest =>
      o <- the_oqnlp ;;
      timeout <- (match o_max_time o with
                  | Some m => t <- tick ;; emit [EvClock (e_clock E t)] ;;; ret (fgt (e_clock E t) m)
                  | None => ret false
                  end) ;;
      if (timeout : bool) then ret tt
      else
        emit [EvBatch] ;;;
        u <- (if f_rayon F then
                if 1 <? size then b_batch_parallel F E start resumed objs b unchanged
                else b_batch_sequential F E start resumed objs b unchanged
              else b_batch_sequential F E start resumed objs b unchanged) ;;
        o2 <- the_oqnlp ;;
        stop <- unwrap (target_reached E o2) ;;
        if (stop : bool) then ret tt else b_loop F E size start resumed objs rest u
  end.
(** oqnlp.rs 718-745; without rayon the scatter search has no switch for parallelism *)
Definition b_stage1_init (F : features) (E : env) (o : oqnlp) (t : nat) : outcome ss_error ss :=
  match ss_new E (o_params o) t with
  | Ok s0 =>
      let s1 := if f_rayon F then ss_set_parallel (o_parallel o) s0 else s0 in
      let s2 := match o_custom o with Some c => ss_set_custom c s1 | None => s1 end in
      Ok (if observes1 o then ss_set_observer (o_observer o) s2 else s2)
  | Err e => Err e
  | Panic => Panic
  end.
(** oqnlp.rs 716-860; 840-843 need checkpointing *)
Definition b_stage1_run (F : features) (E : env) : OM (option (list point * list f64)) :=
  o <- the_oqnlp ;;
  t <- tick ;;
  match b_stage1_init F E o t with
  | Err e => fail (ScatterSearchError e)
  | Panic => panic
  | Ok s3 =>
      let '(res, sf) := b_ss_run F E s3 in
      (if observes1 o then upd (set_o_observer (ss_observer sf)) else ret tt) ;;;
      emit (map EvStage1 (rev (ss_log sf))) ;;;
      match res with
      | Err e => fail (ScatterSearchRunError e)
      | Panic => panic
      | Ok (pts, cand) =>
          let refs := map fst pts in
          let objs := map snd pts in
          obs (upd_stage1 (fun s =>
            let s := s1_set_ref_size (List.length refs) (s1_enter "scatter_search_complete" s) in
            match min_by cmp_snd (enumerate objs) with
            | Some (i, b) => match nth_error refs i with
                             | Some p => s1_set_best_solution b p s
                             | None => s
                             end
            | None => s
            end)) ;;;
          callback E None ;;;
          stage1_enter "local_optimization" ;;;
          o <- the_oqnlp ;;
          emit [EvSearch None cand] ;;;
          r <- of_solver (solve_tracked E (o_solver_type o) (o_solver_config o) cand (observes1 o)) ;;
          set_threshold (ls_obj (fst r)) ;;;
          obs (upd_stage1 (fun s =>
            s1_add_evals (N.to_nat (snd r))
              (s1_set_best_solution (ls_obj (fst r)) (ls_point (fst r))
                (s1_enter "local_optimization_complete" s)))) ;;;
          callback E None ;;;
          process_local_solution E (fst r) ;;;
          o <- the_oqnlp ;;
          stop <- unwrap (target_reached E o) ;;
          if (stop : bool) then end_stage1 E ;;; ret None
          else
            (if f_checkpointing F then upd (set_o_ref (Some refs)) else ret tt) ;;;
            end_stage1 E ;;;
            ret (Some (refs, objs))
      end
  end.
(** oqnlp.rs 862-1030; the generator is 908-920, the first iteration 931-934 *)
Definition b_stage2_run (F : features) (E : env) (resumed : bool) (refs : list point) (objs : option (list f64))
    (unchanged : nat) : OM solset :=
  begin_stage2 ;;;
  o <- the_oqnlp ;;
  refs <- (if resumed then ret refs
           else if f_checkpointing F then
             seed <- unwrap (add_u64 E (p_seed (o_params o)) (N.of_nat (o_iteration o))) ;;
             upd (set_o_seed seed) ;;;
             ret (e_shuffle E (e_seed_from E seed) refs)
           else ret (e_shuffle E (e_seed_from E (p_seed (o_params o))) refs)) ;;
  let start := if f_checkpointing F then if resumed then o_iteration o else 0 else 0 in
  let size := b_batch_size F E o start in
  let trials := skipn start (enumerate (firstn (p_iterations (o_params o)) refs)) in
  (if size =? 0 then panic
   else b_loop F E size start resumed objs (chunks size trials) unchanged) ;;;
  b_maybe_save_final F E ;;;
  final_set.
(** oqnlp.rs 678-1030 *)
Definition build_run (F : features) (E : env) : OM solset :=
  resumed <- b_try_resume F E ;;
  if (resumed : bool) then
    if f_checkpointing F then
      o <- the_oqnlp ;;
      b_stage2_run F E true (match o_ref o with Some r => r | None => [] end) None (o_unchanged o)
    else panic
  else
    r <- b_stage1_run F E ;;
    match r with
    | None => final_set
    | Some (refs, objs) => b_stage2_run F E false refs (Some objs) 0
    end.
