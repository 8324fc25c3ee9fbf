(** * Timers (/repo/src/observers, the timing part, and where a run starts and stops them)

    The observer's timers are kept beside the optimizer: no other part of the crate reads
    them, except to print them, and printed times are not modelled.  An [Instant] is a
    number of nanoseconds and a duration is exact (the code converts it to seconds in f64).
    Simplification: a callback cannot reach the timers through the public API, but it may
    replace the whole observer, timers included; here callbacks leave the timers alone. *)
From Coq Require Import ZArith NArith List Bool Arith String.
From Verif Require Import F64 Base Builders Types Filters Runner Observer Env ScatterSearch Codec Checkpoint Oqnlp.
Import ListNotations.
Local Open Scope monad_scope.

Definition instant := Z.
(** [start.elapsed()] at the instant [now]; std::time saturates at zero *)
Definition elapsed (now start : instant) : Z := Z.max 0 (now - start).

(** The fields stage_start and total_time of Stage1State (stage1.rs 89-92) and of
    Stage2State *)
Record timer := mk_timer { tm_start : option instant; tm_total : option Z }.
(** stage1.rs 116-117: both None at first *)
Definition timer_new : timer := mk_timer None None.
(** stage1.rs 122-124, stage2.rs 123-125 *)
Definition timer_begin (now : instant) (t : timer) : timer := mk_timer (Some now) (tm_total t).
(** stage1.rs 126-131, stage2.rs 127-132: [stage_start] is not cleared *)
Definition timer_end (now : instant) (t : timer) : timer :=
  match tm_start t with
  | Some start => mk_timer (tm_start t) (Some (elapsed now start))
  | None => t
  end.
(** total_time(), called at the instant [now]: stage1.rs 264-270, stage2.rs 350-356 *)
Definition total_time (now : instant) (t : timer) : option Z :=
  match tm_start t with
  | Some start => Some (elapsed now start)
  | None => tm_total t
  end.

(** The observer's [start_time], its two stage timers, and the [start_time] of the
    optimizer (oqnlp.rs 403-405) *)
Record clocks := mk_clocks {
  ck_run : option instant; ck_stage1 : timer; ck_stage2 : timer; ck_optimizer : option instant }.
Definition clocks_new : clocks := mk_clocks None timer_new timer_new None.
Definition set_ck_run (v : option instant) (c : clocks) : clocks :=
  mk_clocks v (ck_stage1 c) (ck_stage2 c) (ck_optimizer c).
Definition set_ck_stage1 (v : timer) (c : clocks) : clocks :=
  mk_clocks (ck_run c) v (ck_stage2 c) (ck_optimizer c).
Definition set_ck_stage2 (v : timer) (c : clocks) : clocks :=
  mk_clocks (ck_run c) (ck_stage1 c) v (ck_optimizer c).
Definition set_ck_optimizer (v : option instant) (c : clocks) : clocks :=
  mk_clocks (ck_run c) (ck_stage1 c) (ck_stage2 c) v.
(** mod.rs 913-915, called at the instant [now] *)
Definition elapsed_time (now : instant) (c : clocks) : option Z :=
  option_map (elapsed now) (ck_run c).

(** ** A run that keeps the timers.  The state adds the timers and the number of times the
    clock was read for them; [clock n] is the instant of reading [n]. *)
Record tst := mk_tst { t_st : st; t_ck : clocks; t_reads : nat }.
Definition TM (A : Type) := M tst oq_error A.
Definition lift {A} (m : OM A) : TM A :=
  fun t => let '(r, s) := m (t_st t) in (r, mk_tst s (t_ck t) (t_reads t)).
Definition read_clock (clock : nat -> instant) (f : instant -> clocks -> clocks) : TM unit :=
  modify (fun t => mk_tst (t_st t) (f (clock (t_reads t)) (t_ck t)) (S (t_reads t))).

Section Timed.
Context (E : env) (clock : nat -> instant).
(** start_timer of the observer (mod.rs 903-907) and stage1.start(), oqnlp.rs 680-687 *)
Definition start_timers : TM unit :=
  o <- lift the_oqnlp ;;
  match o_observer o with
  | None => ret tt
  | Some ob =>
      (if ob_timing ob then read_clock clock (fun t c => set_ck_run (Some t) c) else ret tt) ;;;
      (if should_observe_stage1 ob
       then read_clock clock (fun t c => set_ck_stage1 (timer_begin t (ck_stage1 c)) c) else ret tt)
  end.
(** oqnlp.rs 695-699: set once in the life of an optimizer *)
Definition start_optimizer : TM unit :=
  read_clock clock (fun t c => match ck_optimizer c with
                               | None => set_ck_optimizer (Some t) c
                               | Some _ => c
                               end).
(** oqnlp.rs 819-831, 846-857 *)
Definition end_stage1_timed : TM unit :=
  lift (stage1_enter "stage1_complete") ;;;
  o <- lift the_oqnlp ;;
  (if observes1 o then read_clock clock (fun t c => set_ck_stage1 (timer_end t (ck_stage1 c)) c) else ret tt) ;;;
  lift (callback E None) ;;;
  lift (obs mark_stage1_complete).
(** oqnlp.rs 716-860 with the timers *)
Definition stage1_timed : TM (option (list point * list f64)) :=
  o <- lift the_oqnlp ;;
  t <- lift tick ;;
  match stage1_init E o t with
  | Err e => fail (ScatterSearchError e)
  | Panic => panic
  | Ok s3 =>
      let '(res, sf) := ss_run E s3 in
      lift (if observes1 o then upd (set_o_observer (ss_observer sf)) else ret tt) ;;;
      lift (emit (map EvStage1 (rev (ss_log sf)))) ;;;
      match res with
      | Err e => fail (ScatterSearchRunError e)
      | Panic => panic
      | Ok (pts, cand) =>
          let refs := map fst pts in
          let objs := map snd pts in
          lift (obs (upd_stage1 (fun s =>
            let s := s1_set_ref_size (List.length refs) (s1_enter "scatter_search_complete" s) in
            match min_by cmp_snd (enumerate objs) with
            | Some (i, b) => match nth_error refs i with
                             | Some p => s1_set_best_solution b p s
                             | None => s
                             end
            | None => s
            end))) ;;;
          lift (callback E None) ;;;
          lift (stage1_enter "local_optimization") ;;;
          o <- lift the_oqnlp ;;
          lift (emit [EvSearch None cand]) ;;;
          r <- lift (of_solver (solve_tracked E (o_solver_type o) (o_solver_config o) cand (observes1 o))) ;;
          lift (set_threshold (ls_obj (fst r))) ;;;
          lift (obs (upd_stage1 (fun s =>
            s1_add_evals (N.to_nat (snd r))
              (s1_set_best_solution (ls_obj (fst r)) (ls_point (fst r))
                (s1_enter "local_optimization_complete" s))))) ;;;
          lift (callback E None) ;;;
          lift (process_local_solution E (fst r)) ;;;
          o <- lift the_oqnlp ;;
          stop <- lift (unwrap (target_reached E o)) ;;
          if (stop : bool) then end_stage1_timed ;;; ret None
          else
            lift (upd (set_o_ref (Some refs))) ;;;
            end_stage1_timed ;;;
            ret (Some (refs, objs))
      end
  end.
(** oqnlp.rs 862-1030 with the timers: stage2.start() at 870, stage2.end() at 1020 *)
Definition stage2_timed (resumed : bool) (refs : list point) (objs : option (list f64))
    (unchanged : nat) : TM solset :=
  o <- lift the_oqnlp ;;
  (if observes2 o then read_clock clock (fun t c => set_ck_stage2 (timer_begin t (ck_stage2 c)) c) else ret tt) ;;;
  lift begin_stage2 ;;;
  o <- lift the_oqnlp ;;
  refs <- lift (if resumed then ret refs
           else
             seed <- unwrap (add_u64 E (p_seed (o_params o)) (N.of_nat (o_iteration o))) ;;
             upd (set_o_seed seed) ;;;
             ret (e_shuffle E (e_seed_from E seed) refs)) ;;
  let start := if resumed then o_iteration o else 0 in
  let size := batch_size E o start in
  let trials := skipn start (enumerate (firstn (p_iterations (o_params o)) refs)) in
  lift (if size =? 0 then panic
        else stage2_loop E size start resumed objs (chunks size trials) unchanged) ;;;
  o <- lift the_oqnlp ;;
  (if observes2 o then read_clock clock (fun t c => set_ck_stage2 (timer_end t (ck_stage2 c)) c) else ret tt) ;;;
  lift (maybe_save_final_checkpoint E) ;;;
  lift final_set.
(** oqnlp.rs 678-1030 with the timers *)
Definition run_timed : TM solset :=
  start_timers ;;;
  resumed <- lift (try_resume_from_checkpoint E) ;;
  start_optimizer ;;;
  if (resumed : bool) then
    o <- lift the_oqnlp ;;
    stage2_timed true (match o_ref o with Some r => r | None => [] end) None (o_unchanged o)
  else
    r <- stage1_timed ;;
    match r with
    | None => lift final_set
    | Some (refs, objs) => stage2_timed false refs (Some objs) 0
    end.
End Timed.
