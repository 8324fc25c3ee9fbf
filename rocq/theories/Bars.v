(** * The progress bars (feature [progress_bar])

    The two bars of the crate kdam are kept beside the state.  kdam itself is outside the
    model: each call that builds or advances a bar either succeeds or fails, and the code
    turns a failure into a panic with [expect].  Descriptions are not modelled. *)
From Coq Require Import ZArith NArith List Bool Arith String.
From Verif Require Import F64 Base Builders Types Filters Runner Observer Env ScatterSearch Codec Checkpoint Oqnlp.
Import ListNotations.
Local Open Scope monad_scope.

(** A bar: its total, its position and the value shown behind it (Stage 2: oqnlp.rs 884-898) *)
Record bar := mk_bar { bar_total : nat; bar_pos : nat; bar_shown : option f64 }.
(** The bars of Stage 1 (scatter_search.rs 145-146) and of Stage 2 (oqnlp.rs 884-898), and the
    number of calls made to kdam *)
Record bars := mk_bars { bars_1 : option bar; bars_2 : option bar; bars_calls : nat }.
(** [progress_bar: None], scatter_search.rs 183-184 *)
Definition no_bars : bars := mk_bars None None 0.
(** the bar that was built, scatter_search.rs 241-251, oqnlp.rs 884-898 *)
Definition put_1 (v : bar) (b : bars) : bars := mk_bars (Some v) (bars_2 b) (bars_calls b).
Definition put_2 (v : bar) (b : bars) : bars := mk_bars (bars_1 b) (Some v) (bars_calls b).
(** [pb.update(1)], kdam; scatter_search.rs 276-280 *)
Definition advance (v : bar) : bar := mk_bar (bar_total v) (S (bar_pos v)) (bar_shown v).
(** [if let Some(pb) = &mut self.progress_bar { .. pb.update(1) .. }], scatter_search.rs 276-280,
    286-290, 308-312, 382-386, 422-426; oqnlp.rs 903 *)
Definition step_1 (b : bars) : bars := match bars_1 b with Some v => put_1 (advance v) b | None => b end.
Definition step_2 (b : bars) : bars := match bars_2 b with Some v => put_2 (advance v) b | None => b end.

(** code without bars, among code that has them *)
Definition blift {S X A} (m : M S X A) : M (S * bars) X A :=
  fun sb => let '(r, s) := m (fst sb) in (r, (s, snd sb)).

Section Bars.
(** [io n]: call number [n] of kdam succeeds *)
Context (E : env) (io : nat -> bool).
(** [..build().expect(..)] and [..update(1).expect(..)], scatter_search.rs 248-249, 279; oqnlp.rs
    897-898, 903 *)
Definition expect {S X} (f : bars -> bars) : M (S * bars) X unit :=
  fun sb =>
    let b := snd sb in
    let b' := mk_bars (bars_1 b) (bars_2 b) (Datatypes.S (bars_calls b)) in
    if io (bars_calls b) then (Ok tt, (fst sb, f b')) else (Panic, (fst sb, b')).
(** scatter_search.rs 320-428 with the bar; the seed points and custom points are filtered
    before the first update in the code and after it here *)
Definition initialize_bar : M (ss * bars) ss_error unit :=
  expect step_1 ;;;
  blift (initialize_reference_set E) ;;;
  expect step_1.
(** scatter_search.rs 240-318 with the bar *)
Definition ss_run_bar : M (ss * bars) ss_error (list (point * f64) * point) :=
  expect (put_1 (mk_bar 3 0 None)) ;;;
  initialize_bar ;;;
  blift (ss_obs (upd_stage1 (fun s1 => s1_set_ref_size 3 (s1_enter "initialization_complete" s1)))) ;;;
  blift (ss_callback E) ;;;
  s <- blift get ;;
  blift (ss_obs (upd_stage1 (fun s1 =>
    s1_add_evals (List.length (ss_ref s))
      (s1_set_ref_size (List.length (ss_ref s)) (s1_enter "diversification_complete" s1))))) ;;;
  blift (ss_callback E) ;;;
  expect step_1 ;;;
  trials <- blift (generate_trial_points E) ;;
  expect step_1 ;;;
  blift (update_reference_set E trials) ;;;
  s <- blift get ;;
  blift (ss_obs (upd_stage1 (fun s1 =>
    s1_set_ref_size (List.length (ss_ref s))
      (s1_add_trials (List.length trials) (s1_enter "intensification_complete" s1))))) ;;;
  blift (ss_callback E) ;;;
  best <- blift (ss_best_solution E) ;;
  expect step_1 ;;;
  s <- blift get ;;
  ret (combine (ss_ref s) (ss_objs s), best).
(** the scatter search inside Stage 1, oqnlp.rs 742 *)
Definition search_bar (s3 : ss) : M (st * bars) oq_error (outcome ss_error (list (point * f64) * point) * ss) :=
  fun sb => let '(res, (sf, b)) := ss_run_bar (s3, snd sb) in (Ok (res, sf), (fst sb, b)).
(** oqnlp.rs 716-860 with the bar *)
Definition stage1_bar : M (st * bars) oq_error (option (list point * list f64)) :=
  o <- blift the_oqnlp ;;
  t <- blift tick ;;
  match stage1_init E o t with
  | Err e => fail (ScatterSearchError e)
  | Panic => panic
  | Ok s3 =>
      rs <- search_bar s3 ;;
      let '(res, sf) := rs in
      blift (if observes1 o then upd (set_o_observer (ss_observer sf)) else ret tt) ;;;
      blift (emit (map EvStage1 (rev (ss_log sf)))) ;;;
      match res with
      | Err e => fail (ScatterSearchRunError e)
      | Panic => panic
      | Ok (pts, cand) =>
          let refs := map fst pts in
          let objs := map snd pts in
          blift (obs (upd_stage1 (fun s =>
            let s := s1_set_ref_size (List.length refs) (s1_enter "scatter_search_complete" s) in
            match min_by cmp_snd (enumerate objs) with
            | Some (i, b) => match nth_error refs i with
                             | Some p => s1_set_best_solution b p s
                             | None => s
                             end
            | None => s
            end))) ;;;
          blift (callback E None) ;;;
          blift (stage1_enter "local_optimization") ;;;
          o <- blift the_oqnlp ;;
          blift (emit [EvSearch None cand]) ;;;
          r <- blift (of_solver (solve_tracked E (o_solver_type o) (o_solver_config o) cand (observes1 o))) ;;
          blift (set_threshold (ls_obj (fst r))) ;;;
          blift (obs (upd_stage1 (fun s =>
            s1_add_evals (N.to_nat (snd r))
              (s1_set_best_solution (ls_obj (fst r)) (ls_point (fst r))
                (s1_enter "local_optimization_complete" s))))) ;;;
          blift (callback E None) ;;;
          blift (process_local_solution E (fst r)) ;;;
          o <- blift the_oqnlp ;;
          stop <- blift (unwrap (target_reached E o)) ;;
          if (stop : bool) then blift (end_stage1 E) ;;; ret None
          else
            blift (upd (set_o_ref (Some refs))) ;;;
            blift (end_stage1 E) ;;;
            ret (Some (refs, objs))
      end
  end.
(** the objective shown behind the Stage 2 bar, oqnlp.rs 889-895 *)
Definition best_shown (set : option solset) : f64 :=
  match set with
  | Some l => match best_solution l with Some b => ls_obj b | None => pinf end
  | None => pinf
  end.
(** the catch-up loop of resumed runs, oqnlp.rs 901-905 *)
Fixpoint catch_up (n : nat) : M (st * bars) oq_error unit :=
  match n with O => ret tt | S n => expect step_2 ;;; catch_up n end.
(** oqnlp.rs 862-1030 with the bar; the loop over the batches has no update *)
Definition stage2_bar (resumed : bool) (refs : list point) (objs : option (list f64))
    (unchanged : nat) : M (st * bars) oq_error solset :=
  blift begin_stage2 ;;;
  o <- blift the_oqnlp ;;
  expect (put_2 (mk_bar (p_iterations (o_params o)) 0 (Some (best_shown (o_set o))))) ;;;
  (if resumed then catch_up (o_iteration o) else ret tt) ;;;
  refs <- blift (if resumed then ret refs
           else
             seed <- unwrap (add_u64 E (p_seed (o_params o)) (N.of_nat (o_iteration o))) ;;
             upd (set_o_seed seed) ;;;
             ret (e_shuffle E (e_seed_from E seed) refs)) ;;
  let start := if resumed then o_iteration o else 0 in
  let size := batch_size E o start in
  let trials := skipn start (enumerate (firstn (p_iterations (o_params o)) refs)) in
  blift (if size =? 0 then panic
         else stage2_loop E size start resumed objs (chunks size trials) unchanged) ;;;
  blift (maybe_save_final_checkpoint E) ;;;
  blift final_set.
(** oqnlp.rs 678-1030 with the bars *)
Definition run_bar : M (st * bars) oq_error solset :=
  resumed <- blift (try_resume_from_checkpoint E) ;;
  if (resumed : bool) then
    o <- blift the_oqnlp ;;
    stage2_bar true (match o_ref o with Some r => r | None => [] end) None (o_unchanged o)
  else
    r <- stage1_bar ;;
    match r with
    | None => blift final_set
    | Some (refs, objs) => stage2_bar false refs (Some objs) 0
    end.
End Bars.
