(** * Observers (/repo/src/observers/mod.rs, stage1.rs, stage2.rs)

    Wall-clock fields (start_time, stage_start, substage_start, total_time,
    substage_time) and the calls that only touch them ([start], [end], [start_timer])
    are not modelled. *)
From Coq Require Import ZArith List Bool Arith String.
From Verif Require Import F64 Base.
Import ListNotations.

(** ** Stage 1 state *)
(** stage1.rs 63-93 *)
Record stage1 := mk_s1 {
  s1_ref_size : nat;
  s1_best : f64;
  s1_best_point : option point;
  s1_substage : string;
  s1_evals : nat;
  s1_trials : nat }.
(** stage1.rs 106-119 ([f64::NAN] is the positive NaN) *)
Definition s1_new : stage1 := mk_s1 0 (NaN false) None "not_started" 0 0.
(** stage1.rs 134-136 *)
Definition s1_set_ref_size (n : nat) (s : stage1) : stage1 :=
  mk_s1 n (s1_best s) (s1_best_point s) (s1_substage s) (s1_evals s) (s1_trials s).
(** stage1.rs 139-143 *)
Definition s1_set_best_objective (v : f64) (s : stage1) : stage1 :=
  if is_nan (s1_best s) || flt v (s1_best s)
  then mk_s1 (s1_ref_size s) v (s1_best_point s) (s1_substage s) (s1_evals s) (s1_trials s)
  else s.
(** stage1.rs 146-151 *)
Definition s1_set_best_solution (v : f64) (p : point) (s : stage1) : stage1 :=
  if is_nan (s1_best s) || flt v (s1_best s)
  then mk_s1 (s1_ref_size s) v (Some p) (s1_substage s) (s1_evals s) (s1_trials s)
  else s.
(** stage1.rs 166-174 *)
Definition s1_enter (name : string) (s : stage1) : stage1 :=
  mk_s1 (s1_ref_size s) (s1_best s) (s1_best_point s) name (s1_evals s) (s1_trials s).
(** stage1.rs 185-187 *)
Definition s1_add_evals (n : nat) (s : stage1) : stage1 :=
  mk_s1 (s1_ref_size s) (s1_best s) (s1_best_point s) (s1_substage s) (s1_evals s + n) (s1_trials s).
(** stage1.rs 197-199 *)
Definition s1_add_trials (n : nat) (s : stage1) : stage1 :=
  mk_s1 (s1_ref_size s) (s1_best s) (s1_best_point s) (s1_substage s) (s1_evals s) (s1_trials s + n).

(** ** Stage 2 state *)
(** stage2.rs 54-90 *)
Record stage2 := mk_s2 {
  s2_best : f64;
  s2_best_point : option point;
  s2_last_added : option point;
  s2_set_size : nat;
  s2_iteration : nat;
  s2_threshold : f64;
  s2_calls : nat;
  s2_improved : nat;
  s2_evals : nat;
  s2_unchanged : nat }.
(** stage2.rs 105-120 *)
Definition s2_new : stage2 := mk_s2 (NaN false) None None 0 0 pinf 0 0 0 0.
(** stage2.rs 135-137 *)
Definition s2_set_iteration (n : nat) (s : stage2) : stage2 :=
  mk_s2 (s2_best s) (s2_best_point s) (s2_last_added s) (s2_set_size s) n (s2_threshold s)
        (s2_calls s) (s2_improved s) (s2_evals s) (s2_unchanged s).
(** stage2.rs 140-144 *)
Definition s2_set_best_objective (v : f64) (s : stage2) : stage2 :=
  if is_nan (s2_best s) || flt v (s2_best s)
  then mk_s2 v (s2_best_point s) (s2_last_added s) (s2_set_size s) (s2_iteration s)
             (s2_threshold s) (s2_calls s) (s2_improved s) (s2_evals s) (s2_unchanged s)
  else s.
(** stage2.rs 147-152 *)
Definition s2_set_best_solution (v : f64) (p : point) (s : stage2) : stage2 :=
  if is_nan (s2_best s) || flt v (s2_best s)
  then mk_s2 v (Some p) (s2_last_added s) (s2_set_size s) (s2_iteration s)
             (s2_threshold s) (s2_calls s) (s2_improved s) (s2_evals s) (s2_unchanged s)
  else s.
(** stage2.rs 155-157 *)
Definition s2_set_set_size (n : nat) (s : stage2) : stage2 :=
  mk_s2 (s2_best s) (s2_best_point s) (s2_last_added s) n (s2_iteration s) (s2_threshold s)
        (s2_calls s) (s2_improved s) (s2_evals s) (s2_unchanged s).
(** stage2.rs 160-162 *)
Definition s2_set_threshold (v : f64) (s : stage2) : stage2 :=
  mk_s2 (s2_best s) (s2_best_point s) (s2_last_added s) (s2_set_size s) (s2_iteration s) v
        (s2_calls s) (s2_improved s) (s2_evals s) (s2_unchanged s).
(** stage2.rs 165-170 *)
Definition s2_add_call (improved : bool) (s : stage2) : stage2 :=
  mk_s2 (s2_best s) (s2_best_point s) (s2_last_added s) (s2_set_size s) (s2_iteration s)
        (s2_threshold s) (S (s2_calls s)) (if improved then S (s2_improved s) else s2_improved s)
        (s2_evals s) (s2_unchanged s).
(** stage2.rs 173-175 *)
Definition s2_add_evals (n : nat) (s : stage2) : stage2 :=
  mk_s2 (s2_best s) (s2_best_point s) (s2_last_added s) (s2_set_size s) (s2_iteration s)
        (s2_threshold s) (s2_calls s) (s2_improved s) (s2_evals s + n) (s2_unchanged s).
(** stage2.rs 178-180 *)
Definition s2_set_unchanged (n : nat) (s : stage2) : stage2 :=
  mk_s2 (s2_best s) (s2_best_point s) (s2_last_added s) (s2_set_size s) (s2_iteration s)
        (s2_threshold s) (s2_calls s) (s2_improved s) (s2_evals s) n.
(** stage2.rs 186-188 *)
Definition s2_set_last_added (p : point) (s : stage2) : stage2 :=
  mk_s2 (s2_best s) (s2_best_point s) (Some p) (s2_set_size s) (s2_iteration s)
        (s2_threshold s) (s2_calls s) (s2_improved s) (s2_evals s) (s2_unchanged s).

(** ** The observer *)
(** mod.rs 75-82 *)
Inductive obs_mode := Stage1Only | Stage2Only | Both.
(** The callback stored in an observer: a user closure (named by a number), or one of the
    built-in ones (mod.rs 658, 785, 862). *)
Inductive callback := CbUser (n : nat) | CbDefault | CbStage1 | CbStage2.

(** mod.rs 92-100 *)
Record prev_state := mk_prev {
  pv_best : f64; pv_set_size : nat; pv_threshold : f64; pv_calls : nat; pv_improved : nat;
  pv_evals : nat; pv_unchanged : nat }.
(** mod.rs 103-113 *)
Definition prev_of (s : stage2) : prev_state :=
  mk_prev (s2_best s) (s2_set_size s) (s2_threshold s) (s2_calls s) (s2_improved s)
          (s2_evals s) (s2_unchanged s).
(** mod.rs 115-122: note that unchanged_cycles is stored but not compared *)
Definition has_changed (p : prev_state) (s : stage2) : bool :=
  negb (feq (pv_best p) (s2_best s))
  || negb (pv_set_size p =? s2_set_size s)
  || negb (feq (pv_threshold p) (s2_threshold s))
  || negb (pv_calls p =? s2_calls s)
  || negb (pv_improved p =? s2_improved s)
  || negb (pv_evals p =? s2_evals s).

(** mod.rs 226-259 *)
Record observer := mk_obs {
  ob_mode : obs_mode;
  ob_stage1 : option stage1;
  ob_stage2 : option stage2;
  ob_timing : bool;
  ob_callback : option callback;
  ob_frequency : nat;
  ob_stage1_completed : bool;
  ob_stage2_started : bool;
  ob_previous : option prev_state;
  ob_filter : bool }.

(** mod.rs 314-328 *)
Definition obs_new : observer := mk_obs Both None None false None 1 false false None false.
Definition set_stage1 (v : option stage1) (o : observer) : observer :=
  mk_obs (ob_mode o) v (ob_stage2 o) (ob_timing o) (ob_callback o) (ob_frequency o)
         (ob_stage1_completed o) (ob_stage2_started o) (ob_previous o) (ob_filter o).
Definition set_stage2 (v : option stage2) (o : observer) : observer :=
  mk_obs (ob_mode o) (ob_stage1 o) v (ob_timing o) (ob_callback o) (ob_frequency o)
         (ob_stage1_completed o) (ob_stage2_started o) (ob_previous o) (ob_filter o).
(** mod.rs 349-352, 375-378 *)
Definition with_stage1_tracking (o : observer) : observer := set_stage1 (Some s1_new) o.
Definition with_stage2_tracking (o : observer) : observer := set_stage2 (Some s2_new) o.
(** mod.rs 411-414 *)
Definition with_timing (o : observer) : observer :=
  mk_obs (ob_mode o) (ob_stage1 o) (ob_stage2 o) true (ob_callback o) (ob_frequency o)
         (ob_stage1_completed o) (ob_stage2_started o) (ob_previous o) (ob_filter o).
(** mod.rs 448-451 *)
Definition with_mode (m : obs_mode) (o : observer) : observer :=
  mk_obs m (ob_stage1 o) (ob_stage2 o) (ob_timing o) (ob_callback o) (ob_frequency o)
         (ob_stage1_completed o) (ob_stage2_started o) (ob_previous o) (ob_filter o).
(** mod.rs 514-520; the built-in callbacks of 658, 785 and 862 go through it *)
Definition with_callback (c : callback) (o : observer) : observer :=
  mk_obs (ob_mode o) (ob_stage1 o) (ob_stage2 o) (ob_timing o) (Some c) (ob_frequency o)
         (ob_stage1_completed o) (ob_stage2_started o) (ob_previous o) (ob_filter o).
(** mod.rs 561-568 *)
Definition with_callback_frequency (n : nat) (o : observer) : observer :=
  let o' := mk_obs (ob_mode o) (ob_stage1 o) (ob_stage2 o) (ob_timing o) (ob_callback o) n
         (ob_stage1_completed o) (ob_stage2_started o) (ob_previous o) (ob_filter o) in
  match ob_callback o with None => with_callback CbDefault o' | Some _ => o' end.
(** mod.rs 594-597 *)
Definition unique_updates (o : observer) : observer :=
  mk_obs (ob_mode o) (ob_stage1 o) (ob_stage2 o) (ob_timing o) (ob_callback o) (ob_frequency o)
         (ob_stage1_completed o) (ob_stage2_started o) (ob_previous o) true.
Definition set_previous (p : prev_state) (o : observer) : observer :=
  mk_obs (ob_mode o) (ob_stage1 o) (ob_stage2 o) (ob_timing o) (ob_callback o) (ob_frequency o)
         (ob_stage1_completed o) (ob_stage2_started o) (Some p) (ob_filter o).
(** mod.rs 921-923, 929-931 *)
Definition should_observe_stage1 (o : observer) : bool :=
  match ob_mode o, ob_stage1 o with (Stage1Only | Both), Some _ => true | _, _ => false end.
Definition should_observe_stage2 (o : observer) : bool :=
  match ob_mode o, ob_stage2 o with (Stage2Only | Both), Some _ => true | _, _ => false end.
(** mod.rs 959-962, 998-1000, 1044-1047 *)
Definition obs_stage1 (o : observer) : option stage1 :=
  if ob_stage1_completed o then None else ob_stage1 o.
Definition obs_stage1_final (o : observer) : option stage1 := ob_stage1 o.
Definition obs_stage2 (o : observer) : option stage2 :=
  if ob_stage2_started o then ob_stage2 o else None.
(** mod.rs 1015-1017, 1062-1064 *)
Definition mark_stage1_complete (o : observer) : observer :=
  mk_obs (ob_mode o) (ob_stage1 o) (ob_stage2 o) (ob_timing o) (ob_callback o) (ob_frequency o)
         true (ob_stage2_started o) (ob_previous o) (ob_filter o).
Definition mark_stage2_started (o : observer) : observer :=
  mk_obs (ob_mode o) (ob_stage1 o) (ob_stage2 o) (ob_timing o) (ob_callback o) (ob_frequency o)
         (ob_stage1_completed o) true (ob_previous o) (ob_filter o).

(** The update pattern of the callers: "if should_observe { if let Some(s) = stageN_mut()
    { ... } }" *)
Definition upd_stage1 (f : stage1 -> stage1) (o : observer) : observer :=
  if should_observe_stage1 o
  then match ob_stage1 o with Some s => set_stage1 (Some (f s)) o | None => o end
  else o.
Definition upd_stage2 (f : stage2 -> stage2) (o : observer) : observer :=
  if should_observe_stage2 o
  then match ob_stage2 o with Some s => set_stage2 (Some (f s)) o | None => o end
  else o.
(** stage2_mut() without the mode check (oqnlp.rs 1125-1129, 1147-1151) *)
Definition upd_stage2_any (f : stage2 -> stage2) (o : observer) : observer :=
  match ob_stage2 o with Some s => set_stage2 (Some (f s)) o | None => o end.

(** ** Built-in callbacks: what they print *)
Inductive msg :=
| MsgStage1 (substage : string) (s : stage1)
| MsgStage2 (s : stage2).
(** Does a substage name produce a message (mod.rs 669-717, 795-841)? *)
Definition stage1_prints (name : string) : bool :=
  (String.eqb name "scatter_search_running" || String.eqb name "initialization_complete"
   || String.eqb name "diversification_complete" || String.eqb name "intensification_complete"
   || String.eqb name "scatter_search_complete" || String.eqb name "local_optimization_complete")%bool.
(** mod.rs 862-897 (the lines printed, no change filter) *)
Definition stage2_callback (o : observer) : list msg :=
  match obs_stage2 o with
  | Some s => if Nat.ltb 0 (s2_iteration s) then [MsgStage2 s] else []
  | None => []
  end.
(** mod.rs 785-845 *)
Definition stage1_callback (o : observer) : list msg :=
  match obs_stage1 o with
  | Some s => if stage1_prints (s1_substage s) then [MsgStage1 (s1_substage s) s] else []
  | None => []
  end.
(** mod.rs 658-770: an unprinted Stage 1 substage returns early; with the change filter a
    Stage 2 line is printed only when a compared field changed since the previous call. *)
Definition default_callback (o : observer) : observer * list msg :=
  let early := match obs_stage1 o with
               | Some s => negb (stage1_prints (s1_substage s))
               | None => false
               end in
  if early then (o, [])
  else
    let m1 := stage1_callback o in
    match obs_stage2 o with
    | Some s =>
        if Nat.ltb 0 (s2_iteration s) then
          if ob_filter o then
            let changed := match ob_previous o with Some p => has_changed p s | None => true end in
            (set_previous (prev_of s) o, m1 ++ (if changed then [MsgStage2 s] else []))
          else (o, m1 ++ [MsgStage2 s])
        else (o, m1)
    | None => (o, m1)
    end.

(** mod.rs 1078-1083: run the stored callback; [user n] is the effect of user closure [n],
    which receives the observer by mutable reference. *)
Definition invoke_callback (user : nat -> observer -> observer) (o : observer) : observer * list msg :=
  match ob_callback o with
  | None => (o, [])
  | Some (CbUser n) => (user n o, [])
  | Some CbDefault => default_callback o
  | Some CbStage1 => (o, stage1_callback o)
  | Some CbStage2 => (o, stage2_callback o)
  end.
(** mod.rs 1098-1100; [None] is the panic of [% 0] *)
Definition should_invoke_callback (o : observer) (iteration : nat) : option bool :=
  match ob_callback o with
  | None => Some false
  | Some _ => match ob_frequency o with
              | O => None
              | S _ => Some (iteration mod ob_frequency o =? 0)
              end
  end.
