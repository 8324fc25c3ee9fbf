(** * Specification vocabulary for times (C82, C83) *)
From Coq Require Import ZArith NArith List Bool Arith.
From Verif Require Import F64 Base Observer Env Codec Checkpoint Oqnlp Timing.
Import ListNotations.

(** a monotonic clock *)
Definition goes_forward (clock : nat -> instant) : Prop := forall m n, m <= n -> (clock m <= clock n)%Z.
(** what total_time() returns at each instant did not change *)
Definition reads_as (before after : timer) : Prop := forall now, total_time now after = total_time now before.
(** total_time() returns the time since the clock reading [a] *)
Definition reads_since (clock : nat -> instant) (a : nat) (t : timer) : Prop :=
  forall now, total_time now t = Some (elapsed now (clock a)).
(** does the optimizer's observer keep the time of the whole run (with_timing)? *)
Definition timing (o : oqnlp) : bool := match o_observer o with Some ob => ob_timing ob | None => false end.
(** a process about to run an optimizer for the first time *)
Definition started (s : st) : tst := mk_tst s clocks_new 0.

(** ** C83 *)
(** the elapsed times of the checkpoints saved, latest first *)
Definition elapsed_times (l : list event) : list f64 :=
  flat_map (fun e => match e with EvSave _ c => [cp_elapsed c] | _ => [] end) l.
(** a clock whose readings never decrease *)
Definition never_back (c : nat -> f64) : Prop := forall m n, m <= n -> fle (c m) (c n) = true.
(** a process that starts with the files another one left, with optimizer [o] *)
Definition next_process (s : st) (o : oqnlp) : st := mk_st o (mk_world (w_disk (s_w s)) 0 []).
