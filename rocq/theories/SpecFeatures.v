(** * Specification vocabulary for comparing builds (C78 - C80) *)
From Coq Require Import ZArith NArith List Bool Arith Ascii String.
From Verif Require Import F64 Base Builders Types Filters Runner Observer Env ScatterSearch Codec
  Checkpoint Oqnlp Features.
Import ListNotations.

(** two optimizers that agree in every field that all builds have *)
Definition alike (o o' : oqnlp) : Prop :=
  o_params o' = o_params o /\ o_merit o' = o_merit o /\ o_df o' = o_df o /\
  o_solver_type o' = o_solver_type o /\ o_solver_config o' = o_solver_config o /\ o_set o' = o_set o /\
  o_max_time o' = o_max_time o /\ o_target o' = o_target o /\ o_exclude o' = o_exclude o /\
  o_observer o' = o_observer o /\ o_custom o' = o_custom o /\ o_abs_tol o' = o_abs_tol o /\
  o_rel_tol o' = o_rel_tol o.
(** two checkpoints that agree in every field that all builds have *)
Definition alike_checkpoint (c c' : checkpoint) : Prop :=
  cp_params c' = cp_params c /\ cp_iteration c' = cp_iteration c /\ cp_threshold c' = cp_threshold c /\
  cp_solution_set c' = cp_solution_set c /\ cp_reference_set c' = cp_reference_set c /\
  cp_unchanged c' = cp_unchanged c /\ cp_elapsed c' = cp_elapsed c /\ cp_df_solutions c' = cp_df_solutions c /\
  cp_seed c' = cp_seed c /\ cp_target c' = cp_target c /\ cp_exclude_oob c' = cp_exclude_oob c /\
  cp_abs_tol c' = cp_abs_tol c /\ cp_rel_tol c' = cp_rel_tol c /\ cp_timestamp c' = cp_timestamp c.
(** the same event; a decision shows the optimizer that took it, a save its checkpoint *)
Definition alike_event (e e' : event) : Prop :=
  match e, e' with
  | EvDecide i p v o go, EvDecide i' p' v' o' go' => i' = i /\ p' = p /\ v' = v /\ go' = go /\ alike o o'
  | EvSave f c, EvSave f' c' => f' = f /\ alike_checkpoint c c'
  | _, _ => e' = e
  end.
(** the same file names in the same order, with contents related by [C] *)
Definition alike_files (C : bytes -> bytes -> Prop) (d d' : disk) : Prop :=
  Forall2 (fun f f' => fst f' = fst f /\ C (snd f) (snd f')) (d_files d) (d_files d').
(** Two executions that cannot be told apart: the same result (solutions, error or panic), the
    same final optimizer, files and events (calls of the user's functions, decisions, local
    searches, solution sets, thresholds, callbacks, messages, saves), in the same order. *)
Definition same_execution (C : bytes -> bytes -> Prop) (x x' : outcome oq_error solset * st) : Prop :=
  fst x' = fst x /\ alike (s_o (snd x)) (s_o (snd x')) /\ alike_files C (w_disk (s_w (snd x))) (w_disk (s_w (snd x'))) /\
  Forall2 alike_event (w_trace (s_w (snd x))) (w_trace (s_w (snd x'))).

(** ** Files of the build without rayon and of a build with rayon (parallel processing off) *)
(** neither build can read its file, or they read the same and the second has parallel
    processing switched off *)
Definition read_alike (c c' : bytes) : Prop :=
  match b_decode (mk_features false true) c, b_decode (mk_features true true) c' with
  | None, None => True
  | Some cp, Some cp' => alike_checkpoint cp cp' /\ cp_parallel cp' = false
  | _, _ => False
  end.
(** the first bytes of what the two builds write for the same checkpoint (all of them unless
    the write was cut short) *)
Definition written_alike (c c' : bytes) : Prop :=
  exists cp cp' k, alike_checkpoint cp cp' /\ c = firstn k (b_enc_checkpoint (mk_features false true) cp) /\
    c' = firstn k (b_enc_checkpoint (mk_features true true) cp').
(** the optimizer with parallel processing switched off, in front of a directory that holds [files] *)
Definition switched_off (s : st) (files : list (fname * bytes)) : st :=
  mk_st (parallel false (s_o s)) (mk_world (mk_disk files (d_tick (w_disk (s_w s)))) (w_tick (s_w s)) (w_trace (s_w s))).

(** ** One build's checkpoint files in another build (C80) *)
(** the part of a checkpoint that a build has: without rayon there is no batch size and no
    parallel switch *)
Definition as_kept (F : features) (c : checkpoint) : checkpoint :=
  if f_rayon F then c
  else mk_cp (cp_params c) (cp_iteration c) (cp_threshold c) (cp_solution_set c) (cp_reference_set c)
             (cp_unchanged c) (cp_elapsed c) (cp_df_solutions c) (cp_seed c) (cp_target c) (cp_exclude_oob c)
             None false (cp_abs_tol c) (cp_rel_tol c) (cp_timestamp c).
(** a timestamp such as chrono writes: at least ten bytes, none of them zero (and not
    absurdly long) *)
Definition real_timestamp (t : string) : Prop :=
  10 <= List.length (str_bytes t) <= 200 /\ Forall (fun c => N_of_ascii c <> 0%N) (str_bytes t).
(** a number whose magnitude is at least 2^-948 (not zero, not tiny) *)
Definition not_tiny (x : f64) : Prop :=
  match x with Zero _ => False | Fin _ _ e => (-1000 <= e)%Z | _ => True end.
