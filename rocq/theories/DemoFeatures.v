(** * Concrete runs of several builds *)
From Coq Require Import ZArith NArith List Bool Arith String.
From Verif Require Import F64 Base Builders Types Filters Runner Observer Env EnvSpec ScatterSearch Codec Checkpoint Oqnlp
  Features SpecCheckpoint SpecFeatures Demo Demo2 DemoCp.
Import ListNotations.

Definition no_ckpt : features := mk_features true false.
Definition no_ray : features := mk_features false true.
(** the wells with a shuffle that depends on the seed, and with or without overflow checks *)
Definition seeded_env (checks : bool) : env :=
  mk_env (e_problem wells_env) (e_ext wells_env) (e_seed_from wells_env) (e_next wells_env) (e_uniform wells_env)
    (e_perturb wells_env) (fun r l => if N.even r then l else rev l) (e_sort wells_env) (e_select wells_env)
    (e_threads wells_env) (e_sched wells_env) (e_err_pick wells_env) (e_clock wells_env) (e_timestamp wells_env)
    (e_io wells_env) (e_dir_order wells_env) (e_callback wells_env) checks.
Definition last_seed : params :=
  mk_params (p_iterations demo_params) (p_population demo_params) (p_wait_cycle demo_params)
    (p_threshold_factor demo_params) (p_distance_factor demo_params) (p_solver_type demo_params)
    (p_solver_config demo_params) (2 ^ 64 - 1).
Definition first_state (F : features) : st := snd (build_run F (seeded_env false) (start_state (sequential demo_oqnlp))).
Definition second_run (F : features) : outcome oq_error solset * st := build_run F (seeded_env false) (first_state F).
(** the trial points in the order in which decisions were taken *)
Definition decided_points (l : list event) : list point :=
  flat_map (fun e => match e with EvDecide _ p _ _ _ => [p] | _ => [] end) l.
Definition overflow_run (F : features) : outcome oq_error solset * st :=
  build_run F (seeded_env true) (start_state (sequential (made last_seed))).
(** [demo_cp] with a batch size and without tolerances; and as another build would hold it *)
Definition exact_cp : checkpoint :=
  mk_cp (cp_params demo_cp) (cp_iteration demo_cp) (cp_threshold demo_cp) (cp_solution_set demo_cp)
    (cp_reference_set demo_cp) (cp_unchanged demo_cp) (cp_elapsed demo_cp) (cp_df_solutions demo_cp)
    (cp_seed demo_cp) (cp_target demo_cp) (cp_exclude_oob demo_cp) (Some 4) (cp_parallel demo_cp) f0 f0
    (cp_timestamp demo_cp).
(** the saving optimizer in front of a directory with the file of [demo_cp], in each build *)
Definition before (F : features) : st :=
  mk_st (saving demo_oqnlp) (mk_world (mk_disk [(file_name each_iteration 0, b_enc_checkpoint F demo_cp)] 0) 0 []).
