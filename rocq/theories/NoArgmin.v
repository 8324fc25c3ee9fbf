(** * The build without the feature [argmin]

    Without it COBYLA is the only local solver (types.rs 457-492, builders.rs 76-190), so an
    optimizer of that build is one of the model whose solver type and configuration are those
    of COBYLA.  What else differs is the number of the variant in a checkpoint file, since
    bincode numbers the variants a build has, and [from_string]. *)
From Coq Require Import ZArith NArith List Bool Ascii String.
From Verif Require Import F64 Base Builders Types Runner Codec.
Import ListNotations.
Local Open Scope parser_scope.

(** the parameters a build without argmin can have *)
Definition cobyla_only (p : params) : Prop :=
  p_solver_type p = COBYLA /\ exists it st fr fa xr xa, p_solver_config p = CfgCOBYLA it st fr fa xr xa.
(** [LocalSolverType::from_string], types.rs 499-518 *)
Definition n_from_string (s : string) : option solver_type :=
  if String.eqb (to_lowercase s) "cobyla" then Some COBYLA else None.
(** [LocalSolver::solve_with_tracking], runner.rs 157-189: the only arm *)
Definition n_solve_with_tracking (X : ext) (P : problem) (t : solver_type) (cfg : solver_config)
    (x0 : point) (track : bool) : outcome ls_error (lsol * N) := solve_cobyla X P cfg x0 track.

(** ** Checkpoint files: the variant number of COBYLA is 0 *)
(** types.rs 457-492 *)
Definition n_enc_solver (t : solver_type) : bytes := enc_tag 0.
Definition n_dec_solver : parser solver_type := t <~ dec_tag ;; if (t =? 0)%N then pret COBYLA else pfail.
(** builders.rs 76-190; another variant does not exist *)
Definition n_enc_config (c : solver_config) : bytes :=
  match c with
  | CfgCOBYLA it st fr fa xr xa =>
      enc_tag 0 ++ enc_u64 it ++ enc_f64 st ++ enc_f64 fr ++ enc_f64 fa ++ enc_f64 xr ++ enc_vec enc_f64 xa
  | _ => []
  end.
Definition n_dec_config : parser solver_config :=
  t <~ dec_tag ;;
  if (t =? 0)%N then
    it <~ dec_u64 ;; st <~ dec_f64 ;; fr <~ dec_f64 ;; fa <~ dec_f64 ;; xr <~ dec_f64 ;;
    xa <~ dec_vec dec_f64 ;; pret (CfgCOBYLA it st fr fa xr xa)
  else pfail.
(** types.rs 59-97 *)
Definition n_enc_params (p : params) : bytes :=
  enc_usize (p_iterations p) ++ enc_usize (p_population p) ++ enc_usize (p_wait_cycle p) ++
  enc_f64 (p_threshold_factor p) ++ enc_f64 (p_distance_factor p) ++
  n_enc_solver (p_solver_type p) ++ n_enc_config (p_solver_config p) ++ enc_u64 (p_seed p).
Definition n_dec_params : parser params :=
  a <~ dec_usize ;; b <~ dec_usize ;; c <~ dec_usize ;; d <~ dec_f64 ;; e <~ dec_f64 ;;
  f <~ n_dec_solver ;; g <~ n_dec_config ;; h <~ dec_u64 ;; pret (mk_params a b c d e f g h).
(** types.rs 642-725 *)
Definition n_enc_checkpoint (c : checkpoint) : bytes :=
  n_enc_params (cp_params c) ++ enc_usize (cp_iteration c) ++ enc_f64 (cp_threshold c) ++
  enc_option enc_solset (cp_solution_set c) ++ enc_vec (enc_vec enc_f64) (cp_reference_set c) ++
  enc_usize (cp_unchanged c) ++ enc_f64 (cp_elapsed c) ++ enc_vec enc_lsol (cp_df_solutions c) ++
  enc_u64 (cp_seed c) ++ enc_option enc_f64 (cp_target c) ++ enc_bool (cp_exclude_oob c) ++
  enc_option enc_usize (cp_batch c) ++ enc_bool (cp_parallel c) ++ enc_f64 (cp_abs_tol c) ++
  enc_f64 (cp_rel_tol c) ++ enc_string (cp_timestamp c).
Definition n_dec_checkpoint : parser checkpoint :=
  a <~ n_dec_params ;; b <~ dec_usize ;; c <~ dec_f64 ;; d <~ dec_option dec_solset ;;
  e <~ dec_vec (dec_vec dec_f64) ;; f <~ dec_usize ;; g <~ dec_f64 ;; h <~ dec_vec dec_lsol ;;
  i <~ dec_u64 ;; j <~ dec_option dec_f64 ;; k <~ dec_bool ;; l <~ dec_option dec_usize ;;
  m <~ dec_bool ;; n <~ dec_f64 ;; o <~ dec_f64 ;; p <~ dec_string ;;
  pret (mk_cp a b c d e f g h i j k l m n o p).
(** checkpoint.rs 283-284 *)
Definition n_decode_checkpoint (b : bytes) : option checkpoint := option_map fst (n_dec_checkpoint b).
