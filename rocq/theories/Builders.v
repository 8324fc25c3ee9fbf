(** * Local solver configurations and their builders
    (/repo/src/local_solver/builders.rs).  [u64] is [N] and [usize] is [nat]; both are
    unbounded here.  Builder methods consume and return the builder, so a chain of
    setter calls is a fold. *)
From Coq Require Import ZArith NArith List Bool.
From Verif Require Import F64 Base.
Import ListNotations.

(** builders.rs 67-71 *)
Inductive tr_method := Cauchy | Steihaug.

(** builders.rs 1173-1188; [bounds : Array1<f64>] *)
Inductive line_search :=
| MoreThuente (c1 c2 width_tolerance : f64) (bounds : list f64)
| HagerZhang (delta sigma epsilon theta gamma eta : f64) (bounds : list f64).
(** builders.rs 1197-1199: [LineSearchParams] has the single field [method]. *)
Definition ls_params := line_search.

(** builders.rs 76-190, in declaration order (the order is the serialized tag). *)
Inductive solver_config :=
| CfgLBFGS (max_iter : N) (tolerance_grad tolerance_cost : f64) (history_size : nat)
    (l1_coefficient : option f64) (line_search_params : ls_params)
| CfgNelderMead (simplex_delta sd_tolerance : f64) (max_iter : N) (alpha gamma rho sigma : f64)
| CfgSteepestDescent (max_iter : N) (line_search_params : ls_params)
| CfgTrustRegion (method : tr_method) (max_iter : N) (radius max_radius eta : f64)
| CfgNewtonCG (max_iter : N) (curvature_threshold tolerance : f64) (line_search_params : ls_params)
| CfgCOBYLA (max_iter : N) (initial_step_size ftol_rel ftol_abs xtol_rel : f64) (xtol_abs : list f64).

Definition sqrt_eps : f64 := fsqrt f64_epsilon.
(** builders.rs 1222-1233: [LineSearchParams::default] *)
Definition ls_default : ls_params :=
  MoreThuente (lit 1 10000) (lit 9 10) (lit 1 10000000000) [sqrt_eps; pinf].

(** ** LBFGSBuilder: builders.rs 378-386 *)
Record lb_builder := mk_lb { lb_max_iter : N; lb_tolerance_grad : f64; lb_tolerance_cost : f64; lb_history_size : nat; lb_l1_coefficient : option f64; lb_line_search_params : ls_params }.
(** [LBFGSBuilder::default], builders.rs 523-534 *)
Definition lb_default : lb_builder := mk_lb 300%N sqrt_eps f64_epsilon 10 None ls_default.
(** the setter methods, builders.rs 445-509 *)
Inductive lb_set :=
| LB_max_iter (v : N)
| LB_tolerance_grad (v : f64)
| LB_tolerance_cost (v : f64)
| LB_history_size (v : nat)
| LB_l1_coefficient (v : option f64)
| LB_line_search_params (v : ls_params).
Definition lb_apply (b : lb_builder) (c : lb_set) : lb_builder :=
  match c with
  | LB_max_iter v => mk_lb v (lb_tolerance_grad b) (lb_tolerance_cost b) (lb_history_size b) (lb_l1_coefficient b) (lb_line_search_params b)
  | LB_tolerance_grad v => mk_lb (lb_max_iter b) v (lb_tolerance_cost b) (lb_history_size b) (lb_l1_coefficient b) (lb_line_search_params b)
  | LB_tolerance_cost v => mk_lb (lb_max_iter b) (lb_tolerance_grad b) v (lb_history_size b) (lb_l1_coefficient b) (lb_line_search_params b)
  | LB_history_size v => mk_lb (lb_max_iter b) (lb_tolerance_grad b) (lb_tolerance_cost b) v (lb_l1_coefficient b) (lb_line_search_params b)
  | LB_l1_coefficient v => mk_lb (lb_max_iter b) (lb_tolerance_grad b) (lb_tolerance_cost b) (lb_history_size b) v (lb_line_search_params b)
  | LB_line_search_params v => mk_lb (lb_max_iter b) (lb_tolerance_grad b) (lb_tolerance_cost b) (lb_history_size b) (lb_l1_coefficient b) v
  end.
(** [LBFGSBuilder::build], builders.rs 430-439 *)
Definition lb_build (b : lb_builder) : solver_config :=
  CfgLBFGS (lb_max_iter b) (lb_tolerance_grad b) (lb_tolerance_cost b) (lb_history_size b)
    (lb_l1_coefficient b) (lb_line_search_params b).

(** ** NelderMeadBuilder: builders.rs 562-570 *)
Record nm_builder := mk_nm { nm_simplex_delta : f64; nm_sd_tolerance : f64; nm_max_iter : N; nm_alpha : f64; nm_gamma : f64; nm_rho : f64; nm_sigma : f64 }.
(** [NelderMeadBuilder::default], builders.rs 674-686 *)
Definition nm_default : nm_builder := mk_nm lit_0_1 f64_epsilon 300%N f1 f2 (lit 1 2) (lit 1 2).
(** the setter methods, builders.rs 620-659 *)
Inductive nm_set :=
| NM_simplex_delta (v : f64)
| NM_sd_tolerance (v : f64)
| NM_max_iter (v : N)
| NM_alpha (v : f64)
| NM_gamma (v : f64)
| NM_rho (v : f64)
| NM_sigma (v : f64).
Definition nm_apply (b : nm_builder) (c : nm_set) : nm_builder :=
  match c with
  | NM_simplex_delta v => mk_nm v (nm_sd_tolerance b) (nm_max_iter b) (nm_alpha b) (nm_gamma b) (nm_rho b) (nm_sigma b)
  | NM_sd_tolerance v => mk_nm (nm_simplex_delta b) v (nm_max_iter b) (nm_alpha b) (nm_gamma b) (nm_rho b) (nm_sigma b)
  | NM_max_iter v => mk_nm (nm_simplex_delta b) (nm_sd_tolerance b) v (nm_alpha b) (nm_gamma b) (nm_rho b) (nm_sigma b)
  | NM_alpha v => mk_nm (nm_simplex_delta b) (nm_sd_tolerance b) (nm_max_iter b) v (nm_gamma b) (nm_rho b) (nm_sigma b)
  | NM_gamma v => mk_nm (nm_simplex_delta b) (nm_sd_tolerance b) (nm_max_iter b) (nm_alpha b) v (nm_rho b) (nm_sigma b)
  | NM_rho v => mk_nm (nm_simplex_delta b) (nm_sd_tolerance b) (nm_max_iter b) (nm_alpha b) (nm_gamma b) v (nm_sigma b)
  | NM_sigma v => mk_nm (nm_simplex_delta b) (nm_sd_tolerance b) (nm_max_iter b) (nm_alpha b) (nm_gamma b) (nm_rho b) v
  end.
(** [NelderMeadBuilder::build], builders.rs 607-617 *)
Definition nm_build (b : nm_builder) : solver_config :=
  CfgNelderMead (nm_simplex_delta b) (nm_sd_tolerance b) (nm_max_iter b) (nm_alpha b) (nm_gamma b)
    (nm_rho b) (nm_sigma b).

(** ** SteepestDescentBuilder: builders.rs 700-703 *)
Record sd_builder := mk_sd { sd_max_iter : N; sd_line_search_params : ls_params }.
(** [SteepestDescentBuilder::default], builders.rs 760-764 *)
Definition sd_default : sd_builder := mk_sd 300%N ls_default.
(** the setter methods, builders.rs 741-750 *)
Inductive sd_set :=
| SD_max_iter (v : N)
| SD_line_search_params (v : ls_params).
Definition sd_apply (b : sd_builder) (c : sd_set) : sd_builder :=
  match c with
  | SD_max_iter v => mk_sd v (sd_line_search_params b)
  | SD_line_search_params v => mk_sd (sd_max_iter b) v
  end.
(** [SteepestDescentBuilder::build], builders.rs 733-738 *)
Definition sd_build (b : sd_builder) : solver_config :=
  CfgSteepestDescent (sd_max_iter b) (sd_line_search_params b).

(** ** TrustRegionBuilder: builders.rs 790-796 *)
Record tr_builder := mk_tr { tr_method_ : tr_method; tr_max_iter : N; tr_radius : f64; tr_max_radius : f64; tr_eta : f64 }.
(** [TrustRegionBuilder::default], builders.rs 884-894 *)
Definition tr_default : tr_builder := mk_tr Cauchy 300%N f1 (of_Z 100) (lit 125 1000).
(** the setter methods, builders.rs 842-872 *)
Inductive tr_set :=
| TR_method (v : tr_method)
| TR_max_iter (v : N)
| TR_radius (v : f64)
| TR_max_radius (v : f64)
| TR_eta (v : f64).
Definition tr_apply (b : tr_builder) (c : tr_set) : tr_builder :=
  match c with
  | TR_method v => mk_tr v (tr_max_iter b) (tr_radius b) (tr_max_radius b) (tr_eta b)
  | TR_max_iter v => mk_tr (tr_method_ b) v (tr_radius b) (tr_max_radius b) (tr_eta b)
  | TR_radius v => mk_tr (tr_method_ b) (tr_max_iter b) v (tr_max_radius b) (tr_eta b)
  | TR_max_radius v => mk_tr (tr_method_ b) (tr_max_iter b) (tr_radius b) v (tr_eta b)
  | TR_eta v => mk_tr (tr_method_ b) (tr_max_iter b) (tr_radius b) (tr_max_radius b) v
  end.
(** [TrustRegionBuilder::build], builders.rs 831-839 *)
Definition tr_build (b : tr_builder) : solver_config :=
  CfgTrustRegion (tr_method_ b) (tr_max_iter b) (tr_radius b) (tr_max_radius b) (tr_eta b).

(** ** NewtonCGBuilder: builders.rs 919-924 *)
Record ncg_builder := mk_ncg { ncg_max_iter : N; ncg_curvature_threshold : f64; ncg_tolerance : f64; ncg_line_search_params : ls_params }.
(** [NewtonCGBuilder::default], builders.rs 1005-1014 *)
Definition ncg_default : ncg_builder := mk_ncg 300%N f0 f64_epsilon ls_default.
(** the setter methods, builders.rs 972-993 *)
Inductive ncg_set :=
| NCG_max_iter (v : N)
| NCG_curvature_threshold (v : f64)
| NCG_tolerance (v : f64)
| NCG_line_search_params (v : ls_params).
Definition ncg_apply (b : ncg_builder) (c : ncg_set) : ncg_builder :=
  match c with
  | NCG_max_iter v => mk_ncg v (ncg_curvature_threshold b) (ncg_tolerance b) (ncg_line_search_params b)
  | NCG_curvature_threshold v => mk_ncg (ncg_max_iter b) v (ncg_tolerance b) (ncg_line_search_params b)
  | NCG_tolerance v => mk_ncg (ncg_max_iter b) (ncg_curvature_threshold b) v (ncg_line_search_params b)
  | NCG_line_search_params v => mk_ncg (ncg_max_iter b) (ncg_curvature_threshold b) (ncg_tolerance b) v
  end.
(** [NewtonCGBuilder::build], builders.rs 962-969 *)
Definition ncg_build (b : ncg_builder) : solver_config :=
  CfgNewtonCG (ncg_max_iter b) (ncg_curvature_threshold b) (ncg_tolerance b) (ncg_line_search_params b).

(** ** COBYLABuilder: builders.rs 1044-1051 *)
Record cb_builder := mk_cb { cb_max_iter : N; cb_initial_step_size : f64; cb_ftol_rel : option f64; cb_ftol_abs : option f64; cb_xtol_rel : option f64; cb_xtol_abs : option (list f64) }.
(** [COBYLABuilder::default], builders.rs 1154-1165 *)
Definition cb_default : cb_builder := mk_cb 300%N (lit 1 2) (Some lit_1e_6) (Some lit_1e_8) None None.
(** the setter methods, builders.rs 1099-1143 *)
Inductive cb_set :=
| CB_max_iter (v : N)
| CB_initial_step_size (v : f64)
| CB_ftol_rel (v : f64)
| CB_ftol_abs (v : f64)
| CB_xtol_rel (v : f64)
| CB_xtol_abs (v : list f64).
Definition cb_apply (b : cb_builder) (c : cb_set) : cb_builder :=
  match c with
  | CB_max_iter v => mk_cb v (cb_initial_step_size b) (cb_ftol_rel b) (cb_ftol_abs b) (cb_xtol_rel b) (cb_xtol_abs b)
  | CB_initial_step_size v => mk_cb (cb_max_iter b) v (cb_ftol_rel b) (cb_ftol_abs b) (cb_xtol_rel b) (cb_xtol_abs b)
  | CB_ftol_rel v => mk_cb (cb_max_iter b) (cb_initial_step_size b) (Some v) (cb_ftol_abs b) (cb_xtol_rel b) (cb_xtol_abs b)
  | CB_ftol_abs v => mk_cb (cb_max_iter b) (cb_initial_step_size b) (cb_ftol_rel b) (Some v) (cb_xtol_rel b) (cb_xtol_abs b)
  | CB_xtol_rel v => mk_cb (cb_max_iter b) (cb_initial_step_size b) (cb_ftol_rel b) (cb_ftol_abs b) (Some v) (cb_xtol_abs b)
  | CB_xtol_abs v => mk_cb (cb_max_iter b) (cb_initial_step_size b) (cb_ftol_rel b) (cb_ftol_abs b) (cb_xtol_rel b) (Some v)
  end.
(** [COBYLABuilder::build], builders.rs 1087-1096 *)
Definition cb_build (b : cb_builder) : solver_config :=
  CfgCOBYLA (cb_max_iter b) (cb_initial_step_size b)
    (match cb_ftol_rel b with Some v => v | None => lit_1e_6 end)
    (match cb_ftol_abs b with Some v => v | None => lit_1e_8 end)
    (match cb_xtol_rel b with Some v => v | None => f0 end)
    (match cb_xtol_abs b with Some v => v | None => [] end).
(** [COBYLABuilder::new], builders.rs 1075-1084 *)
Definition cb_new (max_iter : N) (step : f64) : cb_builder := mk_cb max_iter step None None None None.

(** ** MoreThuenteBuilder: builders.rs 1263-1268 *)
Record mt_builder := mk_mt { mt_c1 : f64; mt_c2 : f64; mt_width_tolerance : f64; mt_bounds : list f64 }.
(** [MoreThuenteBuilder::default], builders.rs 1342-1351 *)
Definition mt_default : mt_builder := mk_mt (lit 1 10000) (lit 9 10) (lit 1 10000000000) [sqrt_eps; pinf].
(** the setter methods, builders.rs 1309-1330 *)
Inductive mt_set :=
| MT_c1 (v : f64)
| MT_c2 (v : f64)
| MT_width_tolerance (v : f64)
| MT_bounds (v : list f64).
Definition mt_apply (b : mt_builder) (c : mt_set) : mt_builder :=
  match c with
  | MT_c1 v => mk_mt v (mt_c2 b) (mt_width_tolerance b) (mt_bounds b)
  | MT_c2 v => mk_mt (mt_c1 b) v (mt_width_tolerance b) (mt_bounds b)
  | MT_width_tolerance v => mk_mt (mt_c1 b) (mt_c2 b) v (mt_bounds b)
  | MT_bounds v => mk_mt (mt_c1 b) (mt_c2 b) (mt_width_tolerance b) v
  end.
(** [MoreThuenteBuilder::build], builders.rs 1297-1306 *)
Definition mt_build (b : mt_builder) : ls_params :=
  MoreThuente (mt_c1 b) (mt_c2 b) (mt_width_tolerance b) (mt_bounds b).

(** ** HagerZhangBuilder: builders.rs 1384-1392 *)
Record hz_builder := mk_hz { hz_delta : f64; hz_sigma : f64; hz_epsilon : f64; hz_theta : f64; hz_gamma : f64; hz_eta : f64; hz_bounds : list f64 }.
(** [HagerZhangBuilder::default], builders.rs 1498-1510 *)
Definition hz_default : hz_builder := mk_hz lit_0_1 (lit 9 10) lit_1e_6 (lit 1 2) (lit 66 100) (lit 1 100) [f64_epsilon; of_Z 100000].
(** the setter methods, builders.rs 1444-1483 *)
Inductive hz_set :=
| HZ_delta (v : f64)
| HZ_sigma (v : f64)
| HZ_epsilon (v : f64)
| HZ_theta (v : f64)
| HZ_gamma (v : f64)
| HZ_eta (v : f64)
| HZ_bounds (v : list f64).
Definition hz_apply (b : hz_builder) (c : hz_set) : hz_builder :=
  match c with
  | HZ_delta v => mk_hz v (hz_sigma b) (hz_epsilon b) (hz_theta b) (hz_gamma b) (hz_eta b) (hz_bounds b)
  | HZ_sigma v => mk_hz (hz_delta b) v (hz_epsilon b) (hz_theta b) (hz_gamma b) (hz_eta b) (hz_bounds b)
  | HZ_epsilon v => mk_hz (hz_delta b) (hz_sigma b) v (hz_theta b) (hz_gamma b) (hz_eta b) (hz_bounds b)
  | HZ_theta v => mk_hz (hz_delta b) (hz_sigma b) (hz_epsilon b) v (hz_gamma b) (hz_eta b) (hz_bounds b)
  | HZ_gamma v => mk_hz (hz_delta b) (hz_sigma b) (hz_epsilon b) (hz_theta b) v (hz_eta b) (hz_bounds b)
  | HZ_eta v => mk_hz (hz_delta b) (hz_sigma b) (hz_epsilon b) (hz_theta b) (hz_gamma b) v (hz_bounds b)
  | HZ_bounds v => mk_hz (hz_delta b) (hz_sigma b) (hz_epsilon b) (hz_theta b) (hz_gamma b) (hz_eta b) v
  end.
(** [HagerZhangBuilder::build], builders.rs 1429-1441 *)
Definition hz_build (b : hz_builder) : ls_params :=
  HagerZhang (hz_delta b) (hz_sigma b) (hz_epsilon b) (hz_theta b) (hz_gamma b) (hz_eta b) (hz_bounds b).
