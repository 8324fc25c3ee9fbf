(** * The merit and distance filters (/repo/src/filters.rs) *)
From Coq Require Import ZArith List Bool.
From Verif Require Import F64 Base Builders Types.
Import ListNotations.

(** [MeritFilter], filters.rs 117-119 *)
Record merit_filter := mk_merit { mf_threshold : f64 }.
(** filters.rs 129-131 *)
Definition mf_new : merit_filter := mk_merit pinf.
(** filters.rs 133-135 *)
Definition mf_update (f : merit_filter) (t : f64) : merit_filter := mk_merit t.
(** filters.rs 138-140 *)
Definition mf_check (f : merit_filter) (v : f64) : bool := fle v (mf_threshold f).

(** [FilterParams], types.rs *)
Record filter_params := mk_fparams {
  fp_distance_factor : f64; fp_wait_cycle : nat; fp_threshold_factor : f64 }.
(** [DistanceFilter], filters.rs 196-199 *)
Record distance_filter := mk_df { df_solutions : list lsol; df_params : filter_params }.
(** filters.rs 210-219; the only error is [NegativeDistanceFactor] with the value *)
Definition df_new (p : filter_params) : distance_filter + f64 :=
  if flt (fp_distance_factor p) f0 then inr (fp_distance_factor p) else inl (mk_df [] p).
(** filters.rs 222-224 *)
Definition df_add (f : distance_filter) (s : lsol) : distance_filter :=
  mk_df (df_solutions f ++ [s]) (df_params f).
(** filters.rs 227-232 *)
Definition df_check (f : distance_filter) (p : point) : bool :=
  forallb (fun s => fgt (dist2 p (ls_point s))
                        (fmul (fp_distance_factor (df_params f)) (fp_distance_factor (df_params f))))
          (df_solutions f).
(** filters.rs 242-244 *)
Definition df_set (f : distance_filter) (l : list lsol) : distance_filter := mk_df l (df_params f).
