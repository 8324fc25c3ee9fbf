(** * When a run is expected not to panic (C63) *)
From Coq Require Import ZArith NArith List Bool Arith String.
From Verif Require Import F64 Base Builders Types Filters Runner Observer Env ScatterSearch Codec Checkpoint Oqnlp.
Import ListNotations.

(** the line search bounds, where a configuration has them, have a lower and an upper entry *)
Definition line_search_bounds (l : line_search) : list f64 :=
  match l with MoreThuente _ _ _ b => b | HagerZhang _ _ _ _ _ _ b => b end.
Definition two_bounds (cfg : solver_config) : Prop :=
  match cfg with
  | CfgLBFGS _ _ _ _ _ l | CfgSteepestDescent _ l | CfgNewtonCG _ _ _ l => 2 <= List.length (line_search_bounds l)
  | _ => True
  end.
(** the external solvers return points of the problem's dimension *)
Definition solvers_keep_dimension (E : env) : Prop :=
  (forall j x c n, argmin_run (e_ext E) (e_problem E) j = XDone (Some x) c n ->
     List.length x = List.length (pb_bounds (e_problem E))) /\
  (forall j x c n, cobyla_run (e_ext E) j = XDone x c n ->
     List.length x = List.length (pb_bounds (e_problem E))).
(** the three frequencies are not zero and the seeds do not overflow *)
Record sane_settings (o : oqnlp) : Prop := {
  sn_batch : o_batch o <> Some 0;
  sn_save : forall c, o_cp o = Some c -> cc_save_frequency c <> 0;
  sn_callback : forall ob cb, o_observer o = Some ob -> ob_callback ob = Some cb -> ob_frequency ob <> 0;
  sn_seed : (p_seed (o_params o) + N.of_nat (p_iterations (o_params o)) < 2 ^ 64)%N;
  sn_iteration : (p_seed (o_params o) + N.of_nat (o_iteration o) < 2 ^ 64)%N }.
(** nothing but a solution set that was actually filled, with points of the right dimension *)
Definition sane_set (E : env) (o : oqnlp) : Prop :=
  forall l, o_set o = Some l -> l <> [] /\
    Forall (fun s => List.length (ls_point s) = List.length (pb_bounds (e_problem E))) l.
Definition sane_solver (o : oqnlp) : Prop :=
  two_bounds (o_solver_config o) /\ two_bounds (p_solver_config (o_params o)).
Definition sane_points (E : env) (o : oqnlp) : Prop :=
  forall l, o_custom o = Some l ->
    Forall (fun p => List.length p = List.length (pb_bounds (e_problem E))) l.
(** parameters without a line search that panics, at most [M] iterations, and no overflow of
    the seed up to there *)
Definition good_params (M : nat) (p : params) : Prop :=
  two_bounds (p_solver_config p) /\ p_iterations p <= M /\ (p_seed p + N.of_nat M < 2 ^ 64)%N /\ 1 <= p_population p.
(** a configuration for which a run is expected not to panic *)
Definition sane (E : env) (o : oqnlp) : Prop :=
  sane_settings o /\ sane_set E o /\ sane_solver o /\ sane_points E o /\ 1 <= p_population (o_params o).
