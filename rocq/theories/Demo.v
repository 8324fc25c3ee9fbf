(** * Concrete runs used by the examples and counterexamples *)
From Coq Require Import ZArith NArith List Bool Arith String.
From Verif Require Import F64 Base Builders Types Filters Runner Observer Env EnvSpec ScatterSearch
  Codec Checkpoint Oqnlp.
Import ListNotations.

(** f(x) = (x^2 - 4)^2 on [-4, 5]: two minima, at -2 and 2 *)
Definition two_wells : problem :=
  mk_problem
    (fun p => match p with
              | [x] => let d := fsub (fmul x x) (of_Z 4) in inl (fmul d d)
              | _ => inr 7%N
              end)
    (fun _ => inr 1%N) (fun _ => inr 1%N) [(of_Z (-4), of_Z 5)] [].
(** a local solver that walks to the minimum of its side *)
Definition to_well : ext :=
  mk_ext (fun _ => true) (fun _ _ => XFail 1%N)
    (fun j => match cj_x0 j with
              | [x] => let y := if flt x f0 then of_Z (-2) else of_Z 2 in
                       XDone [y] (cj_objective j [y]) 3%N
              | _ => XFail 2%N
              end).
(** a local solver that returns its start point *)
Definition stay : ext :=
  mk_ext (fun _ => true) (fun _ _ => XFail 1%N) (fun j => XDone (cj_x0 j) (cj_objective j (cj_x0 j)) 1%N).
Definition demo_params : params :=
  mk_params 6 6 1 (of_Z 20) (lit 75 100) COBYLA (cb_build cb_default) 3.
Definition no_files : disk := mk_disk [] 0.
Definition start_state (o : oqnlp) : st := mk_st o (mk_world no_files 0 []).
Definition demo_oqnlp : oqnlp :=
  match oq_new demo_params with Ok o => o | _ =>
    mk_oq demo_params mf_new (mk_df [] (mk_fparams f0 0 f0)) COBYLA (cb_build cb_default) None None None true
      None false None 0 None 0 0 None None f0 f0 end.
Definition wells_env : env := demo_env two_wells to_well.
Definition sequential : oqnlp -> oqnlp := parallel false.
Definition with_factor (d : f64) (p : params) : params :=
  mk_params (p_iterations p) (p_population p) (p_wait_cycle p) (p_threshold_factor p) d
            (p_solver_type p) (p_solver_config p) (p_seed p).
Definition made (p : params) : oqnlp := match oq_new p with Ok o => o | _ => demo_oqnlp end.
(** the local solution with one coordinate *)
Definition sol1 (x v : f64) : lsol := mk_lsol [x] v.
Definition result_of (E : env) (o : oqnlp) : outcome oq_error solset := fst (run E (start_state o)).
Definition state_of (E : env) (o : oqnlp) : st := snd (run E (start_state o)).
