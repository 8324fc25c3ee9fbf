(** * More concrete runs: checkpoints, a late success *)
From Coq Require Import ZArith NArith List Bool Arith String.
From Verif Require Import F64 Base Builders Types Filters Runner Observer Env EnvSpec ScatterSearch
  Codec Checkpoint Oqnlp Demo.
Import ListNotations.

(** a local solver that fails to leave the hill at 5 from the best scatter-search point
    (-2.3125), and finds the minima from elsewhere *)
Definition late : ext :=
  mk_ext (fun _ => true) (fun _ _ => XFail 1%N)
    (fun j => match cj_x0 j with
              | [x] => let y := if flt x (lit (-22) 10) && flt (lit (-25) 10) x then of_Z 5
                                else if flt x f0 then of_Z (-2) else of_Z 2 in
                       XDone [y] (cj_objective j [y]) 3%N
              | _ => XFail 2%N
              end).
Definition late_env : env := demo_env two_wells late.
Definition with_wait (n : nat) (p : params) : params :=
  mk_params (p_iterations p) (p_population p) n (p_threshold_factor p) (p_distance_factor p)
            (p_solver_type p) (p_solver_config p) (p_seed p).
(** checkpoints of every iteration in one file, loaded by the next run *)
Definition each_iteration : cp_config := mk_cpc "demo" 1 false true.
Definition saving (o : oqnlp) : oqnlp := set_o_cp (Some each_iteration) o.
(** a second run in the state the first left *)
Definition again_result (E : env) (o : oqnlp) : outcome oq_error solset := fst (run E (state_of E o)).
Definition again_state (E : env) (o : oqnlp) : st := snd (run E (state_of E o)).
(** what the second run recorded *)
Definition again_record (E : env) (o : oqnlp) : list event :=
  firstn (List.length (w_trace (s_w (again_state E o))) - List.length (w_trace (s_w (state_of E o))))
         (w_trace (s_w (again_state E o))).
