(** * A Python problem as the optimizer sees it (/repo/python/src/lib.rs 464-507, 570-659)

    A Python callable either gives a value of the type asked for, or it raises or gives a
    value of another type: both are [None].  [variable_bounds] gives the same answer at every
    call.  The mutex around the objective is in PyLocks.v, the constraints are in
    PyRegistry.v. *)
From Coq Require Import ZArith NArith List Bool Arith.
From Verif Require Import F64 Base Types PyBind.
Import ListNotations.

(** the attributes of [PyProblem], lib.rs 464-507 *)
Record py_functions := mk_pyf {
  pf_objective : point -> option f64;
  pf_bounds : option (list (list f64));
  pf_gradient : option (point -> option (list f64));
  pf_hessian : option (point -> option (list (list f64))) }.

(** the [EvaluationError]s that arise here, by number (the model's errors are numbers) *)
Definition invalid_input : N := 1%N.
Definition gradient_not_implemented : N := 2%N.
Definition hessian_not_implemented : N := 3%N.

(** [objective], lib.rs 571-587 *)
Definition py_objective (p : py_functions) (x : point) : f64 + N :=
  match pf_objective p x with Some v => inl v | None => inr invalid_input end.
(** [variable_bounds], lib.rs 589-610: [None] is a panic, of [panic!] (line 607) or of
    [unwrap] (line 605) *)
Definition py_variable_bounds (p : py_functions) : option (list (list f64)) :=
  match pf_bounds p with
  | Some l => points_array l
  | None => None
  end.
(** The columns 0 and 1 of the bounds (/repo/src/scatter_search.rs 158-162); [column]
    panics when there is no such column.  All rows of an array have the same length. *)
Definition py_box (p : py_functions) : outcome unit (list (f64 * f64)) :=
  match py_variable_bounds p with
  | None => Panic
  | Some m =>
      let cols := match m with r :: _ => List.length r | [] => 0 end in
      if cols <? 2 then Panic else Ok (map (fun r => (nth 0 r f0, nth 1 r f0)) m)
  end.
(** [gradient], lib.rs 612-632 *)
Definition py_gradient (p : py_functions) (x : point) : point + N :=
  match pf_gradient p with
  | Some g => match g x with Some v => inl v | None => inr invalid_input end
  | None => inr gradient_not_implemented
  end.
(** [hessian], lib.rs 634-659 *)
Definition py_hessian (p : py_functions) (x : point) : list point + N :=
  match pf_hessian p with
  | Some h =>
      match h x with
      | Some l =>
          let size := List.length l in
          if List.length (List.concat l) =? size * size then inl (rows_of size size (List.concat l))
          else inr invalid_input
      | None => inr invalid_input
      end
  | None => inr hessian_not_implemented
  end.
(** [impl Problem for PyProblem] without constraints, lib.rs 570-659 *)
Definition py_problem (p : py_functions) : outcome unit problem :=
  match py_box p with
  | Ok b => Ok (mk_problem (py_objective p) (py_gradient p) (py_hessian p) b [])
  | _ => Panic
  end.
