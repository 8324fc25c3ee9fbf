(** * What the documentation says of the Python configuration functions and classes
    (the [:param:], [:type:] and [text_signature] texts of /repo/python/src/builders.rs)

    Independent of the model's binding and conversion functions: only the types of values,
    calls and callables are used. *)
From Coq Require Import ZArith NArith List Bool Arith String.
From Verif Require Import F64 Builders Types PyBind PyFactory.
Import ListNotations.
Local Open Scope string_scope.

(** Kinds of arguments *)
Inductive kind :=
| Count            (* a non-negative machine integer *)
| Number           (* a float, or an integer that a float can hold *)
| MaybeNumber      (* None or a number *)
| Numbers          (* a list of floats *)
| MaybeNumbers     (* None or a list of floats *)
| RadiusMethod
| SearchParams     (* a PyLineSearchParams object *)
| MoreThuenteObj   (* a PyMoreThuente object *)
| HagerZhangObj    (* a PyHagerZhang object *)
| SearchObj        (* either of the two *)
| AnySearch.       (* any of the three *)

(** Parameters in order *)
Definition takes (f : callable) : list (string * kind) :=
  match f with
  | hagerzhang | cls_HagerZhang =>
      [("delta", Number); ("sigma", Number); ("epsilon", Number); ("theta", Number);
       ("gamma", Number); ("eta", Number); ("bounds", Numbers)]
  | morethuente | cls_MoreThuente =>
      [("c1", Number); ("c2", Number); ("width_tolerance", Number); ("bounds", Numbers)]
  | cls_LineSearchParams => [("method", SearchObj)]
  | params_morethuente => [("params", MoreThuenteObj)]
  | params_hagerzhang => [("params", HagerZhangObj)]
  | lbfgs =>
      [("max_iter", Count); ("tolerance_grad", Number); ("tolerance_cost", Number);
       ("history_size", Count); ("line_search_params", AnySearch); ("l1_coefficient", MaybeNumber)]
  | cls_LBFGS =>
      [("max_iter", Count); ("tolerance_grad", Number); ("tolerance_cost", Number);
       ("history_size", Count); ("l1_coefficient", MaybeNumber); ("line_search_params", SearchParams)]
  | neldermead | cls_NelderMead =>
      [("simplex_delta", Number); ("sd_tolerance", Number); ("max_iter", Count); ("alpha", Number);
       ("gamma", Number); ("rho", Number); ("sigma", Number)]
  | steepestdescent => [("max_iter", Count); ("line_search_params", AnySearch)]
  | cls_SteepestDescent => [("max_iter", Count); ("line_search_params", SearchParams)]
  | newtoncg =>
      [("max_iter", Count); ("curvature_threshold", Number); ("tolerance", Number);
       ("line_search_params", AnySearch)]
  | cls_NewtonCG =>
      [("max_iter", Count); ("curvature_threshold", Number); ("tolerance", Number);
       ("line_search_params", SearchParams)]
  | trustregion | cls_TrustRegion =>
      [("trust_region_radius_method", RadiusMethod); ("max_iter", Count); ("radius", Number);
       ("max_radius", Number); ("eta", Number)]
  | cobyla | cls_COBYLA =>
      [("max_iter", Count); ("step_size", Number); ("ftol_rel", MaybeNumber);
       ("ftol_abs", MaybeNumber); ("xtol_rel", MaybeNumber); ("xtol_abs", MaybeNumbers)]
  | method_cauchy | method_steihaug => []
  end.

(** Which arguments a call may leave out *)
Definition may_omit (f : callable) (n : string) : Prop :=
  match f with
  | cls_HagerZhang | cls_MoreThuente | cls_LBFGS | cls_NelderMead | cls_SteepestDescent
  | cls_NewtonCG | cls_TrustRegion | cls_COBYLA | cobyla => True
  | lbfgs => n = "l1_coefficient"
  | _ => False
  end.

(** [holds k v w]: a field of kind [k], written as [v], reads back as [w] *)
Inductive holds : kind -> pyval -> pyval -> Prop :=
| HCount z : (0 <= z < 2 ^ 64)%Z -> holds Count (VInt z) (VInt z)
| HFloat x : holds Number (VFloat x) (VFloat x)
| HInt z : is_finite (of_Z z) = true -> holds Number (VInt z) (VFloat (of_Z z))
| HNoNumber : holds MaybeNumber VNone VNone
| HSomeNumber v w : holds Number v w -> holds MaybeNumber v w
| HNumbers l : holds Numbers (VFloats l) (VFloats l)
| HNoNumbers : holds MaybeNumbers VNone VNone
| HSomeNumbers l : holds MaybeNumbers (VFloats l) (VFloats l)
| HRadius m : holds RadiusMethod (VMethod m) (VMethod m)
| HParams l : holds SearchParams (VParams l) (VParams l)
| HMoreThuente a b c d : holds MoreThuenteObj (VLineSearch (PyMoreThuente a b c d)) (VParams (PyMoreThuente a b c d))
| HHagerZhang a b c d e g h :
    holds HagerZhangObj (VLineSearch (PyHagerZhang a b c d e g h)) (VParams (PyHagerZhang a b c d e g h))
| HSearch l : holds SearchObj (VLineSearch l) (VParams l)
| HAnyParams l : holds AnySearch (VParams l) (VParams l)
| HAnySearch l : holds AnySearch (VLineSearch l) (VParams l).
Definition fits (k : kind) (v : pyval) : Prop := exists w, holds k v w.

(** The value a call gives to its [i]-th parameter, named [n] *)
Inductive given (c : pcall) (i : nat) (n : string) (v : pyval) : Prop :=
| ByPosition : nth_error (positional c) i = Some v -> given c i n v
| ByName : List.length (positional c) <= i -> In (n, v) (keyword c) -> given c i n v.

(** A call that fits the list of parameters: no surplus positional argument, no unknown or
    repeated keyword, no keyword for a parameter that a positional argument already gave *)
Definition well_formed (ps : list (string * kind)) (c : pcall) : Prop :=
  List.length (positional c) <= List.length ps /\
  NoDup (map fst (keyword c)) /\
  forall n v, In (n, v) (keyword c) ->
    exists i k, nth_error ps i = Some (n, k) /\ List.length (positional c) <= i.

(** The six solvers: their function, their class, and the class without arguments *)
Definition function_of (ty : solver_type) : callable :=
  match ty with
  | LBFGS => lbfgs | NelderMead => neldermead | SteepestDescent => steepestdescent
  | NewtonCG => newtoncg | TrustRegion => trustregion | COBYLA => cobyla
  end.
Definition class_of (ty : solver_type) : callable :=
  match ty with
  | LBFGS => cls_LBFGS | NelderMead => cls_NelderMead | SteepestDescent => cls_SteepestDescent
  | NewtonCG => cls_NewtonCG | TrustRegion => cls_TrustRegion | COBYLA => cls_COBYLA
  end.
Definition no_arguments : pcall := mk_call [] [].

(** What the object made by [f] shows of its argument [n]: an attribute; a
    [PyLineSearchParams] object has no attribute and is itself the line search *)
Definition shows (f : callable) (o : pyval) (n : string) (w : pyval) : Prop :=
  match f with
  | cls_LineSearchParams | params_morethuente | params_hagerzhang => w = o
  | _ => getattr o n = Some w
  end.
(** The class whose default arguments fill in the arguments that a call leaves out *)
Definition defaults_of (f : callable) : callable :=
  match f with lbfgs => cls_LBFGS | cobyla => cls_COBYLA | f => f end.
(** The class of an object *)
Definition type_of (o : pyval) : option callable :=
  match o with
  | VLineSearch (PyMoreThuente _ _ _ _) => Some cls_MoreThuente
  | VLineSearch (PyHagerZhang _ _ _ _ _ _ _) => Some cls_HagerZhang
  | VConfig (PyLBFGS _ _ _ _ _ _) => Some cls_LBFGS
  | VConfig (PyNelderMead _ _ _ _ _ _ _) => Some cls_NelderMead
  | VConfig (PySteepestDescent _ _) => Some cls_SteepestDescent
  | VConfig (PyNewtonCG _ _ _ _) => Some cls_NewtonCG
  | VConfig (PyTrustRegion _ _ _ _ _) => Some cls_TrustRegion
  | VConfig (PyCOBYLA _ _ _ _ _ _) => Some cls_COBYLA
  | _ => None
  end.
