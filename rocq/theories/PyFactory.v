(** * Python configuration functions, classes and attributes
    (/repo/python/src/builders.rs)

    What pyo3 generates for [#[pyfunction]], [#[new]] and [#[pyo3(get, set)]] (binding of
    positional and keyword arguments, conversion of each argument in order, one getter and one
    setter per field) is modelled as pyo3 documents it; the Rust bodies are modelled from the
    file. A Python list of numbers is a [VFloats] (its elements are floats already); every
    Python object that none of the functions looks into is [VOther]. *)
From Coq Require Import ZArith NArith List Bool Arith String.
From Verif Require Import F64 Builders Types PyBind.
Import ListNotations.
Local Open Scope string_scope.

(** Python values that reach builders.rs: numbers, [None], lists of floats, radius methods
    (python builders.rs 724-727), line search objects (49-71, 130-143), [PyLineSearchParams] (179-181) and
    configuration objects *)
Inductive pyval :=
| VInt (z : Z)
| VFloat (x : f64)
| VNone
| VFloats (l : list f64)
| VMethod (m : tr_method)
| VLineSearch (l : py_ls)
| VParams (l : py_ls)
| VConfig (c : py_config)
| VOther.

(** What a Python call does: return or raise *)
Inductive py_exn := TypeError | OverflowError | AttributeError.
Inductive pres (A : Type) := Ret (a : A) | Raise (e : py_exn).
Arguments Ret {A}. Arguments Raise {A}.
Definition pbnd {A B} (x : pres A) (f : A -> pres B) : pres B :=
  match x with Ret a => f a | Raise e => Raise e end.
Notation "'try' x := a 'in' b" := (pbnd a (fun x => b)) (at level 200, x name).

(** ** Conversions of the argument types in python builders.rs 85-95, 154-156, 341-348, 403-411,
    795-801, 944-951 ([FromPyObject] for [u64], [usize], [f64], [Option], [Vec<f64>] and the
    pyclasses; simplified: an integer of any size outside the range raises OverflowError) *)
Definition as_u64 (v : pyval) : pres N :=
  match v with
  | VInt z => if ((0 <=? z) && (z <? 2 ^ 64))%Z then Ret (Z.to_N z) else Raise OverflowError
  | _ => Raise TypeError
  end.
Definition as_usize (v : pyval) : pres nat := try n := as_u64 v in Ret (N.to_nat n).
Definition as_f64 (v : pyval) : pres f64 :=
  match v with
  | VFloat x => Ret x
  | VInt z => if is_finite (of_Z z) then Ret (of_Z z) else Raise OverflowError
  | _ => Raise TypeError
  end.
Definition as_floats (v : pyval) : pres (list f64) :=
  match v with VFloats l => Ret l | _ => Raise TypeError end.
Definition as_opt {A} (f : pyval -> pres A) (v : pyval) : pres (option A) :=
  match v with VNone => Ret None | _ => try a := f v in Ret (Some a) end.
Definition as_method (v : pyval) : pres tr_method :=
  match v with VMethod m => Ret m | _ => Raise TypeError end.
Definition as_params (v : pyval) : pres py_ls :=
  match v with VParams l => Ret l | _ => Raise TypeError end.
Definition as_more_thuente (v : pyval) : pres py_ls :=
  match v with VLineSearch (PyMoreThuente a b c d) => Ret (PyMoreThuente a b c d) | _ => Raise TypeError end.
Definition as_hager_zhang (v : pyval) : pres py_ls :=
  match v with
  | VLineSearch (PyHagerZhang a b c d e g h) => Ret (PyHagerZhang a b c d e g h)
  | _ => Raise TypeError
  end.
(** python builders.rs 187-199: [PyLineSearchParams::new] *)
Definition line_search_method (v : pyval) : pres py_ls :=
  match as_more_thuente v with
  | Ret l => Ret l
  | Raise _ => match as_hager_zhang v with Ret l => Ret l | Raise _ => Raise TypeError end
  end.
(** python builders.rs 412-423, 598-609, 706-717: the three ways to give a line search *)
Definition any_line_search (v : pyval) : pres py_ls :=
  match as_params v with
  | Ret l => Ret l
  | Raise _ =>
      match as_more_thuente v with
      | Ret l => Ret l
      | Raise _ => match as_hager_zhang v with Ret l => Ret l | Raise _ => Raise TypeError end
      end
  end.

(** ** Callables *)
Inductive callable :=
| hagerzhang | cls_HagerZhang | morethuente | cls_MoreThuente
| cls_LineSearchParams | params_morethuente | params_hagerzhang
| lbfgs | cls_LBFGS | neldermead | cls_NelderMead | steepestdescent | cls_SteepestDescent
| newtoncg | cls_NewtonCG | trustregion | cls_TrustRegion | cobyla | cls_COBYLA
| method_cauchy | method_steihaug.

Definition required (n : string) : string * option pyval := (n, None).
Definition optional (n : string) (v : pyval) : string * option pyval := (n, Some v).
Definition default_bounds : pyval := VFloats [fsqrt f64_epsilon; pinf].
(** Parameter names in order, with the value used when the argument is omitted. Functions:
    python builders.rs 112-126, 165-169, 391-411, 516-530, 591-597, 695-705, 818-830, 1026-1046;
    classes: 75-95, 147-156, 185-187, 201-215, 325-357, 479-499, 550-564, 644-665, 787-803,
    935-953; radius methods: 731-739 *)
Definition signature (f : callable) : list (string * option pyval) :=
  match f with
  | hagerzhang => map required ["delta"; "sigma"; "epsilon"; "theta"; "gamma"; "eta"; "bounds"]
  | cls_HagerZhang =>
      [optional "delta" (VFloat lit_0_1); optional "sigma" (VFloat (lit 9 10));
       optional "epsilon" (VFloat lit_1e_6); optional "theta" (VFloat (lit 1 2));
       optional "gamma" (VFloat (lit 66 100)); optional "eta" (VFloat (lit 1 100));
       optional "bounds" default_bounds]
  | morethuente => map required ["c1"; "c2"; "width_tolerance"; "bounds"]
  | cls_MoreThuente =>
      [optional "c1" (VFloat (lit 1 10000)); optional "c2" (VFloat (lit 9 10));
       optional "width_tolerance" (VFloat (lit 1 10000000000)); optional "bounds" default_bounds]
  | cls_LineSearchParams => [required "method"]
  | params_morethuente | params_hagerzhang => [required "params"]
  | lbfgs =>
      map required ["max_iter"; "tolerance_grad"; "tolerance_cost"; "history_size"; "line_search_params"] ++
      [optional "l1_coefficient" VNone]
  | cls_LBFGS =>
      [optional "max_iter" (VInt 300); optional "tolerance_grad" (VFloat (fsqrt f64_epsilon));
       optional "tolerance_cost" (VFloat f64_epsilon); optional "history_size" (VInt 10);
       optional "l1_coefficient" VNone; optional "line_search_params" (VParams py_mt_default)]
  | neldermead => map required ["simplex_delta"; "sd_tolerance"; "max_iter"; "alpha"; "gamma"; "rho"; "sigma"]
  | cls_NelderMead =>
      [optional "simplex_delta" (VFloat lit_0_1); optional "sd_tolerance" (VFloat f64_epsilon);
       optional "max_iter" (VInt 300); optional "alpha" (VFloat f1); optional "gamma" (VFloat f2);
       optional "rho" (VFloat (lit 1 2)); optional "sigma" (VFloat (lit 1 2))]
  | steepestdescent => map required ["max_iter"; "line_search_params"]
  | cls_SteepestDescent =>
      [optional "max_iter" (VInt 300); optional "line_search_params" (VParams py_mt_default)]
  | newtoncg => map required ["max_iter"; "curvature_threshold"; "tolerance"; "line_search_params"]
  | cls_NewtonCG =>
      [optional "max_iter" (VInt 300); optional "curvature_threshold" (VFloat f0);
       optional "tolerance" (VFloat f64_epsilon); optional "line_search_params" (VParams py_mt_default)]
  | trustregion => map required ["trust_region_radius_method"; "max_iter"; "radius"; "max_radius"; "eta"]
  | cls_TrustRegion =>
      [optional "trust_region_radius_method" (VMethod Cauchy); optional "max_iter" (VInt 300);
       optional "radius" (VFloat f1); optional "max_radius" (VFloat (of_Z 100));
       optional "eta" (VFloat (lit 125 1000))]
  | cobyla | cls_COBYLA =>
      [optional "max_iter" (VInt 300); optional "step_size" (VFloat f1); optional "ftol_rel" VNone;
       optional "ftol_abs" VNone; optional "xtol_rel" VNone; optional "xtol_abs" VNone]
  | method_cauchy | method_steihaug => []
  end.

(** A call of one of the functions or classes of python builders.rs as written in Python: positional, then keyword arguments *)
Record pcall := mk_call { positional : list pyval; keyword : list (string * pyval) }.

(** Binding of the arguments of one call (pyo3's argument extractor for the signatures of
    python builders.rs) *)
Fixpoint lookup (n : string) (kw : list (string * pyval)) : option pyval :=
  match kw with
  | [] => None
  | (m, v) :: kw => if String.eqb n m then Some v else lookup n kw
  end.
Definition bind_one (c : pcall) (i : nat) (p : string * option pyval) : option pyval :=
  match nth_error (positional c) i with
  | Some v => Some v
  | None => match lookup (fst p) (keyword c) with Some v => Some v | None => snd p end
  end.
Fixpoint bind_from (c : pcall) (i : nat) (ps : list (string * option pyval)) : option (list pyval) :=
  match ps with
  | [] => Some []
  | p :: ps =>
      match bind_one c i p, bind_from c (S i) ps with
      | Some v, Some l => Some (v :: l)
      | _, _ => None
      end
  end.
Fixpoint no_repeats (l : list string) : bool :=
  match l with [] => true | n :: l => negb (existsb (String.eqb n) l) && no_repeats l end.
Definition bind_args (ps : list (string * option pyval)) (c : pcall) : option (list pyval) :=
  if (List.length (positional c) <=? List.length ps)%nat && no_repeats (map fst (keyword c)) &&
     forallb (fun kv => existsb (String.eqb (fst kv)) (map fst (skipn (List.length (positional c)) ps))) (keyword c)
  then bind_from c 0 ps
  else None.

(** The literals of the bodies, python builders.rs 94, 155, 498, 802, 952 *)
Definition new_hager_zhang (a b c d e g h : pyval) : pres pyval :=
  try a := as_f64 a in try b := as_f64 b in try c := as_f64 c in try d := as_f64 d in
  try e := as_f64 e in try g := as_f64 g in try h := as_floats h in
  Ret (VLineSearch (PyHagerZhang a b c d e g h)).
Definition new_more_thuente (a b c h : pyval) : pres pyval :=
  try a := as_f64 a in try b := as_f64 b in try c := as_f64 c in try h := as_floats h in
  Ret (VLineSearch (PyMoreThuente a b c h)).
Definition new_nelder_mead (a b c d e g h : pyval) : pres pyval :=
  try a := as_f64 a in try b := as_f64 b in try c := as_u64 c in try d := as_f64 d in
  try e := as_f64 e in try g := as_f64 g in try h := as_f64 h in
  Ret (VConfig (PyNelderMead a b c d e g h)).
Definition new_trust_region (a b c d e : pyval) : pres pyval :=
  try a := as_method a in try b := as_u64 b in try c := as_f64 c in try d := as_f64 d in
  try e := as_f64 e in Ret (VConfig (PyTrustRegion a b c d e)).
Definition new_cobyla (a b c d e g : pyval) : pres pyval :=
  try a := as_u64 a in try b := as_f64 b in try c := as_opt as_f64 c in try d := as_opt as_f64 d in
  try e := as_opt as_f64 e in try g := as_opt as_floats g in Ret (VConfig (PyCOBYLA a b c d e g)).
(** The conversions of the arguments, in order, and the body. Bodies of functions: python builders.rs
    116-126, 167-169, 403-433, 520-530, 593-612, 699-720, 822-830, 1037-1046 (in [lbfgs],
    [steepestdescent] and [newtoncg] the line search stays a Python object until the body);
    of classes: 85-95, 154-156, 187-215, 341-357, 489-499, 562-564, 658-665, 795-803, 944-953 *)
Definition construct (f : callable) (vs : list pyval) : pres pyval :=
  match f, vs with
  | hagerzhang, [a; b; c; d; e; g; h] => new_hager_zhang a b c d e g h
  | cls_HagerZhang, [a; b; c; d; e; g; h] => new_hager_zhang a b c d e g h
  | morethuente, [a; b; c; h] => new_more_thuente a b c h
  | cls_MoreThuente, [a; b; c; h] => new_more_thuente a b c h
  | cls_LineSearchParams, [v] => try l := line_search_method v in Ret (VParams l)
  | params_morethuente, [v] => try l := as_more_thuente v in Ret (VParams l)
  | params_hagerzhang, [v] => try l := as_hager_zhang v in Ret (VParams l)
  | lbfgs, [a; b; c; d; v; l1] =>
      try a := as_u64 a in try b := as_f64 b in try c := as_f64 c in try d := as_usize d in
      try l1 := as_opt as_f64 l1 in try l := any_line_search v in Ret (VConfig (PyLBFGS a b c d l1 l))
  | cls_LBFGS, [a; b; c; d; l1; v] =>
      try a := as_u64 a in try b := as_f64 b in try c := as_f64 c in try d := as_usize d in
      try l1 := as_opt as_f64 l1 in try l := as_params v in Ret (VConfig (PyLBFGS a b c d l1 l))
  | neldermead, [a; b; c; d; e; g; h] => new_nelder_mead a b c d e g h
  | cls_NelderMead, [a; b; c; d; e; g; h] => new_nelder_mead a b c d e g h
  | steepestdescent, [a; v] =>
      try a := as_u64 a in try l := any_line_search v in Ret (VConfig (PySteepestDescent a l))
  | cls_SteepestDescent, [a; v] =>
      try a := as_u64 a in try l := as_params v in Ret (VConfig (PySteepestDescent a l))
  | newtoncg, [a; b; c; v] =>
      try a := as_u64 a in try b := as_f64 b in try c := as_f64 c in try l := any_line_search v in
      Ret (VConfig (PyNewtonCG a b c l))
  | cls_NewtonCG, [a; b; c; v] =>
      try a := as_u64 a in try b := as_f64 b in try c := as_f64 c in try l := as_params v in
      Ret (VConfig (PyNewtonCG a b c l))
  | trustregion, [a; b; c; d; e] => new_trust_region a b c d e
  | cls_TrustRegion, [a; b; c; d; e] => new_trust_region a b c d e
  | cobyla, [a; b; c; d; e; g] => new_cobyla a b c d e g
  | cls_COBYLA, [a; b; c; d; e; g] => new_cobyla a b c d e g
  | method_cauchy, [] => Ret (VMethod Cauchy)
  | method_steihaug, [] => Ret (VMethod Steihaug)
  | _, _ => Raise TypeError
  end.
Definition call (f : callable) (c : pcall) : pres pyval :=
  match bind_args (signature f) c with Some vs => construct f vs | None => Raise TypeError end.

(** ** Attributes: every field but [PyLineSearchParams.method] has [#[pyo3(get, set)]],
    python builders.rs 49-71, 130-143, 286-321, 437-475, 534-546, 616-640, 753-783, 895-931 *)
Definition py_int (n : N) : pyval := VInt (Z.of_N n).
Definition py_opt {A} (f : A -> pyval) (o : option A) : pyval := match o with Some a => f a | None => VNone end.
Definition fields (o : pyval) : list (string * pyval) :=
  match o with
  | VLineSearch (PyHagerZhang a b c d e g h) =>
      [("delta", VFloat a); ("sigma", VFloat b); ("epsilon", VFloat c); ("theta", VFloat d);
       ("gamma", VFloat e); ("eta", VFloat g); ("bounds", VFloats h)]
  | VLineSearch (PyMoreThuente a b c h) =>
      [("c1", VFloat a); ("c2", VFloat b); ("width_tolerance", VFloat c); ("bounds", VFloats h)]
  | VConfig (PyLBFGS a b c d l1 l) =>
      [("max_iter", py_int a); ("tolerance_grad", VFloat b); ("tolerance_cost", VFloat c);
       ("history_size", VInt (Z.of_nat d)); ("l1_coefficient", py_opt VFloat l1);
       ("line_search_params", VParams l)]
  | VConfig (PyNelderMead a b c d e g h) =>
      [("simplex_delta", VFloat a); ("sd_tolerance", VFloat b); ("max_iter", py_int c);
       ("alpha", VFloat d); ("gamma", VFloat e); ("rho", VFloat g); ("sigma", VFloat h)]
  | VConfig (PySteepestDescent a l) => [("max_iter", py_int a); ("line_search_params", VParams l)]
  | VConfig (PyNewtonCG a b c l) =>
      [("max_iter", py_int a); ("curvature_threshold", VFloat b); ("tolerance", VFloat c);
       ("line_search_params", VParams l)]
  | VConfig (PyTrustRegion a b c d e) =>
      [("trust_region_radius_method", VMethod a); ("max_iter", py_int b); ("radius", VFloat c);
       ("max_radius", VFloat d); ("eta", VFloat e)]
  | VConfig (PyCOBYLA a b c d e g) =>
      [("max_iter", py_int a); ("step_size", VFloat b); ("ftol_rel", py_opt VFloat c);
       ("ftol_abs", py_opt VFloat d); ("xtol_rel", py_opt VFloat e); ("xtol_abs", py_opt VFloats g)]
  | _ => []
  end.
Definition getattr (o : pyval) (n : string) : option pyval := lookup n (fields o).

(** The setters: convert the value to the type of the field, then assign *)
Fixpoint select {A} (n : string) (l : list (string * pres A)) : pres A :=
  match l with
  | [] => Raise AttributeError
  | (m, r) :: l => if String.eqb n m then r else select n l
  end.
Definition setattr (o : pyval) (n : string) (v : pyval) : pres pyval :=
  match o with
  | VLineSearch (PyHagerZhang a b c d e g h) =>
      try l := select n
        [("delta", try x := as_f64 v in Ret (PyHagerZhang x b c d e g h));
         ("sigma", try x := as_f64 v in Ret (PyHagerZhang a x c d e g h));
         ("epsilon", try x := as_f64 v in Ret (PyHagerZhang a b x d e g h));
         ("theta", try x := as_f64 v in Ret (PyHagerZhang a b c x e g h));
         ("gamma", try x := as_f64 v in Ret (PyHagerZhang a b c d x g h));
         ("eta", try x := as_f64 v in Ret (PyHagerZhang a b c d e x h));
         ("bounds", try x := as_floats v in Ret (PyHagerZhang a b c d e g x))] in
      Ret (VLineSearch l)
  | VLineSearch (PyMoreThuente a b c h) =>
      try l := select n
        [("c1", try x := as_f64 v in Ret (PyMoreThuente x b c h));
         ("c2", try x := as_f64 v in Ret (PyMoreThuente a x c h));
         ("width_tolerance", try x := as_f64 v in Ret (PyMoreThuente a b x h));
         ("bounds", try x := as_floats v in Ret (PyMoreThuente a b c x))] in
      Ret (VLineSearch l)
  | VConfig k =>
      try k' := select n
        match k with
        | PyLBFGS a b c d l1 l =>
            [("max_iter", try x := as_u64 v in Ret (PyLBFGS x b c d l1 l));
             ("tolerance_grad", try x := as_f64 v in Ret (PyLBFGS a x c d l1 l));
             ("tolerance_cost", try x := as_f64 v in Ret (PyLBFGS a b x d l1 l));
             ("history_size", try x := as_usize v in Ret (PyLBFGS a b c x l1 l));
             ("l1_coefficient", try x := as_opt as_f64 v in Ret (PyLBFGS a b c d x l));
             ("line_search_params", try x := as_params v in Ret (PyLBFGS a b c d l1 x))]
        | PyNelderMead a b c d e g h =>
            [("simplex_delta", try x := as_f64 v in Ret (PyNelderMead x b c d e g h));
             ("sd_tolerance", try x := as_f64 v in Ret (PyNelderMead a x c d e g h));
             ("max_iter", try x := as_u64 v in Ret (PyNelderMead a b x d e g h));
             ("alpha", try x := as_f64 v in Ret (PyNelderMead a b c x e g h));
             ("gamma", try x := as_f64 v in Ret (PyNelderMead a b c d x g h));
             ("rho", try x := as_f64 v in Ret (PyNelderMead a b c d e x h));
             ("sigma", try x := as_f64 v in Ret (PyNelderMead a b c d e g x))]
        | PySteepestDescent a l =>
            [("max_iter", try x := as_u64 v in Ret (PySteepestDescent x l));
             ("line_search_params", try x := as_params v in Ret (PySteepestDescent a x))]
        | PyNewtonCG a b c l =>
            [("max_iter", try x := as_u64 v in Ret (PyNewtonCG x b c l));
             ("curvature_threshold", try x := as_f64 v in Ret (PyNewtonCG a x c l));
             ("tolerance", try x := as_f64 v in Ret (PyNewtonCG a b x l));
             ("line_search_params", try x := as_params v in Ret (PyNewtonCG a b c x))]
        | PyTrustRegion a b c d e =>
            [("trust_region_radius_method", try x := as_method v in Ret (PyTrustRegion x b c d e));
             ("max_iter", try x := as_u64 v in Ret (PyTrustRegion a x c d e));
             ("radius", try x := as_f64 v in Ret (PyTrustRegion a b x d e));
             ("max_radius", try x := as_f64 v in Ret (PyTrustRegion a b c x e));
             ("eta", try x := as_f64 v in Ret (PyTrustRegion a b c d x))]
        | PyCOBYLA a b c d e g =>
            [("max_iter", try x := as_u64 v in Ret (PyCOBYLA x b c d e g));
             ("step_size", try x := as_f64 v in Ret (PyCOBYLA a x c d e g));
             ("ftol_rel", try x := as_opt as_f64 v in Ret (PyCOBYLA a b x d e g));
             ("ftol_abs", try x := as_opt as_f64 v in Ret (PyCOBYLA a b c x e g));
             ("xtol_rel", try x := as_opt as_f64 v in Ret (PyCOBYLA a b c d x g));
             ("xtol_abs", try x := as_opt as_floats v in Ret (PyCOBYLA a b c d e x))]
        | PyOtherObject => []
        end in
      Ret (VConfig k')
  | _ => Raise AttributeError
  end.

(** ** The module [builders]: python builders.rs 1049-1091. Adding a class or a function sets the
    attribute of its name; [setattr(new, getattr(old))] makes an alias. *)
Definition pymodule := list (string * callable).
Definition mod_get (n : string) (m : pymodule) : option callable :=
  match find (fun p => String.eqb n (fst p)) m with Some p => Some (snd p) | None => None end.
Definition mod_set (n : string) (c : callable) (m : pymodule) : pymodule := (n, c) :: m.
Definition mod_alias (new old : string) (m : pymodule) : pymodule :=
  match mod_get old m with Some c => mod_set new c m | None => m end.
(** The class [PyTrustRegionRadiusMethod] itself cannot be called and is left out. *)
Definition builders_module : pymodule :=
  let m := mod_set "PyLineSearchParams" cls_LineSearchParams [] in
  let m := mod_alias "HagerZhang" "PyHagerZhang" (mod_set "hagerzhang" hagerzhang (mod_set "PyHagerZhang" cls_HagerZhang m)) in
  let m := mod_alias "MoreThuente" "PyMoreThuente" (mod_set "morethuente" morethuente (mod_set "PyMoreThuente" cls_MoreThuente m)) in
  let m := mod_alias "LBFGS" "PyLBFGS" (mod_set "lbfgs" lbfgs (mod_set "PyLBFGS" cls_LBFGS m)) in
  let m := mod_set "neldermead" neldermead (mod_set "PyNelderMead" cls_NelderMead m) in
  let m := mod_alias "NelderMead" "PyNelderMead" (mod_alias "nelder_mead" "PyNelderMead" m) in
  let m := mod_alias "SteepestDescent" "PySteepestDescent"
             (mod_set "steepestdescent" steepestdescent (mod_set "PySteepestDescent" cls_SteepestDescent m)) in
  let m := mod_set "newtoncg" newtoncg (mod_set "PyNewtonCG" cls_NewtonCG m) in
  let m := mod_alias "NewtonCG" "PyNewtonCG" (mod_alias "newton_cg" "PyNewtonCG" m) in
  let m := mod_alias "TrustRegion" "PyTrustRegion" (mod_set "trustregion" trustregion (mod_set "PyTrustRegion" cls_TrustRegion m)) in
  mod_alias "COBYLA" "PyCOBYLA" (mod_set "cobyla" cobyla (mod_set "PyCOBYLA" cls_COBYLA m)).
