(** * C87: Python configuration functions and classes *)
From Coq Require Import ZArith NArith List Bool Arith String Lia.
From Verif Require Import F64 Builders Types PyBind PyFactory SpecPyFactory PyFactoryP.
Import ListNotations.
Local Open Scope string_scope.

(** A call is accepted exactly when it fits the documented parameters: no surplus, unknown,
    repeated or doubly given argument, every argument of the documented kind, and only
    arguments with a default left out. *)
Theorem C87_accepts : forall f c, (exists o, call f c = Ret o) <->
  well_formed (takes f) c /\
  forall i n k, nth_error (takes f) i = Some (n, k) ->
    (exists v, given c i n v /\ fits k v) \/ ((forall v, ~ given c i n v) /\ may_omit f n).
Proof. exact accepts_iff. Qed.
Print Assumptions C87_accepts.

(** The object made by an accepted call shows every argument as it was written. *)
Theorem C87_arguments : forall f c o i n k v, call f c = Ret o ->
  nth_error (takes f) i = Some (n, k) -> given c i n v -> exists w, shows f o n w /\ holds k v w.
Proof. exact shows_given. Qed.
Print Assumptions C87_arguments.

(** An omitted argument has the value of the object that the class makes without arguments. *)
Theorem C87_omitted : forall f c o i n k, call f c = Ret o ->
  nth_error (takes f) i = Some (n, k) -> (forall v, ~ given c i n v) ->
  exists d w, call (defaults_of f) no_arguments = Ret d /\ getattr d n = Some w /\ getattr o n = Some w.
Proof. exact shows_omitted. Qed.
Print Assumptions C87_omitted.
Theorem C87_class_defaults : forall ty, call (class_of ty) no_arguments = Ret (VConfig (py_default_config ty)).
Proof. intros ty. destruct ty; vm_compute; reflexivity. Qed.
Print Assumptions C87_class_defaults.

(** The object can be passed to [optimize] with the solver it belongs to. *)
Theorem C87_usable : forall ty c o, call (function_of ty) c = Ret o \/ call (class_of ty) c = Ret o ->
  exists k cfg, o = VConfig k /\ py_to_config ty k = Some cfg.
Proof. exact function_usable. Qed.
Print Assumptions C87_usable.

(** The two static methods of the trust region radius method return the method they are named
    after, and a trust region configuration made with one of them, by the function or the class,
    hands that method to the solver. *)
Theorem C87_methods : (forall c o, call method_cauchy c = Ret o -> o = VMethod Cauchy) /\
  (forall c o, call method_steihaug c = Ret o -> o = VMethod Steihaug) /\
  (forall f c o i m, f = function_of TrustRegion \/ f = class_of TrustRegion -> call f c = Ret o ->
     nth_error (takes f) i = Some ("trust_region_radius_method", RadiusMethod) ->
     given c i "trust_region_radius_method" (VMethod m) ->
     exists a b d e k, o = VConfig k /\ py_to_config TrustRegion k = Some (CfgTrustRegion m a b d e)).
Proof. exact methods. Qed.
Print Assumptions C87_methods.

(** No call means one thing to the function and another to the class. *)
Theorem C87_agree : forall ty c o o',
  call (function_of ty) c = Ret o -> call (class_of ty) c = Ret o' -> o = o'.
Proof. exact function_class_agree. Qed.
Print Assumptions C87_agree.

(** But they do not accept the same calls. The documented calls without arguments
    ([gs.builders.lbfgs()]) raise TypeError for every solver but COBYLA. *)
Definition C87_documented_full : Prop := forall ty, exists o, call (function_of ty) no_arguments = Ret o.
Theorem C87_documented_refuted : ~ C87_documented_full.
Proof. intros H. specialize (H LBFGS). apply without_arguments in H. discriminate H. Qed.
Print Assumptions C87_documented_refuted.
Theorem C87_documented_partial : forall ty,
  (exists o, call (function_of ty) no_arguments = Ret o) <-> ty = COBYLA.
Proof. exact without_arguments. Qed.
Print Assumptions C87_documented_partial.

Definition C87_same_full : Prop := forall ty c o, call (function_of ty) c = Ret o -> call (class_of ty) c = Ret o.
(** The class wants the line search in a [PyLineSearchParams]. *)
Definition bare_search : pcall := mk_call [] [("max_iter", VInt 5); ("line_search_params", VLineSearch py_mt_default)].
Theorem C87_same_refuted : ~ C87_same_full.
Proof.
  intros H.
  specialize (H SteepestDescent bare_search (VConfig (PySteepestDescent 5 py_mt_default)) eq_refl). discriminate H.
Qed.
Print Assumptions C87_same_refuted.
(** The two orders of the L-BFGS arguments differ: the same positional call. *)
Example C87_positional_example :
  let c := mk_call [VInt 5; VFloat f1; VFloat f1; VInt 3; VParams py_mt_default; VNone] [] in
  call lbfgs c = Ret (VConfig (PyLBFGS 5 f1 f1 3 None py_mt_default)) /\ call cls_LBFGS c = Raise TypeError.
Proof. split; vm_compute; reflexivity. Qed.
(** They agree on every call that gives all arguments by name, with the line search in a
    [PyLineSearchParams]. *)
Theorem C87_same_partial : forall ty c, positional c = [] ->
  (forall i n k, nth_error (takes (class_of ty)) i = Some (n, k) -> exists v, In (n, v) (keyword c)) ->
  (forall l, ~ In ("line_search_params", VLineSearch l) (keyword c)) ->
  forall o, call (function_of ty) c = Ret o <-> call (class_of ty) c = Ret o.
Proof. exact function_class_same. Qed.
Print Assumptions C87_same_partial.

(** Assigning to an attribute changes that attribute to the value written, and no other; it is
    refused exactly when there is no such attribute or the value has another kind. *)
Theorem C87_set : forall o n v o', setattr o n v = Ret o' ->
  exists f k w, type_of o = Some f /\ type_of o' = Some f /\ In (n, k) (takes f) /\ holds k v w /\
    getattr o' n = Some w /\ forall m, m <> n -> getattr o' m = getattr o m.
Proof. exact set_spec. Qed.
Print Assumptions C87_set.
Theorem C87_set_accepts : forall o n v, (exists o', setattr o n v = Ret o') <->
  exists f k, type_of o = Some f /\ In (n, k) (takes f) /\ fits k v.
Proof. exact set_iff. Qed.
Print Assumptions C87_set_accepts.

(** The functions and classes are found under their documented names. *)
Definition function_name (ty : solver_type) : string :=
  match ty with
  | LBFGS => "lbfgs" | NelderMead => "neldermead" | SteepestDescent => "steepestdescent"
  | NewtonCG => "newtoncg" | TrustRegion => "trustregion" | COBYLA => "cobyla"
  end.
Definition class_names (ty : solver_type) : list string :=
  match ty with
  | LBFGS => ["LBFGS"; "PyLBFGS"]
  | NelderMead => ["NelderMead"; "PyNelderMead"; "nelder_mead"]
  | SteepestDescent => ["SteepestDescent"; "PySteepestDescent"]
  | NewtonCG => ["NewtonCG"; "PyNewtonCG"; "newton_cg"]
  | TrustRegion => ["TrustRegion"; "PyTrustRegion"]
  | COBYLA => ["COBYLA"; "PyCOBYLA"]
  end.
Theorem C87_names : forall ty, mod_get (function_name ty) builders_module = Some (function_of ty) /\
  forall s, In s (class_names ty) -> mod_get s builders_module = Some (class_of ty).
Proof.
  intros ty. split; [destruct ty; vm_compute; reflexivity|]. intros s H.
  destruct ty; cbn in H; repeat (destruct H as [<-|H]; [vm_compute; reflexivity|]); destruct H.
Qed.
Print Assumptions C87_names.
Theorem C87_search_names :
  mod_get "hagerzhang" builders_module = Some hagerzhang /\ mod_get "HagerZhang" builders_module = Some cls_HagerZhang /\
  mod_get "morethuente" builders_module = Some morethuente /\ mod_get "MoreThuente" builders_module = Some cls_MoreThuente.
Proof. vm_compute. repeat split. Qed.
Print Assumptions C87_search_names.

(** A call of each sort: L-BFGS with a Hager-Zhang object, mixed positional and named
    arguments, and an integer where a float is wanted. *)
Example C87_example :
  let hz := VLineSearch (PyHagerZhang f0 f1 f1 f1 f1 f1 [f0; f1]) in
  let c := mk_call [VInt 7; VInt 2] [("line_search_params", hz); ("history_size", VInt 4); ("tolerance_cost", VFloat f1)] in
  call lbfgs c = Ret (VConfig (PyLBFGS 7 f2 f1 4 None (PyHagerZhang f0 f1 f1 f1 f1 f1 [f0; f1]))) /\
  call cls_LBFGS c = Raise TypeError /\
  call cls_LBFGS (mk_call [] [("max_iter", VInt (-1))]) = Raise OverflowError /\
  call cls_LBFGS (mk_call [VInt 1] [("max_iter", VInt 1)]) = Raise TypeError /\
  setattr (VConfig (PySteepestDescent 5 py_mt_default)) "max_iter" (VInt 6) = Ret (VConfig (PySteepestDescent 6 py_mt_default)) /\
  setattr (VConfig (PySteepestDescent 5 py_mt_default)) "max_iters" (VInt 6) = Raise AttributeError.
Proof. repeat split; vm_compute; reflexivity. Qed.
(** A full named call meets the hypotheses of [C87_same_partial]. *)
Example C87_same_example : let c := mk_call [] [("line_search_params", VParams py_mt_default); ("max_iter", VInt 5)] in
  call steepestdescent c = Ret (VConfig (PySteepestDescent 5 py_mt_default)) /\
  (forall i n k, nth_error (takes cls_SteepestDescent) i = Some (n, k) -> exists v, In (n, v) (keyword c)) /\
  (forall l, ~ In ("line_search_params", VLineSearch l) (keyword c)).
Proof.
  cbv zeta. split; [reflexivity|]. split.
  - intros [|[|i]] n k H; cbn in H; try (injection H as <- <-; cbn; eauto); destruct i; discriminate.
  - intros l [H|[H|[]]]; discriminate.
Qed.
