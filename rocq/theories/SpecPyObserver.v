(** * What the documentation says about Python observers (C91, C92) *)
From Coq Require Import ZArith NArith List Bool Arith String.
From Verif Require Import F64 Base Builders Types Filters Observer Env ScatterSearch Codec Checkpoint Oqnlp PyBind PyObserver.
Import ListNotations.
Local Open Scope string_scope.

Fixpoint assoc {A} (k : string) (l : list (string * A)) : option A :=
  match l with [] => None | (x, a) :: r => if k =? x then Some a else assoc k r end.
Definition none_or {A} (f : A -> val) (o : option A) : val := match o with Some a => f a | None => VNone end.
(** ** The attributes of the states, pyglobalsearch.pyi 1219-1238 and 1254-1285 *)
Definition doc_stage1 (ck : clock) (s : stage1) : list (string * val) :=
  [("reference_set_size", VInt (s1_ref_size s)); ("best_objective", VFloat (s1_best s)); ("current_substage", VStr (s1_substage s));
   ("total_time", none_or VFloat (ck_1 ck s)); ("function_evaluations", VInt (s1_evals s)); ("trial_points_generated", VInt (s1_trials s));
   ("best_point", none_or VFloats (s1_best_point s))].
Definition doc_stage2 (ck : clock) (s : stage2) : list (string * val) :=
  [("best_objective", VFloat (s2_best s)); ("solution_set_size", VInt (s2_set_size s)); ("current_iteration", VInt (s2_iteration s));
   ("threshold_value", VFloat (s2_threshold s)); ("local_solver_calls", VInt (s2_calls s)); ("improved_local_calls", VInt (s2_improved s));
   ("function_evaluations", VInt (s2_evals s)); ("unchanged_cycles", VInt (s2_unchanged s)); ("total_time", none_or VFloat (ck_2 ck s));
   ("best_point", none_or VFloats (s2_best_point s)); ("last_added_point", none_or VFloats (s2_last_added s))].
(** the properties of an observer, pyglobalsearch.pyi 1333-1359 *)
Definition doc_properties (ck : clock) (p : py_observer) : list (string * val) :=
  [("should_observe_stage1", VBool (should_observe_stage1 (po_inner p))); ("should_observe_stage2", VBool (should_observe_stage2 (po_inner p)));
   ("is_timing_enabled", VBool (ob_timing (po_inner p))); ("elapsed_time", none_or VFloat (ck_elapsed ck p))].
(** the methods that look at the states, pyglobalsearch.pyi 1508-1536 *)
Definition doc_readers (p : py_observer) : list (string * val) :=
  [("stage1", none_or VS1 (obs_stage1 (po_inner p))); ("stage1_final", none_or VS1 (obs_stage1_final (po_inner p)));
   ("stage2", none_or VS2 (obs_stage2 (po_inner p)))].
(** the methods that configure it, pyglobalsearch.pyi 1370-1506, with their arguments *)
Inductive doc_config : string -> list val -> pob_call -> Prop :=
| DocStage1 : doc_config "with_stage1_tracking" [] PobStage1
| DocStage2 : doc_config "with_stage2_tracking" [] PobStage2
| DocTiming : doc_config "with_timing" [] PobTiming
| DocMode : forall m, doc_config "with_mode" [VMode m] (PobMode m)
| DocFrequency : forall n, doc_config "with_callback_frequency" [VInt n] (PobFrequency n)
| DocCallback : forall f, doc_config "with_callback" [VFun f] (PobCallback f)
| DocDefault : doc_config "with_default_callback" [] PobDefault
| DocStage1Cb : doc_config "with_stage1_callback" [] PobStage1Cb
| DocStage2Cb : doc_config "with_stage2_callback" [] PobStage2Cb
| DocUnique : doc_config "unique_updates" [] PobUnique.
(** [o.m(args)] *)
Definition method_call (o : expr) (m : string) (args : list val) : expr :=
  match args with [] => ECall0 (EAttr o m) | a :: _ => ECall1 (EAttr o m) (EVal a) end.
(** every method of an observer in pyglobalsearch.pyi *)
Definition stub_methods : list string :=
  ["with_stage1_tracking"; "with_stage2_tracking"; "with_timing"; "with_mode"; "with_callback_frequency"; "with_callback";
   "with_default_callback"; "with_stage1_callback"; "with_stage2_callback"; "unique_updates"; "stage1"; "stage1_final"; "stage2"; "flush_messages"].

(** ** Documented programs *)
(** lib.rs 745: Observer().with_stage1_tracking().with_stage2_tracking().with_default_callback() *)
Definition doc_chain : expr :=
  ECall0 (EAttr (ECall0 (EAttr (ECall0 (EAttr ENew "with_stage1_tracking")) "with_stage2_tracking")) "with_default_callback").
(** pyglobalsearch.pyi 1442-1447: the callback of [with_callback] *)
Definition stub_callback : py_fun :=
  mk_fun 2 (ESeq (EIf (EVar 0) (EPrint (EAttr (EVar 0) "function_evaluations")))
                 (EIf (EVar 1) (EPrint (EAttr (EVar 1) "current_iteration")))).
(** python observers.rs 410-417: the same in the documentation of the Rust source *)
Definition source_callback : py_fun :=
  mk_fun 2 (ESeq (EIf (EVar 0) (EPrint (ECall0 (EAttr (EVar 0) "function_evaluations"))))
                 (EIf (EVar 1) (EPrint (ECall0 (EAttr (EVar 1) "current_iteration"))))).
(** pyglobalsearch.pyi 1318-1323: the callback of the class [PyObserver] *)
Definition class_callback : py_fun :=
  mk_fun 1 (ESeq (EIf (ECall0 (EAttr (EVar 0) "stage1")) (EPrint (EAttr (ECall0 (EAttr (EVar 0) "stage1")) "best_objective")))
                 (EIf (ECall0 (EAttr (EVar 0) "stage2")) (EPrint (EAttr (ECall0 (EAttr (EVar 0) "stage2")) "current_iteration")))).
(** pyglobalsearch.pyi 1327-1330: the total number of evaluations *)
Definition doc_statistics (i : nat) : expr :=
  EAdd (EAttr (ECall0 (EAttr (EVal (VObs i)) "stage1_final")) "function_evaluations")
       (EAttr (ECall0 (EAttr (EVal (VObs i)) "stage2")) "function_evaluations").
(** what such a callback is to print when it is called *)
Definition doc_print (ob : observer) : list val :=
  (match obs_stage1 ob with Some s => [VInt (s1_evals s)] | None => [] end) ++
  (match obs_stage2 ob with Some s => [VInt (s2_iteration s)] | None => [] end).
Definition class_print (ob : observer) : list val :=
  (match obs_stage1 ob with Some s => [VFloat (s1_best s)] | None => [] end) ++
  (match obs_stage2 ob with Some s => [VInt (s2_iteration s)] | None => [] end).

(** ** Runs *)
(** [optimize] is about to be called with the observer object [i], which is [p] *)
Definition object_is (s : py_state) (i : nat) (p : py_observer) : Prop := nth_error (ps_cells s) i = Some (mk_cell p 0).
(** the arguments [b] are [a] with the observer [p], all others being the same *)
Definition given_observer (p : py_observer) (a b : py_args) : Prop :=
  pa_observer b = Some p /\
  pa_iterations b = pa_iterations a /\ pa_population b = pa_population a /\ pa_wait_cycle b = pa_wait_cycle a /\
  pa_threshold_factor b = pa_threshold_factor a /\ pa_distance_factor b = pa_distance_factor a /\
  pa_abs_tol b = pa_abs_tol a /\ pa_rel_tol b = pa_rel_tol a /\ pa_solver b = pa_solver a /\ pa_config b = pa_config a /\
  pa_seed b = pa_seed a /\ pa_target b = pa_target a /\ pa_max_time b = pa_max_time a /\ pa_exclude b = pa_exclude a /\
  pa_parallel b = pa_parallel a /\ pa_points b = pa_points a.
(** the moments at which the run calls a callback *)
Definition moments (E : env) (a : py_args) (p : py_observer) : list observer := callback_moments (py_record E (with_observer p a)).
(** the Python objects when the [k]-th callback (from 0) is called *)
Definition at_callback (ck : clock) (funs : nat -> py_fun) (E : env) (a : py_args) (i : nat) (p : py_observer) (s : py_state) (k : nat) : py_state :=
  snd (for_each (firstn k (moments E a p)) (call_back ck funs) (mk_ps (put i (mk_cell p 1) (ps_cells s)) (ps_out s))).
(** what was printed to the console by built-in callbacks *)
Definition logged_lines (l : list event) : list msg :=
  flat_map (fun e => match e with EvPrint m | EvStage1 (SsPrint m) => [m] | _ => [] end) l.
