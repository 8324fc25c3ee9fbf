(** * Python observers as Python code uses them (/repo/python/src/observers.rs, lib.rs)

    The objects, attributes and methods of the module [pyglobalsearch.observers], a small part of
    Python to use them with, and the calls of a Python callback during [optimize]. *)
From Coq Require Import ZArith NArith List Bool Arith String.
From Verif Require Import F64 Base Builders Types Filters Runner Observer Env ScatterSearch Codec Checkpoint Oqnlp PyBind.
Import ListNotations.
Local Open Scope monad_scope.
Local Open Scope string_scope.

(** ** Python *)
(** Python values.  Integers that Rust code returns are not negative.  [VObs] is a reference to an
    observer object, [VMethod] one of its methods, [VFun] a function of the user, by number.
    Simplification: other Python values are left out. *)
Inductive val :=
| VNone | VBool (b : bool) | VInt (n : nat) | VFloat (v : f64) | VStr (s : string) | VFloats (l : list f64)
| VMode (m : obs_mode) | VFun (n : nat) | VS1 (s : stage1) | VS2 (s : stage2) | VObs (i : nat) | VMethod (i : nat) (m : string).
(** Exceptions. [ValueError] carries the cause. *)
Inductive exc := AttributeError | TypeError | RuntimeError | NameError | ValueError (e : py_error).
(** An observer object: its content (python observers.rs 303-308) and the number of [&PyObserver]
    borrows that PyO3 holds for running calls. *)
Record cell := mk_cell { c_obj : py_observer; c_borrows : nat }.
(** The objects created so far and what was printed, latest first. *)
Record py_state := mk_ps { ps_cells : list cell; ps_out : list val }.
Definition PM (A : Type) := M py_state exc A.
Definition of_opt {A} (f : A -> val) (o : option A) : val := match o with Some a => f a | None => VNone end.

(** The readings of the wall clock are arbitrary: what [total_time] and [elapsed_time] return. *)
Record clock := mk_clock { ck_1 : stage1 -> option f64; ck_2 : stage2 -> option f64; ck_elapsed : py_observer -> option f64 }.

(** ** Attributes *)
(** [PyStage1State], python observers.rs 38-106 (all are getters) *)
Definition attr_s1 (ck : clock) (s : stage1) (a : string) : option val :=
  if a =? "reference_set_size" then Some (VInt (s1_ref_size s))
  else if a =? "best_objective" then Some (VFloat (s1_best s))
  else if a =? "current_substage" then Some (VStr (s1_substage s))
  else if a =? "total_time" then Some (of_opt VFloat (ck_1 ck s))
  else if a =? "function_evaluations" then Some (VInt (s1_evals s))
  else if a =? "trial_points_generated" then Some (VInt (s1_trials s))
  else if a =? "best_point" then Some (of_opt VFloats (s1_best_point s))
  else None.
(** [PyStage2State], python observers.rs 149-259 *)
Definition attr_s2 (ck : clock) (s : stage2) (a : string) : option val :=
  if a =? "best_objective" then Some (VFloat (s2_best s))
  else if a =? "solution_set_size" then Some (VInt (s2_set_size s))
  else if a =? "current_iteration" then Some (VInt (s2_iteration s))
  else if a =? "threshold_value" then Some (VFloat (s2_threshold s))
  else if a =? "local_solver_calls" then Some (VInt (s2_calls s))
  else if a =? "improved_local_calls" then Some (VInt (s2_improved s))
  else if a =? "function_evaluations" then Some (VInt (s2_evals s))
  else if a =? "unchanged_cycles" then Some (VInt (s2_unchanged s))
  else if a =? "total_time" then Some (of_opt VFloat (ck_2 ck s))
  else if a =? "best_point" then Some (of_opt VFloats (s2_best_point s))
  else if a =? "last_added_point" then Some (of_opt VFloats (s2_last_added s))
  else None.
(** the methods of [PyObserver] that take no argument and change it, python observers.rs 331-368, 429-480 *)
Definition setter0 (m : string) : option pob_call :=
  if m =? "with_stage1_tracking" then Some PobStage1
  else if m =? "with_stage2_tracking" then Some PobStage2
  else if m =? "with_timing" then Some PobTiming
  else if m =? "with_default_callback" then Some PobDefault
  else if m =? "with_stage1_callback" then Some PobStage1Cb
  else if m =? "with_stage2_callback" then Some PobStage2Cb
  else if m =? "unique_updates" then Some PobUnique
  else None.
(** the methods with one argument, python observers.rs 378-422; the outer [None]: no such method,
    the inner [None]: the argument has the wrong type.  Simplification: [with_callback] takes any
    object; here only a function. *)
Definition setter1 (m : string) (v : val) : option (option pob_call) :=
  if m =? "with_mode" then Some (match v with VMode x => Some (PobMode x) | _ => None end)
  else if m =? "with_callback_frequency" then Some (match v with VInt n => Some (PobFrequency n) | VBool b => Some (PobFrequency (if b then 1 else 0)) | _ => None end)
  else if m =? "with_callback" then Some (match v with VFun n => Some (PobCallback n) | _ => None end)
  else None.
(** the methods that look, python observers.rs 489-511 *)
Definition reader (m : string) (p : py_observer) : option val :=
  if m =? "stage1" then Some (of_opt VS1 (obs_stage1 (po_inner p)))
  else if m =? "stage1_final" then Some (of_opt VS1 (obs_stage1_final (po_inner p)))
  else if m =? "stage2" then Some (of_opt VS2 (obs_stage2 (po_inner p)))
  else None.
Definition is_some {A} (o : option A) : bool := match o with Some _ => true | None => false end.
Definition is_method (m : string) : bool :=
  is_some (setter0 m) || is_some (setter1 m VNone) || is_some (reader m pob_new).
(** [PyObserver]: the getters of python observers.rs 517-544, and its methods *)
Definition attr_obs (ck : clock) (i : nat) (p : py_observer) (a : string) : option val :=
  if a =? "should_observe_stage1" then Some (VBool (should_observe_stage1 (po_inner p)))
  else if a =? "should_observe_stage2" then Some (VBool (should_observe_stage2 (po_inner p)))
  else if a =? "is_timing_enabled" then Some (VBool (ob_timing (po_inner p)))
  else if a =? "elapsed_time" then Some (of_opt VFloat (ck_elapsed ck p))
  else if is_method a then Some (VMethod i a)
  else None.

(** ** Objects *)
Definition cell_at (i : nat) : PM cell :=
  fun s => match nth_error (ps_cells s) i with Some c => (Ok c, s) | None => (Err NameError, s) end.
Fixpoint put {A} (i : nat) (a : A) (l : list A) : list A :=
  match l, i with
  | [], _ => []
  | _ :: r, O => a :: r
  | b :: r, S i => b :: put i a r
  end.
Definition store (i : nat) (c : cell) : PM unit := modify (fun s => mk_ps (put i c (ps_cells s)) (ps_out s)).
(** A [&mut self] method needs the object for itself: while a call holds a borrow, PyO3 raises
    RuntimeError ("Already borrowed"); no method returns anything (python observers.rs 331-480) *)
Definition change (i : nat) (k : pob_call) : PM val :=
  c <- cell_at i ;;
  if Nat.eqb (c_borrows c) 0 then store i (mk_cell (pob_apply (c_obj c) k) 0) ;;; ret VNone else fail RuntimeError.
(** calling a value without and with one argument; calling something that cannot be called, or with
    the wrong number of arguments, raises TypeError *)
Definition call0 (f : val) : PM val :=
  match f with
  | VMethod i m =>
      match setter0 m with
      | Some k => change i k
      | None => c <- cell_at i ;; match reader m (c_obj c) with Some v => ret v | None => fail TypeError end
      end
  | _ => fail TypeError
  end.
Definition call1 (f a : val) : PM val :=
  match f with
  | VMethod i m =>
      match setter1 m a with
      | Some (Some k) => change i k
      | _ => fail TypeError
      end
  | _ => fail TypeError
  end.
Definition attribute (ck : clock) (v : val) (a : string) : PM val :=
  match v with
  | VS1 s => match attr_s1 ck s a with Some w => ret w | None => fail AttributeError end
  | VS2 s => match attr_s2 ck s a with Some w => ret w | None => fail AttributeError end
  | VObs i => c <- cell_at i ;; match attr_obs ck i (c_obj c) a with Some w => ret w | None => fail AttributeError end
  | _ => fail AttributeError
  end.
(** [if v:] *)
Definition truthy (v : val) : bool :=
  match v with
  | VNone => false
  | VBool b => b
  | VInt n => negb (Nat.eqb n 0)
  | VFloat x => negb (feq x f0)
  | VStr s => negb (s =? "")
  | VFloats l => negb (Nat.eqb (List.length l) 0)
  | _ => true
  end.

(** ** Expressions *)
(** [EVar]: the variables of the function or program, latest first; [EAdd]: [+] on integers *)
Inductive expr :=
| EVal (v : val) | EVar (n : nat) | ENew | EAttr (e : expr) (a : string) | ECall0 (e : expr) | ECall1 (e a : expr)
| EAdd (a b : expr) | EPrint (e : expr) | EIf (c e : expr) | ESeq (a b : expr).
(** Python evaluates from left to right and stops at an exception.  [Observer()] is
    python observers.rs 316-319. *)
Fixpoint eval (ck : clock) (vars : list val) (e : expr) : PM val :=
  match e with
  | EVal v => ret v
  | EVar n => match nth_error vars n with Some v => ret v | None => fail NameError end
  | ENew => fun s => (Ok (VObs (List.length (ps_cells s))), mk_ps (ps_cells s ++ [mk_cell pob_new 0]) (ps_out s))
  | EAttr e a => v <- eval ck vars e ;; attribute ck v a
  | ECall0 e => f <- eval ck vars e ;; call0 f
  | ECall1 e a => f <- eval ck vars e ;; v <- eval ck vars a ;; call1 f v
  | EAdd a b =>
      v <- eval ck vars a ;; w <- eval ck vars b ;;
      match v, w with VInt n, VInt m => ret (VInt (n + m)) | _, _ => fail TypeError end
  | EPrint e => v <- eval ck vars e ;; modify (fun s => mk_ps (ps_cells s) (v :: ps_out s)) ;;; ret VNone
  | EIf c e => v <- eval ck vars c ;; if truthy v then eval ck vars e else ret VNone
  | ESeq a b => eval ck vars a ;;; eval ck vars b
  end.
(** A function of the user: number of parameters, and body (the first parameter is [EVar 0]) *)
Record py_fun := mk_fun { fn_arity : nat; fn_body : expr }.

(** ** optimize *)
(** python observers.rs 591-609: the callable gets copies of the two states; an exception is dropped *)
Definition call_back (ck : clock) (funs : nat -> py_fun) (ob : observer) : PM unit :=
  fun s =>
    match ob_callback ob with
    | Some (CbUser n) =>
        let args := [of_opt VS1 (obs_stage1 ob); of_opt VS2 (obs_stage2 ob)] in
        if Nat.eqb (fn_arity (funs n)) 2 then
          match eval ck args (fn_body (funs n)) s with
          | (_, s') => (Ok tt, s')
          end
        else (Ok tt, s)
    | _ => (Ok tt, s)
    end.
(** the observers with which callbacks were called in a run, in order of time *)
Definition callback_moments (l : list event) : list observer :=
  flat_map (fun e => match e with EvCallback _ ob | EvStage1 (SsCallback ob) => [ob] | _ => [] end) (rev l).
Definition with_observer (p : py_observer) (a : py_args) : py_args :=
  mk_pa (pa_iterations a) (pa_population a) (pa_wait_cycle a) (pa_threshold_factor a) (pa_distance_factor a)
    (pa_abs_tol a) (pa_rel_tol a) (Some p) (pa_solver a) (pa_config a) (pa_seed a) (pa_target a) (pa_max_time a)
    (pa_exclude a) (pa_parallel a) (pa_points a).
(** the record of the run that a call of [optimize] makes, lib.rs 801-956 *)
Definition py_record (E : env) (a : py_args) : list event :=
  match py_build E a with
  | Ok o => w_trace (s_w (snd (run E (mk_st o py_world))))
  | _ => []
  end.
(** [optimize(..., observer=o)], lib.rs 801-983: PyO3 holds the borrow of the object for the whole call, the
    callbacks of the run are called, and after a successful run the object gets the final observer.
    Simplification: the run and the effects of the callbacks on Python objects are computed one after
    the other; a callback has only copies of the states, so neither depends on the other. *)
Definition optimize_with (ck : clock) (funs : nat -> py_fun) (E : env) (a : py_args) (i : nat) : PM (list lsol) :=
  c <- cell_at i ;;
  let a := with_observer (c_obj c) a in
  store i (mk_cell (c_obj c) (S (c_borrows c))) ;;;
  for_each (callback_moments (py_record E a)) (call_back ck funs) ;;;
  match py_optimize E a with
  | (r, p) =>
      c' <- cell_at i ;;
      store i (mk_cell (match p with Some p => p | None => c_obj c' end) (c_borrows c)) ;;;
      match r with Ok l => ret l | Err e => fail (ValueError e) | Panic => panic end
  end.
