(** * The constraint registry of the Python bindings (/repo/python/src/lib.rs 21-109, 445-569,
    661-693)

    A Python callable is a function that returns a float or raises ([None]).  A Python list
    or tuple of callables and a single callable (lib.rs 668-679) are both a list here.
    Threads are numbers; a thread that never set it sees problem id 0 (lib.rs 30).
    Wrap-around of the id counter is not modelled.  The function pointers returned by
    [constraints()] are the statics [constraint_fn_0 ... constraint_fn_999], so a pointer is
    the number in its name. *)
From Coq Require Import List Bool Arith.
From Verif Require Import F64 Base.
Import ListNotations.

Definition pyfun := point -> option f64.
(** [PyProblem], lib.rs 464-507: the id and the [constraints] attribute *)
Record pyproblem := mk_pp { pp_id : nat; pp_constraints : option (list pyfun) }.
(** lib.rs 22-33: the id counter, the registry behind its mutex, and the thread-local id *)
Record pyworld := mk_pw {
  pw_counter : nat;
  pw_registry : list (nat * list pyfun);
  pw_poisoned : bool;
  pw_current : nat -> nat }.
(** lib.rs 23-24, 30-32 *)
Definition pw_initial : pyworld := mk_pw 0 [] false (fun _ => 0).

(** [HashMap::get] and [insert] *)
Fixpoint reg_get (id : nat) (r : list (nat * list pyfun)) : option (list pyfun) :=
  match r with
  | [] => None
  | (k, v) :: r' => if k =? id then Some v else reg_get id r'
  end.
Definition reg_insert (id : nat) (l : list pyfun) (r : list (nat * list pyfun)) : list (nat * list pyfun) :=
  (id, l) :: filter (fun kv => negb (fst kv =? id)) r.

(** [PyProblem::new] with get_next_problem_id, lib.rs 43-45, 524-541 *)
Definition py_new (cs : option (list pyfun)) (w : pyworld) : pyproblem * pyworld :=
  (mk_pp (pw_counter w) cs,
   mk_pw (S (pw_counter w)) (pw_registry w) (pw_poisoned w) (pw_current w)).
(** [Clone for PyProblem], lib.rs 509-520 (also what [optimize] receives) *)
Definition py_clone (p : pyproblem) : pyproblem := mk_pp (pp_id p) (pp_constraints p).
(** assignment to the Python attribute [constraints] (pyo3 get, set; lib.rs 493-500) *)
Definition py_assign (cs : option (list pyfun)) (p : pyproblem) : pyproblem := mk_pp (pp_id p) cs.

(** lib.rs 80, [MAX_CONSTRAINTS] *)
Definition max_constraints : nat := 1000.
(** [PyProblem::constraints] on thread [t], lib.rs 661-693 with 92-109 *)
Definition py_constraints (t : nat) (p : pyproblem) (w : pyworld) : outcome unit (list nat) * pyworld :=
  match pp_constraints p with
  | None => (Ok [], w)
  | Some l =>
      if pw_poisoned w then (Panic, w)
      else
        let w' := mk_pw (pw_counter w) (reg_insert (pp_id p) l (pw_registry w)) false
                        (fun u => if u =? t then pp_id p else pw_current w u) in
        if max_constraints <? length l then (Panic, w') else (Ok (seq 0 (length l)), w')
  end.
(** Evaluation of all constraints in order, lib.rs 62-73; [None] is a raised exception or a
    result that is not a float: [expect] panics with the registry mutex held *)
Fixpoint eval_all (l : list pyfun) (x : point) : option (list f64) :=
  match l with
  | [] => Some []
  | f :: r => match f x with
              | None => None
              | Some v => match eval_all r x with None => None | Some vs => Some (v :: vs) end
              end
  end.
(** [constraint_fn_n(x)] called on thread [t], lib.rs 56-89 *)
Definition py_call (t n : nat) (x : point) (w : pyworld) : outcome unit f64 * pyworld :=
  if pw_poisoned w then (Panic, w)
  else
    match reg_get (pw_current w t) (pw_registry w) with
    | None => (Ok f0, w)
    | Some l =>
        match eval_all l x with
        | None => (Panic, mk_pw (pw_counter w) (pw_registry w) true (pw_current w))
        | Some vs => (Ok (nth n vs f0), w)
        end
    end.

(** ** Histories *)
(** What a Python program and the optimizer do with problems, on any thread.  Problem
    objects are numbered in the order in which they come into being. *)
Inductive py_op :=
| PyNew (cs : option (list pyfun))
| PyClone (k : nat)
| PyAssign (k : nat) (cs : option (list pyfun))
| PyFetch (t k : nat)                         (* object k's constraints() on thread t *)
| PyCall (t n : nat) (x : point).             (* the pointer constraint_fn_n on thread t *)

Record py_state := mk_pys { py_objects : list pyproblem; py_world : pyworld }.
Definition py_start : py_state := mk_pys [] pw_initial.
Fixpoint replace_nth {A} (k : nat) (a : A) (l : list A) : list A :=
  match l, k with
  | [], _ => []
  | _ :: r, O => a :: r
  | b :: r, S k' => b :: replace_nth k' a r
  end.
(** an operation on an object that does not exist does nothing *)
Definition py_step (o : py_op) (s : py_state) : py_state :=
  match o with
  | PyNew cs => let '(p, w) := py_new cs (py_world s) in mk_pys (py_objects s ++ [p]) w
  | PyClone k => match nth_error (py_objects s) k with
                 | Some p => mk_pys (py_objects s ++ [py_clone p]) (py_world s)
                 | None => s
                 end
  | PyAssign k cs => match nth_error (py_objects s) k with
                     | Some p => mk_pys (replace_nth k (py_assign cs p) (py_objects s)) (py_world s)
                     | None => s
                     end
  | PyFetch t k => match nth_error (py_objects s) k with
                   | Some p => mk_pys (py_objects s) (snd (py_constraints t p (py_world s)))
                   | None => s
                   end
  | PyCall t n x => mk_pys (py_objects s) (snd (py_call t n x (py_world s)))
  end.
Definition py_run (h : list py_op) (s : py_state) : py_state := fold_left (fun s o => py_step o s) h s.
