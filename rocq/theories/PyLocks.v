(** * Locks and threads of the Python bindings (/repo/python/src/lib.rs 26-38, 56-76, 571-693,
    801-957; /repo/python/src/observers.rs 590-610)

    Three locks: the global interpreter lock (GIL), the mutex around objective calls and the
    mutex of the constraint registry.  Threads are trees: a parallel loop starts a thread for
    each of its tasks and goes on when all of them have ended.  Rayon's pool has fewer
    threads, and a waiting one runs other tasks: fewer orders of the same steps.  What the
    Python and Rust code computes is left out: which calls are made, and in which order, is
    arbitrary.  A call that panics (and poisons its mutex) is not modelled, nor are locks of
    the user's own. *)
From Coq Require Import List Bool Arith.
Import ListNotations.

Inductive lock := Gil | CallMutex | Registry.
(** the Python functions of a problem: the objective, the constraints, and the others (gradient,
    Hessian, bounds, observer callback) *)
Inductive kind := Objective | Constraints | Other.

(** Python code, executed with the GIL held *)
Inductive py :=
| PyEnd
| PyWork (k : py)                          (* anything that needs no lock *)
| PyYield (k : py)                         (* the interpreter lets another thread run *)
| PyOptimize (r : rust) (k : py)           (* a call of optimize *)
(** what [run] does, without the GIL *)
with rust :=
| RsEnd
| RsCall (f : kind) (p : py) (k : rust)    (* call of a Python function with the body p *)
| RsRegister (k : rust)                    (* constraints() *)
| RsParallel (ts : tasks) (k : rust)       (* a parallel loop *)
with tasks :=
| TNil
| TCons (r : rust) (ts : tasks).

(** ** What the calls do with the locks *)
Inductive instr :=
| IAcquire (l : lock)
| IRelease (l : lock)
| IEnter (f : kind)                        (* the Python function begins *)
| IExit (f : kind)                         (* it returns *)
| IWork
| IFork (ts : list (list instr)).          (* run in parallel, wait for all *)

(** [call_code f body]: a call from Rust.
    Objective: lib.rs 571-587, mutex (573), GIL (574), both released at the end, the mutex last.
    Constraints: lib.rs 56-76, registry (58), GIL (61); the functions of the list are one body.
    Others: lib.rs 590, 614, 636 and observers.rs 597, the GIL only. *)
Definition call_code (f : kind) (body : list instr) : list instr :=
  match f with
  | Objective => [IAcquire CallMutex; IAcquire Gil; IEnter f] ++ body ++ [IExit f; IRelease Gil; IRelease CallMutex]
  | Constraints => [IAcquire Registry; IAcquire Gil; IEnter f] ++ body ++ [IExit f; IRelease Gil; IRelease Registry]
  | Other => [IAcquire Gil; IEnter f] ++ body ++ [IExit f; IRelease Gil]
  end.
(** [PyProblem::constraints], lib.rs 661-693: the registry is released (684) before the GIL *)
Definition register_code : list instr :=
  [IAcquire Registry; IAcquire Gil; IRelease Registry; IRelease Gil].
(** [optimize] releases the GIL around [run] (lib.rs 916, 951-957) and takes it again *)
Fixpoint py_code (p : py) : list instr :=
  match p with
  | PyEnd => []
  | PyWork k => IWork :: py_code k
  | PyYield k => IRelease Gil :: IAcquire Gil :: py_code k
  | PyOptimize r k => IRelease Gil :: rust_code r ++ IAcquire Gil :: py_code k
  end
with rust_code (r : rust) : list instr :=
  match r with
  | RsEnd => []
  | RsCall f p k => call_code f (py_code p) ++ rust_code k
  | RsRegister k => register_code ++ rust_code k
  | RsParallel ts k => IFork (tasks_code ts) :: rust_code k
  end
with tasks_code (ts : tasks) : list (list instr) :=
  match ts with
  | TNil => []
  | TCons r ts => rust_code r :: tasks_code ts
  end.
(** a Python thread takes the GIL, runs its code and releases the GIL *)
Definition thread_code (p : py) : list instr := IAcquire Gil :: py_code p ++ [IRelease Gil].

(** ** Execution *)
(** a thread: what it still has to do, and the threads it waits for *)
Inductive thread := Thread (code : list instr) (waits_for : list thread).
Fixpoint ended (t : thread) : bool :=
  match t with Thread c ts => (match c with [] => true | _ => false end) && forallb ended ts end.
(** which locks are taken *)
Record locks := mk_locks { l_gil : bool; l_call : bool; l_registry : bool }.
Definition taken (l : lock) (s : locks) : bool :=
  match l with Gil => l_gil s | CallMutex => l_call s | Registry => l_registry s end.
Definition set_taken (l : lock) (b : bool) (s : locks) : locks :=
  match l with
  | Gil => mk_locks b (l_call s) (l_registry s)
  | CallMutex => mk_locks (l_gil s) b (l_registry s)
  | Registry => mk_locks (l_gil s) (l_call s) b
  end.
(** what can be seen from outside: a Python function begins or returns *)
Inductive event := Enters (f : kind) | Returns (f : kind).

(** one step of the first instruction of a thread; [None]: the thread has to wait *)
Definition do_instr (i : instr) (s : locks) : option (list event * locks * list thread) :=
  match i with
  | IAcquire l => if taken l s then None else Some ([], set_taken l true s, [])
  | IRelease l => Some ([], set_taken l false s, [])
  | IEnter f => Some ([Enters f], s, [])
  | IExit f => Some ([Returns f], s, [])
  | IWork => Some ([], s, [])
  | IFork ts => Some ([], s, map (fun c => Thread c []) ts)
  end.
Fixpoint replace {A} (n : nat) (a : A) (l : list A) : list A :=
  match l, n with
  | [], _ => []
  | _ :: r, O => a :: r
  | b :: r, S n => b :: replace n a r
  end.
(** one step of the thread at a path of the tree *)
Fixpoint step_at (path : list nat) (s : locks) (t : thread) : option (list event * locks * thread) :=
  let '(Thread c ts) := t in
  match path with
  | [] =>
      match c with
      | i :: c' =>
          if forallb ended ts then
            match do_instr i s with
            | Some (e, s', ts') => Some (e, s', Thread c' ts')
            | None => None
            end
          else None
      | [] => None
      end
  | n :: path' =>
      match nth_error ts n with
      | Some k =>
          match step_at path' s k with
          | Some (e, s', k') => Some (e, s', Thread c (replace n k' ts))
          | None => None
          end
      | None => None
      end
  end.
(** a schedule says which thread makes the next step *)
Fixpoint execute (schedule : list (list nat)) (s : locks) (t : thread) : option (list event * locks * thread) :=
  match schedule with
  | [] => Some ([], s, t)
  | p :: rest =>
      match step_at p s t with
      | Some (e, s', t') =>
          match execute rest s' t' with
          | Some (es, s'', t'') => Some (e ++ es, s'', t'')
          | None => None
          end
      | None => None
      end
  end.
(** the Python threads of a program, all ready to start *)
Definition all_free : locks := mk_locks false false false.
Definition program (ps : list py) : thread := Thread [] (map (fun p => Thread (thread_code p) []) ps).
