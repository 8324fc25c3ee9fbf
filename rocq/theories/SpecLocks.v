(** * Vocabulary for C76 and C77 *)
From Coq Require Import List Bool Arith.
From Verif Require Import PyLocks.
Import ListNotations.

(** Python code in which no call of [optimize] occurs *)
Fixpoint no_optimize (p : py) : Prop :=
  match p with
  | PyEnd => True
  | PyWork k | PyYield k => no_optimize k
  | PyOptimize _ _ => False
  end.
(** objectives and constraints do not call [optimize] (gradients, Hessians, bounds, callbacks
    and the program itself may) *)
Fixpoint plain_py (p : py) : Prop :=
  match p with
  | PyEnd => True
  | PyWork k | PyYield k => plain_py k
  | PyOptimize r k => plain_rust r /\ plain_py k
  end
with plain_rust (r : rust) : Prop :=
  match r with
  | RsEnd => True
  | RsCall f p k => match f with Other => plain_py p | _ => no_optimize p end /\ plain_rust k
  | RsRegister k => plain_rust k
  | RsParallel ts k => plain_tasks ts /\ plain_rust k
  end
with plain_tasks (ts : tasks) : Prop :=
  match ts with
  | TNil => True
  | TCons r ts => plain_rust r /\ plain_tasks ts
  end.

(** some thread can make a step *)
Definition can_move (s : locks) (t : thread) : Prop :=
  exists path e s' t', step_at path s t = Some (e, s', t').
(** how many functions of a kind have begun and not returned *)
Definition is_enter (f : kind) (e : event) : bool :=
  match e, f with
  | Enters Objective, Objective | Enters Constraints, Constraints | Enters Other, Other => true
  | _, _ => false
  end.
Definition is_return (f : kind) (e : event) : bool :=
  match e, f with
  | Returns Objective, Objective | Returns Constraints, Constraints | Returns Other, Other => true
  | _, _ => false
  end.
Definition begun_calls (f : kind) (es : list event) : nat := length (filter (is_enter f) es).
Definition returned_calls (f : kind) (es : list event) : nat := length (filter (is_return f) es).
