(** * What a history of Python operations says about the problems in it

    Written from the operations alone, without the registry, the ids or the threads'
    state of PyRegistry.v. *)
From Coq Require Import List Bool Arith.
From Verif Require Import F64 Base PyRegistry.
Import ListNotations.

(** The problem objects of a history: each one's origin (the number of the object created by
    [PyProblem(...)] that it is, or is a copy of) and its [constraints] attribute *)
Definition track_step (o : py_op) (l : list (nat * option (list pyfun))) : list (nat * option (list pyfun)) :=
  match o with
  | PyNew cs => l ++ [(length l, cs)]
  | PyClone k => match nth_error l k with Some p => l ++ [p] | None => l end
  | PyAssign k cs => match nth_error l k with
                     | Some (o, _) => replace_nth k (o, cs) l
                     | None => l
                     end
  | PyFetch _ _ | PyCall _ _ _ => l
  end.
Definition track (h : list py_op) : list (nat * option (list pyfun)) :=
  fold_left (fun l o => track_step o l) h [].

(** what [constraints()] of object [k] returns on thread [t] after the history [h] *)
Definition fetched (h : list py_op) (t k : nat) : outcome unit (list nat) :=
  match nth_error (py_objects (py_run h py_start)) k with
  | Some p => fst (py_constraints t p (py_world (py_run h py_start)))
  | None => Panic
  end.
(** what the function pointer [n] returns for [x] on thread [t] after the history [h] *)
Definition called (h : list py_op) (t n : nat) (x : point) : outcome unit f64 :=
  fst (py_call t n x (py_world (py_run h py_start))).
(** no call of a constraint function in [h] panicked *)
Definition no_call_panicked (h : list py_op) : Prop :=
  forall a t n x b, h = a ++ PyCall t n x :: b -> called a t n x <> Panic.
(** [h2], following [h1], fetches no constraints of another problem on thread [t], and
    fetches on no thread a copy of the problem [o] whose attribute is not [cs] *)
Definition undisturbed (h1 h2 : list py_op) (t o : nat) (cs : list pyfun) : Prop :=
  forall a t' k' b o' cs', h2 = a ++ PyFetch t' k' :: b ->
  nth_error (track (h1 ++ a)) k' = Some (o', Some cs') ->
  (t' = t -> o' = o) /\ (o' = o -> cs' = cs).
