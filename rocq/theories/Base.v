(** * Shared definitions: outcomes, the state monad, points, reductions. *)
From Coq Require Import ZArith List Bool.
From Verif Require Import F64.
Import ListNotations.

(** Result of running Rust code: a value, a returned error, or a panic. *)
Inductive outcome (E A : Type) : Type :=
| Ok (a : A)
| Err (e : E)
| Panic.
Arguments Ok {E A} a.
Arguments Err {E A} e.
Arguments Panic {E A}.

(** Computations over a state [S]; the state survives errors (files already written,
    events already observed). *)
Definition M (S E A : Type) : Type := S -> outcome E A * S.
Definition ret {S E A} (a : A) : M S E A := fun s => (Ok a, s).
Definition fail {S E A} (e : E) : M S E A := fun s => (Err e, s).
Definition panic {S E A} : M S E A := fun s => (Panic, s).
Definition bind {S E A B} (m : M S E A) (f : A -> M S E B) : M S E B :=
  fun s => match m s with
           | (Ok a, s') => f a s'
           | (Err e, s') => (Err e, s')
           | (Panic, s') => (Panic, s')
           end.
Definition get {S E} : M S E S := fun s => (Ok s, s).
Definition modify {S E} (f : S -> S) : M S E unit := fun s => (Ok tt, f s).
Definition when {S E} (b : bool) (m : M S E unit) : M S E unit := if b then m else ret tt.
(** [opt.expect()] / array indexing: [None] is a panic. *)
Definition unwrap {S E A} (o : option A) : M S E A :=
  match o with Some a => ret a | None => panic end.
Definition of_result {S E A} (r : outcome E A) : M S E A := fun s => (r, s).
Fixpoint for_each {S E A} (l : list A) (f : A -> M S E unit) : M S E unit :=
  match l with
  | [] => ret tt
  | x :: r => bind (f x) (fun _ => for_each r f)
  end.

Declare Scope monad_scope.
Delimit Scope monad_scope with monad.
Notation "x <- m ;; k" := (bind m (fun x => k))
  (at level 61, m at next level, right associativity) : monad_scope.
Notation "m ;;; k" := (bind m (fun _ => k))
  (at level 61, right associativity) : monad_scope.

(** ** Points: [ndarray::Array1<f64>] as lists *)
Definition point := list f64.

(** Elementwise binary operation.  ndarray panics on different lengths (and broadcasts
    length 1); the model truncates like [zip], and every theorem about runs shows or
    assumes that the lengths agree. *)
Fixpoint map2 {A B C} (f : A -> B -> C) (l : list A) (r : list B) : list C :=
  match l, r with
  | a :: l', b :: r' => f a b :: map2 f l' r'
  | _, _ => []
  end.
Definition padd : point -> point -> point := map2 fadd.
Definition psub : point -> point -> point := map2 fsub.
Definition pscale (a : f64) (p : point) : point := map (fun x => fmul x a) p.
Definition pdiv (p : point) (a : f64) : point := map (fun x => fdiv x a) p.

(** ndarray 0.16 [numeric_util::unrolled_dot] on equal-length slices (used by
    [Array1::dot] without BLAS): eight running sums over blocks of eight, combined as
    0 + (p0+p4) + (p1+p5) + (p2+p6) + (p3+p7), then the remaining elements in order.
    Here the two arguments are always the same vector, so the input is the list of squares. *)
Record acc8 := mk8 { q0 : f64; q1 : f64; q2 : f64; q3 : f64; q4 : f64; q5 : f64; q6 : f64; q7 : f64 }.
Definition acc0 : acc8 := mk8 f0 f0 f0 f0 f0 f0 f0 f0.
Definition fold8 (a : acc8) : f64 :=
  fadd (fadd (fadd (fadd f0 (fadd (q0 a) (q4 a))) (fadd (q1 a) (q5 a)))
             (fadd (q2 a) (q6 a))) (fadd (q3 a) (q7 a)).
Fixpoint dot_go (a : acc8) (l : list f64) : f64 :=
  match l with
  | x0 :: x1 :: x2 :: x3 :: x4 :: x5 :: x6 :: x7 :: r =>
      dot_go (mk8 (fadd (q0 a) x0) (fadd (q1 a) x1) (fadd (q2 a) x2) (fadd (q3 a) x3)
                  (fadd (q4 a) x4) (fadd (q5 a) x5) (fadd (q6 a) x6) (fadd (q7 a) x7)) r
  | _ => fold_left fadd l (fold8 a)
  end.
(** [euclidean_distance_squared]: filters.rs 249-252, scatter_search.rs 891-894,
    and the inlined copy in oqnlp.rs 1175-1176. *)
Definition dist2 (a b : point) : f64 := dot_go acc0 (map (fun x => fmul x x) (psub a b)).

(** ** Order-based reductions of [std::iter] *)
(** [Iterator::min_by]: keeps the first of equal minima. *)
Definition pick_min {A} (cmp : A -> A -> comparison) (x y : A) : A :=
  match cmp x y with Gt => y | _ => x end.
(** [Iterator::max_by]: keeps the last of equal maxima. *)
Definition pick_max {A} (cmp : A -> A -> comparison) (x y : A) : A :=
  match cmp x y with Gt => x | _ => y end.
Definition reduce {A} (op : A -> A -> A) (l : list A) : option A :=
  match l with [] => None | x :: r => Some (fold_left op r x) end.
Definition min_by {A} (cmp : A -> A -> comparison) (l : list A) : option A := reduce (pick_min cmp) l.
Definition max_by {A} (cmp : A -> A -> comparison) (l : list A) : option A := reduce (pick_max cmp) l.

Fixpoint enumerate_from {A} (n : nat) (l : list A) : list (nat * A) :=
  match l with [] => [] | x :: r => (n, x) :: enumerate_from (S n) r end.
Definition enumerate {A} (l : list A) : list (nat * A) := enumerate_from 0 l.

(** ** rayon reductions: the runtime splits the work along an arbitrary binary tree *)
Inductive stree : Type :=
| SLeaf                              (* this segment is folded sequentially *)
| SNode (k : nat) (l r : stree).     (* split at position k, reduce both sides, combine *)
Fixpoint tree_reduce {A B} (leaf : list A -> B) (op : B -> B -> B) (t : stree) (l : list A) : B :=
  match t with
  | SLeaf => leaf l
  | SNode k a b => op (tree_reduce leaf op a (firstn k l)) (tree_reduce leaf op b (skipn k l))
  end.
(** rayon's [reduce_with] (and [min_by]/[max_by], built on it). *)
Definition opt_op {A} (op : A -> A -> A) (x y : option A) : option A :=
  match x, y with
  | Some a, Some b => Some (op a b)
  | Some a, None => Some a
  | None, b => b
  end.
Definition tree_reduce_with {A} (op : A -> A -> A) (t : stree) (l : list A) : option A :=
  tree_reduce (reduce op) (opt_op op) t l.
(** rayon's [sum::<f64>()] and std's [sum]. *)
Definition fsum (l : list f64) : f64 := fold_left fadd l f0.
Definition tree_sum (t : stree) (l : list f64) : f64 := tree_reduce fsum fadd t l.

(** [Vec::swap_remove(i)]: returns the element, moves the last one into its place.
    [None] models the out-of-range panic. *)
Definition swap_remove {A} (i : nat) (l : list A) : option (A * list A) :=
  match nth_error l i, rev l with
  | Some x, last :: _ =>
      let n := length l in
      if Nat.eqb i (n - 1) then Some (x, firstn i l)
      else Some (x, firstn i l ++ last :: firstn (n - 2 - i) (skipn (S i) l))
  | _, _ => None
  end.
