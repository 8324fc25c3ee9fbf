(** * Vocabulary of the Stage 1 properties (C08-C21)

    Only data types, the floating point operations and the squared distance of the model
    are used here. *)
From Coq Require Import ZArith NArith List Bool Arith Permutation.
From Verif Require Import F64 Base Builders Types Runner Observer Env ScatterSearch Spec.
Import ListNotations.

(** ** How a [ScatterSearch] is obtained through the API *)
Inductive built (E : env) (p : params) : ss -> Prop :=
| built_new : forall ctx s, ss_new E p ctx = Ok s -> built E p s
| built_parallel : forall b s, built E p s -> built E p (ss_set_parallel b s)
| built_observer : forall o s, built E p s -> built E p (ss_set_observer o s)
| built_custom : forall c s, built E p s -> built E p (ss_set_custom c s).
Definition custom_points (s : ss) : list point := match ss_custom s with Some c => c | None => [] end.

(** ** Bounds *)
(** canonical f64 bounds, finite, neither the width nor the sum overflowing *)
Definition tame_bound (b : f64 * f64) : Prop :=
  wf (fst b) = true /\ wf (snd b) = true /\ is_finite (fst b) = true /\ is_finite (snd b) = true /\
  is_finite (fsub (snd b) (fst b)) = true /\ is_finite (fadd (fst b) (snd b)) = true.
(** finite bounds of finite width *)
Definition finite_bound (b : f64 * f64) : Prop :=
  wf (fst b) = true /\ wf (snd b) = true /\ is_finite (fst b) = true /\ is_finite (snd b) = true /\
  is_finite (fsub (snd b) (fst b)) = true.
Definition canonical (p : point) : Prop := Forall (fun x => wf x = true) p.
(** right dimension, and every coordinate is NaN or inside its bounds *)
Definition in_box_or_nan (b : list (f64 * f64)) (p : point) : Prop :=
  Forall2 (fun b x => is_nan x = true \/ inside b x) b p.
(** the corners and the centre of the box *)
Definition lower_corner (b : list (f64 * f64)) : point := map fst b.
Definition upper_corner (b : list (f64 * f64)) : point := map snd b.
Definition centre (b : list (f64 * f64)) : point := map (fun lh => fdiv (fadd (fst lh) (snd lh)) f2) b.

(** ** Constraints *)
Definition feasible (P : problem) (p : point) : Prop :=
  forall g, In g (pb_constraints P) -> flt (g p) f0 = false.
Definition feasibleb (P : problem) (p : point) : bool := forallb (fun g => negb (flt (g p) f0)) (pb_constraints P).
(** the feasible ones among the corners, the centre and the custom points *)
Definition starting_points (P : problem) (custom : list point) : list point :=
  filter (feasibleb P) ([lower_corner (pb_bounds P); upper_corner (pb_bounds P); centre (pb_bounds P)] ++ custom).

(** ** Distances *)
(** [m] is the least of [ds], NaN ignored; infinity if there is nothing to compare *)
Definition least (ds : list f64) (m : f64) : Prop :=
  is_nan m = false /\ (m = pinf \/ In m ds) /\ forall d, In d ds -> is_nan d = false -> fle m d = true.
(** [m] is the squared distance from [p] to the nearest point of [set] *)
Definition nearest (set : list point) (p : point) (m : f64) : Prop := least (map (dist2 p) set) m.

(** ** Greedy selection *)
(** [chosen R set cands final left]: points of [cands] were moved to the end of [set] one by
    one; each was, at that moment, preferred to all candidates still there *)
Inductive chosen (R : list point -> point -> point -> Prop)
    : list point -> list point -> list point -> list point -> Prop :=
| chosen_none : forall set cands, chosen R set cands set cands
| chosen_one : forall set cands p rest final left, Permutation cands (p :: rest) ->
    (forall c, In c cands -> R set c p) -> chosen R (set ++ [p]) rest final left ->
    chosen R set cands final left.
(** the candidate [c] is not farther from [set] than [p] *)
Definition not_farther (set : list point) (c p : point) : Prop :=
  forall dc dp, nearest set c dc -> nearest set p dp -> fle dc dp = true.
(** ... or so close to [set] (less than 1e-14) that it does not matter *)
Definition not_farther_upto (set : list point) (c p : point) : Prop :=
  forall dc dp, nearest set c dc -> nearest set p dp -> fle dc dp = true \/ flt dc lit_1e_14 = true.

(** ** What a Stage 1 run drew and evaluated, in order *)
Definition drawn (l : list ss_event) : list point :=
  flat_map (fun e => match e with SsSample p => [p] | _ => [] end) (rev l).
Definition evaluations (l : list ss_event) : list point :=
  flat_map (fun e => match e with SsEval p => [p] | _ => [] end) (rev l).

(** ** Reference sets: points paired with their values *)
Definition members (s : ss) : list (point * f64) := combine (ss_ref s) (ss_objs s).
(** [v] is least in the total order of f64 *)
Definition least_value (l : list (point * f64)) (v : f64) : Prop :=
  forall q w, In (q, w) l -> total_le v w = true.

(** 10 percent of the mean squared distance between neighbours among the first [k] members
    (the last member's neighbour is the first), in some order of summation *)
Definition neighbour_distances (refs : list point) (k : nat) : list f64 :=
  map (fun i => dist2 (nth i refs []) (nth (S i mod length refs) refs [])) (seq 0 k).
Definition tenth_of_mean (refs : list point) (k : nat) (thr : f64) : Prop :=
  exists t, thr = fmul (fdiv (tree_sum t (neighbour_distances refs k)) (of_nat k)) (lit 10 100).
(** k for a set of n members *)
Definition sample_size (n : nat) : nat := Nat.min n (Nat.max 2 (Nat.sqrt n)).

(** ** Environments that differ only in scheduling: how rayon splits reductions and which of
    several errors a parallel evaluation reports *)
Definition rescheduled (sched : list nat -> stree) (pick : list nat -> nat) (E : env) : env :=
  mk_env (e_problem E) (e_ext E) (e_seed_from E) (e_next E) (e_uniform E) (e_perturb E) (e_shuffle E)
    (e_sort E) (e_select E) (e_threads E) sched pick (e_clock E) (e_timestamp E) (e_io E)
    (e_dir_order E) (e_callback E) (e_overflow_checks E).
