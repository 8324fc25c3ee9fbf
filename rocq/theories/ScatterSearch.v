(** * Scatter search, Stage 1 (/repo/src/scatter_search.rs)

    Every method of [ScatterSearch] that the crate uses or exposes, as a computation over
    the struct.  The [rayon] feature is on; [ss_parallel] is the runtime switch.
    The progress bar is not modelled. *)
From Coq Require Import ZArith NArith List Bool Arith String.
From Verif Require Import F64 Base Builders Types Runner Observer Env.
Import ListNotations.
Local Open Scope monad_scope.

(** scatter_search.rs 94-124 *)
Inductive ss_error :=
| NoCandidates
| NoFeasibleCandidates (attempts dimension : nat)
| EvaluationError (source : N)
| InvalidBounds (dimension : nat) (lower upper : f64).

(** What a Stage 1 run does that can be observed from outside, in order. *)
Inductive ss_event :=
| SsSample (p : point)                (* a random point was drawn *)
| SsEval (p : point)                  (* the user's objective was called on p *)
| SsCallback (o : observer)           (* a callback was invoked on this observer *)
| SsPrint (m : msg).

(** [ScatterSearch], scatter_search.rs 138-154.  [ss_ctx] tells executions apart for the
    scheduling oracle and [ss_log] (latest first) is a ghost record of events. *)
Record ss := mk_ss {
  ss_params : params;
  ss_ref : list point;
  ss_objs : list f64;
  ss_lower : point;
  ss_upper : point;
  ss_rng : N;
  ss_parallel : bool;
  ss_observer : option observer;
  ss_custom : option (list point);
  ss_ctx : nat;
  ss_log : list ss_event }.

Definition ss_with_ref (r : list point) (o : list f64) (s : ss) : ss :=
  mk_ss (ss_params s) r o (ss_lower s) (ss_upper s) (ss_rng s) (ss_parallel s)
        (ss_observer s) (ss_custom s) (ss_ctx s) (ss_log s).
Definition ss_with_rng (r : N) (s : ss) : ss :=
  mk_ss (ss_params s) (ss_ref s) (ss_objs s) (ss_lower s) (ss_upper s) r (ss_parallel s)
        (ss_observer s) (ss_custom s) (ss_ctx s) (ss_log s).
Definition ss_emit (l : list ss_event) (s : ss) : ss :=
  mk_ss (ss_params s) (ss_ref s) (ss_objs s) (ss_lower s) (ss_upper s) (ss_rng s) (ss_parallel s)
        (ss_observer s) (ss_custom s) (ss_ctx s) (rev l ++ ss_log s).
(** scatter_search.rs 205-208 *)
Definition ss_set_parallel (b : bool) (s : ss) : ss :=
  mk_ss (ss_params s) (ss_ref s) (ss_objs s) (ss_lower s) (ss_upper s) (ss_rng s) b
        (ss_observer s) (ss_custom s) (ss_ctx s) (ss_log s).
(** scatter_search.rs 214-217 *)
Definition ss_set_observer (o : option observer) (s : ss) : ss :=
  mk_ss (ss_params s) (ss_ref s) (ss_objs s) (ss_lower s) (ss_upper s) (ss_rng s) (ss_parallel s)
        o (ss_custom s) (ss_ctx s) (ss_log s).
(** scatter_search.rs 232-235 *)
Definition ss_set_custom (c : list point) (s : ss) : ss :=
  mk_ss (ss_params s) (ss_ref s) (ss_objs s) (ss_lower s) (ss_upper s) (ss_rng s) (ss_parallel s)
        (ss_observer s) (Some c) (ss_ctx s) (ss_log s).

(** The check loop of scatter_search.rs 165-173: first dimension with lower >= upper *)
Fixpoint bad_bound (i : nat) (b : list (f64 * f64)) : option ss_error :=
  match b with
  | [] => None
  | (lo, hi) :: r => if fge lo hi then Some (InvalidBounds i lo hi) else bad_bound (S i) r
  end.
(** scatter_search.rs 157-193 *)
Definition ss_new (E : env) (p : params) (ctx : nat) : outcome ss_error ss :=
  let b := pb_bounds (e_problem E) in
  match bad_bound 0 b with
  | Some e => Err e
  | None => Ok (mk_ss p [] [] (map fst b) (map snd b) (e_seed_from E (p_seed p)) true None None ctx [])
  end.

(** scatter_search.rs 909-924 *)
Definition is_feasible (cs : list (point -> f64)) (p : point) : bool :=
  forallb (fun g => negb (flt (g p) f0)) cs.

(** [iter.map(f).collect::<Result<Vec<_>, _>>()]: sequentially the first error is returned;
    in parallel some error is, chosen by [pick]. *)
Definition errors_of {A} (l : list (A + N)) : list N :=
  flat_map (fun r => match r with inl _ => [] | inr e => [e] end) l.
Definition values_of {A} (l : list (A + N)) : list A :=
  flat_map (fun r => match r with inl a => [a] | inr _ => [] end) l.
Definition collect_seq {A} (l : list (A + N)) : list A + N :=
  match errors_of l with [] => inl (values_of l) | e :: _ => inr e end.
Definition collect_par {A} (pick : nat) (l : list (A + N)) : list A + N :=
  match errors_of l with
  | [] => inl (values_of l)
  | e :: r => inr (nth (pick mod List.length (e :: r)) (e :: r) e)
  end.
(** The points on which the objective is called by such a collect: sequentially up to the
    first error, in parallel (at most) all of them. *)
Fixpoint upto_error {A} (f : point -> A + N) (l : list point) : list point :=
  match l with
  | [] => []
  | p :: r => p :: match f p with inl _ => upto_error f r | inr _ => [] end
  end.

(** k = sqrt(n) as usize, at least 2, at most n: scatter_search.rs 644-645, 739, 832 *)
Definition ksel (n : nat) : nat := Nat.min (Nat.max (to_usize (fsqrt (of_nat n))) 2) n.

(** n draws of a u64 from one generator *)
Fixpoint draw_seeds (E : env) (n : nat) (rng : N) : list N * N :=
  match n with
  | O => ([], rng)
  | S n' => let '(x, r1) := e_next E rng in
            let '(xs, r2) := draw_seeds E n' r1 in (x :: xs, r2)
  end.
(** One sample: [Array1::from_shape_fn(dim, |i| rng.random_range(lower[i]..=upper[i]))];
    [None] is a panic of random_range. *)
Fixpoint sample_point (E : env) (rng : N) (lo hi : point) : option point :=
  match lo, hi with
  | l :: lo', h :: hi' =>
      match e_uniform E rng l h with
      | None => None
      | Some (x, r1) => match sample_point E r1 lo' hi' with
                        | None => None
                        | Some xs => Some (x :: xs)
                        end
      end
  | _, _ => Some []
  end.
Fixpoint all_some {A} (l : list (option A)) : option (list A) :=
  match l with
  | [] => Some []
  | None :: _ => None
  | Some a :: r => match all_some r with None => None | Some x => Some (a :: x) end
  end.
(** scatter_search.rs 551-598; the parallel and sequential branches compute the same list *)
Definition generate_stratified_samples (E : env) (n : nat) : M ss ss_error (list point) :=
  s <- get ;;
  let '(seeds, rng) := draw_seeds E n (ss_rng s) in
  modify (ss_with_rng rng) ;;;
  samples <- unwrap (all_some (map (fun sd => sample_point E (e_seed_from E sd) (ss_lower s) (ss_upper s)) seeds)) ;;
  modify (ss_emit (map SsSample samples)) ;;;
  ret samples.

(** scatter_search.rs 601-640, parallel branch: reduce(|| INFINITY, f64::min) along a tree *)
Definition min_distance_par (t : stree) (p : point) (refs : list point) : f64 :=
  tree_reduce (fun l => fold_left fmin l pinf) fmin t (map (dist2 p) refs).
(** ... and the sequential branch, with early return of 0.0 *)
Fixpoint min_distance_seq_go (m : f64) (p : point) (refs : list point) : f64 :=
  match refs with
  | [] => m
  | q :: r => let d := dist2 p q in
              if flt d m then (if flt d lit_1e_14 then f0 else min_distance_seq_go d p r)
              else min_distance_seq_go m p r
  end.
Definition min_distance_seq (p : point) (refs : list point) : f64 := min_distance_seq_go pinf p refs.
Definition min_distance (par : bool) (t : stree) (p : point) (refs : list point) : f64 :=
  if par then min_distance_par t p refs else min_distance_seq p refs.

(** The index of the largest minimum distance (last of equals), scatter_search.rs 482-496 *)
Definition cmp_snd {A} (a b : A * f64) : comparison := total_cmp (snd a) (snd b).
Definition argmax (par : bool) (t : stree) (ds : list f64) : option nat :=
  option_map fst
    (if par then tree_reduce_with (pick_max cmp_snd) t (enumerate ds)
     else max_by cmp_snd (enumerate ds)).
(** scatter_search.rs 512-531: the new point may lower each candidate's minimum distance *)
Definition refresh (last : point) (cands : list point) (ds : list f64) : list f64 :=
  map2 (fun c m => let d := dist2 c last in if flt d m then d else m) cands ds.
(** The while loop of scatter_search.rs 481-545; [n] is population_size - ref_set.len() and
    drops by one per round. *)
Fixpoint greedy (E : env) (ctx : nat) (par : bool) (n : nat)
    (refs cands : list point) (ds : list f64) : outcome ss_error (list point) :=
  match n with
  | O => Ok refs
  | S n' =>
      match argmax par (e_sched E [ctx; 1; n]) ds with
      | None => Err NoCandidates
      | Some i =>
          match swap_remove i cands, swap_remove i ds with
          | Some (far, cands'), Some (_, ds') =>
              greedy E ctx par n' (refs ++ [far]) cands' (refresh far cands' ds')
          | _, _ => Panic
          end
      end
  end.

(** The refill loop of scatter_search.rs 443-451; [fuel] is 10 - attempts. Returns the
    candidates and the number of attempts made. *)
Fixpoint refill (E : env) (pop : nat) (cs : list (point -> f64)) (fuel attempts : nat)
    (cands : list point) : M ss ss_error (list point * nat) :=
  match fuel with
  | O => ret (cands, attempts)
  | S fuel' =>
      if List.length cands <? pop then
        batch <- generate_stratified_samples E (pop * 2) ;;
        refill E pop cs fuel' (S attempts) (cands ++ filter (is_feasible cs) batch)
      else ret (cands, attempts)
  end.

(** scatter_search.rs 431-548.  Overflow of population_size * 2 is not modelled. *)
Definition diversify_reference_set (E : env) (refs : list point) (cs : list (point -> f64))
    : M ss ss_error (list point) :=
  s <- get ;;
  let pop := p_population (ss_params s) in
  let dim := List.length (ss_lower s) in
  cands0 <- generate_stratified_samples E pop ;;
  cands <- (if match cs with [] => true | _ => false end then ret cands0
            else
              r <- refill E pop cs 10 0 (filter (is_feasible cs) cands0) ;;
              let '(cands1, attempts) := r in
              if match cands1 with [] => true | _ => false end
              then fail (NoFeasibleCandidates attempts dim)
              else if List.length refs + List.length cands1 <? pop
              then fail (NoFeasibleCandidates attempts dim)
              else ret cands1) ;;
  let par := ss_parallel s in
  let ds := map (fun ic => min_distance par (e_sched E [ss_ctx s; 0; fst ic]) (snd ic) refs)
                (enumerate cands) in
  of_result (greedy E (ss_ctx s) par (pop - List.length refs) refs cands ds).

(** The three seed points, scatter_search.rs 329-338 *)
Definition seed_points (lo hi : point) : list point := [lo; hi; pdiv (padd lo hi) f2].

(** scatter_search.rs 320-428 *)
Definition initialize_reference_set (E : env) : M ss ss_error unit :=
  s <- get ;;
  let cs := pb_constraints (e_problem E) in
  let seeds := filter (is_feasible cs) (seed_points (ss_lower s) (ss_upper s)) in
  let custom := match ss_custom s with
                | Some c => filter (is_feasible cs) c
                | None => []
                end in
  refs <- diversify_reference_set E (seeds ++ custom) cs ;;
  let obj := pb_objective (e_problem E) in
  let par := ss_parallel s && (20 <=? List.length refs) in
  modify (ss_emit (map SsEval (if par then refs else upto_error obj refs))) ;;;
  match (if par then collect_par (e_err_pick E [ss_ctx s; 0]) (map obj refs)
         else collect_seq (map obj refs)) with
  | inr e => fail (EvaluationError e)
  | inl objs =>
      let sorted := e_sort E (combine refs objs) in
      modify (ss_with_ref (map fst sorted) (map snd sorted))
  end.

(** scatter_search.rs 715-719: clamp every coordinate; [None] is a panic of clamp or of the
    index when the point is longer than the bounds *)
Fixpoint apply_bounds (lo hi p : point) : option point :=
  match p, lo, hi with
  | [], _, _ => Some []
  | x :: p', l :: lo', h :: hi' =>
      match fclamp x l h, apply_bounds lo' hi' p' with
      | Some y, Some ys => Some (y :: ys)
      | _, _ => None
      end
  | _, _, _ => None
  end.
(** the random displacement of scatter_search.rs 705-707; returns the generator too *)
Fixpoint perturb (E : env) (rng : N) (lo hi p : point) : option (point * N) :=
  match p, lo, hi with
  | [], _, _ => Some ([], rng)
  | x :: p', l :: lo', h :: hi' =>
      let '(u, r1) := e_perturb E rng in
      match perturb E r1 lo' hi' p' with
      | Some (xs, r2) => Some (fadd x (fmul u (fsub h l)) :: xs, r2)
      | None => None
      end
  | _, _, _ => None
  end.
(** scatter_search.rs 694: the four mixing weights *)
Definition directions : list f64 := [lit 25 100; lit 5 10; lit 75 100; lit 125 100].
(** scatter_search.rs 690-713 *)
Definition combine_points (E : env) (lo hi a b : point) (seed : N) : option (list point) :=
  let linear := map (fun alpha => apply_bounds lo hi (padd (pscale alpha a) (pscale (fsub f1 alpha) b)))
                    directions in
  let mid := pdiv (padd a b) f2 in
  match perturb E (e_seed_from E seed) lo hi mid with
  | None => None
  | Some (p1, r1) =>
      match perturb E r1 lo hi mid with
      | None => None
      | Some (p2, _) => all_some (linear ++ [apply_bounds lo hi p1; apply_bounds lo hi p2])
      end
  end.
(** index pairs i < j < k, scatter_search.rs 648-649 *)
Definition pairs (k : nat) : list (nat * nat) :=
  flat_map (fun i => map (fun j => (i, j)) (seq (S i) (k - S i))) (seq 0 k).
(** scatter_search.rs 642-687 *)
Definition generate_trial_points (E : env) : M ss ss_error (list point) :=
  s <- get ;;
  let idx := pairs (ksel (List.length (ss_ref s))) in
  let '(seeds, rng) := draw_seeds E (List.length idx) (ss_rng s) in
  modify (ss_with_rng rng) ;;;
  groups <- unwrap (all_some (map (fun c =>
      match c with (i, j, sd) =>
        match nth_error (ss_ref s) i, nth_error (ss_ref s) j with
        | Some a, Some b => combine_points E (ss_lower s) (ss_upper s) a b sd
        | _, _ => None
        end
      end) (combine idx seeds))) ;;
  ret (List.concat groups).

(** scatter_search.rs 732-773 *)
Definition dist_threshold (E : env) (s : ss) : option f64 :=
  let refs := ss_ref s in
  let n := List.length refs in
  if n <? 2 then Some f0
  else
    let k := ksel n in
    match all_some (map (fun i =>
             match nth_error refs i, nth_error refs (S i mod n) with
             | Some a, Some b => Some (dist2 a b)
             | _, _ => None
             end) (seq 0 k)) with
    | None => None
    | Some ds =>
        let sum := if ss_parallel s then tree_sum (e_sched E [ss_ctx s; 2]) ds else fsum ds in
        Some (fmul (fdiv sum (of_nat k)) (lit 10 100))
    end.
(** scatter_search.rs 782-798; the boolean says whether the objective was called *)
Definition evaluate_trial (E : env) (refs : list point) (worst thr : f64) (p : point)
    : bool * option (point * f64) :=
  if negb (is_feasible (pb_constraints (e_problem E)) p) then (false, None)
  else if negb (forallb (fun r => fgt (dist2 p r) thr) (firstn 5 refs)) then (false, None)
  else match pb_objective (e_problem E) p with
       | inr _ => (true, None)
       | inl o => (true, if flt o worst then Some (p, o) else None)
       end.
(** [slice.select_nth_unstable_by(i, ..)]: panics when the index is out of range *)
Definition select_nth (E : env) (i : nat) (l : list (point * f64)) : option (list (point * f64)) :=
  if i <? List.length l then Some (e_select E i l) else None.
(** scatter_search.rs 828-844: keep the best population_size of all points.
    [usize] subtraction k - 1 with population_size = 0 panics (or wraps and then panics). *)
Definition keep_best (E : env) (pop : nat) (all : list (point * f64)) : option (list (point * f64)) :=
  let k := ksel pop in
  if k =? 0 then None
  else match select_nth E (k - 1) all with
       | None => None
       | Some l1 =>
           let l2 := e_sort E (firstn k l1) ++ skipn k l1 in
           match select_nth E (pop - 1) l2 with
           | None => None
           | Some l3 => Some (firstn pop l3)
           end
       end.
(** scatter_search.rs 721-850 *)
Definition update_reference_set (E : env) (trials : list point) : M ss ss_error unit :=
  if match trials with [] => true | _ => false end then ret tt
  else
    s <- get ;;
    let worst := last (ss_objs s) pinf in
    thr <- unwrap (dist_threshold E s) ;;
    let res := map (fun p => (p, evaluate_trial E (ss_ref s) worst thr p)) trials in
    modify (ss_emit (map (fun r => SsEval (fst r)) (filter (fun r => fst (snd r)) res))) ;;;
    let accepted := flat_map (fun r => match snd (snd r) with Some x => [x] | None => [] end) res in
    if match accepted with [] => true | _ => false end then ret tt
    else
      kept <- unwrap (keep_best E (p_population (ss_params s))
                                (combine (ss_ref s) (ss_objs s) ++ accepted)) ;;
      modify (ss_with_ref (map fst kept) (map snd kept)).

(** scatter_search.rs 852-880 *)
Definition ss_best_solution (E : env) : M ss ss_error point :=
  s <- get ;;
  let l := enumerate (ss_objs s) in
  match (if ss_parallel s then tree_reduce_with (pick_min cmp_snd) (e_sched E [ss_ctx s; 3]) l
         else min_by cmp_snd l) with
  | None => fail NoCandidates
  | Some (i, _) => unwrap (nth_error (ss_ref s) i)
  end.
(** scatter_search.rs 882-884 *)
Definition store_trial (p : point) : M ss ss_error unit :=
  modify (fun s => ss_with_ref (ss_ref s ++ [p]) (ss_objs s) s).

(** Observer updates inside [run] (only when an observer is attached) *)
Definition ss_obs (f : observer -> observer) : M ss ss_error unit :=
  modify (fun s => ss_set_observer (option_map f (ss_observer s)) s).
Definition ss_callback (E : env) : M ss ss_error unit :=
  s <- get ;;
  match ss_observer s with
  | None => ret tt
  | Some o =>
      match ob_callback o with
      | None => ret tt
      | Some _ =>
          let '(o', msgs) := invoke_callback (e_callback E) o in
          modify (fun s => ss_emit (SsCallback o :: map SsPrint msgs) (ss_set_observer (Some o') s))
      end
  end.

(** scatter_search.rs 240-318 *)
Definition ss_run (E : env) : M ss ss_error (list (point * f64) * point) :=
  initialize_reference_set E ;;;
  ss_obs (upd_stage1 (fun s1 => s1_set_ref_size 3 (s1_enter "initialization_complete" s1))) ;;;
  ss_callback E ;;;
  s <- get ;;
  ss_obs (upd_stage1 (fun s1 =>
    s1_add_evals (List.length (ss_ref s))
      (s1_set_ref_size (List.length (ss_ref s)) (s1_enter "diversification_complete" s1)))) ;;;
  ss_callback E ;;;
  trials <- generate_trial_points E ;;
  update_reference_set E trials ;;;
  s <- get ;;
  ss_obs (upd_stage1 (fun s1 =>
    s1_set_ref_size (List.length (ss_ref s))
      (s1_add_trials (List.length trials) (s1_enter "intensification_complete" s1)))) ;;;
  ss_callback E ;;;
  best <- ss_best_solution E ;;
  s <- get ;;
  ret (combine (ss_ref s) (ss_objs s), best).
