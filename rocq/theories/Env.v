(** * The environment: everything the crate calls that is not modelled.

    One record of ordinary functions, an argument of the model.  What theorems assume of
    it is the [Prop] record [env_ok] in [EnvSpec.v]; nothing here is an axiom. *)
From Coq Require Import ZArith NArith List Bool String.
From Verif Require Import F64 Base Builders Types Runner Observer.
Import ListNotations.

(** Outcome of one file-system operation.  [IoShort n] is a write that stops after [n]
    bytes of the new content (the file was already truncated on opening). *)
Inductive io := IoOk | IoFail | IoShort (n : nat).

Record env := mk_env {
  e_problem : problem;                 (* the user's problem *)
  e_ext : ext;                         (* argmin and cobyla *)
  (* rand: [StdRng] with its state encoded as a number *)
  e_seed_from : N -> N;                          (* StdRng::seed_from_u64 *)
  e_next : N -> N * N;                           (* rng.random::<u64>() *)
  e_uniform : N -> f64 -> f64 -> option (f64 * N);  (* rng.random_range(lo..=hi); None = panic *)
  e_perturb : N -> f64 * N;                      (* rng.random_range(-0.1..0.1) *)
  e_shuffle : N -> list point -> list point;     (* slice.shuffle(&mut rng) *)
  (* core::slice, on (point, objective) pairs compared by total_cmp of the objective *)
  e_sort : list (point * f64) -> list (point * f64);          (* sort_unstable_by *)
  e_select : nat -> list (point * f64) -> list (point * f64); (* select_nth_unstable_by, index in range *)
  (* rayon *)
  e_threads : nat;                               (* current_num_threads() *)
  e_sched : list nat -> stree;                   (* how the reduction at a program site is split *)
  e_err_pick : list nat -> nat;                  (* which error a parallel collect reports *)
  (* clock and file system, indexed by a counter of environment calls *)
  e_clock : nat -> f64;                          (* Instant::elapsed().as_secs_f64() *)
  e_timestamp : nat -> string;                   (* chrono::Utc::now().to_rfc3339() *)
  e_io : nat -> io;
  e_dir_order : nat -> list string -> list string; (* order in which read_dir lists the names *)
  (* user callbacks attached to observers *)
  e_callback : nat -> observer -> observer;
  (* are integer overflow checks compiled in (debug profile)? *)
  e_overflow_checks : bool }.

(** [a + b] on u64 *)
Definition u64_mod : N := 2 ^ 64.
Definition add_u64 (E : env) (a b : N) : option N :=
  let s := (a + b)%N in
  if (s <? u64_mod)%N then Some s
  else if e_overflow_checks E then None else Some (s mod u64_mod)%N.
