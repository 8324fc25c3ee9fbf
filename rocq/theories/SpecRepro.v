(** * The same program on another machine (C96) *)
From Coq Require Import ZArith NArith List Bool Arith String.
From Verif Require Import F64 Base Builders Types Filters Runner Observer Env.
Import ListNotations.

(** everything that may differ from one execution to the next: the number of threads, how
    parallel work is split, which of several errors of parallel work is reported, the clock *)
Definition elsewhere (threads : nat) (sched : list nat -> stree) (pick : list nat -> nat)
    (clock : nat -> f64) (timestamp : nat -> string) (E : env) : env :=
  mk_env (e_problem E) (e_ext E) (e_seed_from E) (e_next E) (e_uniform E) (e_perturb E) (e_shuffle E)
    (e_sort E) (e_select E) threads sched pick clock timestamp (e_io E)
    (e_dir_order E) (e_callback E) (e_overflow_checks E).
