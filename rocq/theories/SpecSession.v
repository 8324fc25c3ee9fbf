(** * Sessions: what a program does with optimizers and one checkpoint directory (C63, C66)

    A session is a list of calls, each made in an environment of its own.  It may use several
    optimizers one after the other ([CNew]), in one process or in several.  A process that
    dies during a run leaves the same files as a run whose next disk operation fails, and
    such runs are included because the environments are arbitrary; so is what happens
    after a restart. *)
From Coq Require Import ZArith NArith List Bool Arith String.
From Verif Require Import F64 Base Builders Types Filters Runner Observer Env EnvSpec ScatterSearch Codec Checkpoint
  Oqnlp Spec SpecStage1 SpecStage2 SpecObserver SpecCheckpoint SpecPanic.
Import ListNotations.

Inductive call :=
| CNew (p : params)
| CObserver (ob : observer)
| CMaxTime (t : f64)
| CBatch (n : nat)
| CParallel (b : bool)
| CTarget (t : f64)
| CExclude (b : bool)
| CTolerance (has_set : bool) (a r : f64)   (* has_set: the optimizer already has a solution set *)
| CPoints (l : list point)
| CCheckpointing (c : cp_config)
| CRun
| CTryResume
| CResumeWith (np : params)
| CResumeFile (f : fname) (np : params)
| CCleanup (c : cp_config) (keep : nat)
| CWrite (f : fname) (b : bytes)            (* by another program *)
| CDelete (f : fname).

Definition has_set (o : oqnlp) : bool := match o_set o with Some _ => true | None => false end.
(** a call takes one state to another; calls that fail included *)
Inductive does (E : env) : call -> st -> st -> Prop :=
| DNew : forall p o s, oq_new p = Ok o -> does E (CNew p) s (mk_st o (s_w s))
| DObserver : forall ob s, does E (CObserver ob) s (mk_st (add_observer ob (s_o s)) (s_w s))
| DMaxTime : forall t s, does E (CMaxTime t) s (mk_st (max_time t (s_o s)) (s_w s))
| DBatch : forall n s, does E (CBatch n) s (mk_st (batch_iterations n (s_o s)) (s_w s))
| DParallel : forall b s, does E (CParallel b) s (mk_st (parallel b (s_o s)) (s_w s))
| DTarget : forall t s, does E (CTarget t) s (mk_st (target_objective t (s_o s)) (s_w s))
| DExclude : forall b s, does E (CExclude b) s (mk_st (set_exclude_out_of_bounds b (s_o s)) (s_w s))
| DTolerance : forall a r s, does E (CTolerance (has_set (s_o s)) a r) s (mk_st (with_tolerance a r (s_o s)) (s_w s))
| DPoints : forall l o s, with_points E l (s_o s) = Ok o -> does E (CPoints l) s (mk_st o (s_w s))
| DCheckpointing : forall c s r s', with_checkpointing E c s = (r, s') -> does E (CCheckpointing c) s s'
| DRun : forall s r s', run E s = (r, s') -> does E CRun s s'
| DTryResume : forall s r s', try_resume_from_checkpoint E s = (r, s') -> does E CTryResume s s'
| DResumeWith : forall np s r s', resume_with_modified_params E np s = (r, s') -> does E (CResumeWith np) s s'
| DResumeFile : forall f np s r s', resume_from_checkpoint_with_params E f np s = (r, s') -> does E (CResumeFile f np) s s'
| DCleanup : forall c n s r s', on_disk (cleanup E c n) s = (r, s') -> does E (CCleanup c n) s s'
| DWrite : forall f b s, decode_checkpoint b = None ->
    does E (CWrite f b) s (mk_st (s_o s) (mk_world (mk_disk (put_file f b (d_files (w_disk (s_w s)))) (d_tick (w_disk (s_w s))))
                                                  (w_tick (s_w s)) (w_trace (s_w s))))
| DDelete : forall f s,
    does E (CDelete f) s (mk_st (s_o s) (mk_world (mk_disk (remove_file f (d_files (w_disk (s_w s)))) (d_tick (w_disk (s_w s))))
                                                  (w_tick (s_w s)) (w_trace (s_w s)))).
(** latest call first *)
Inductive session : list (env * call) -> st -> st -> Prop :=
| SNil : forall s, session [] s s
| SStep : forall l E c s s1 s2, session l s s1 -> does E c s1 s2 -> session ((E, c) :: l) s s2.
(** a new optimizer, a directory without checkpoints *)
Definition begins (p : params) (s : st) : Prop :=
  oq_new p = Ok (s_o s) /\ w_trace (s_w s) = [] /\ checkpoints_hold (fun _ => False) s.
(** every checkpoint saved in the session is a value that Rust's types can hold *)
Definition saves_fit (s : st) : Prop := forall f cp, In (EvSave f cp) (w_trace (s_w s)) -> checkpoint_ok cp.

(** ** C66: sessions that keep the distance factor, and the tolerances of a stored set *)
Definition steady (d : f64) (ec : env * call) : Prop :=
  match snd ec with
  | CNew p | CResumeWith p | CResumeFile _ p => p_distance_factor p = d
  | CTolerance has_set _ _ => has_set = false
  | _ => True
  end.

(** ** C63: environments and calls that are expected not to lead to a panic *)
Definition tame_env (P : problem) (E : env) : Prop :=
  e_problem E = P /\ env_ok E /\ callbacks_keep_settings E /\ solvers_keep_dimension E.
Definition tame (P : problem) (M : nat) (ec : env * call) : Prop :=
  tame_env P (fst ec) /\
  match snd ec with
  | CNew p | CResumeWith p | CResumeFile _ p => good_params M p
  | CObserver ob => ob_callback ob <> None -> ob_frequency ob <> 0
  | CBatch n => n <> 0
  | CCheckpointing c => cc_save_frequency c <> 0
  | _ => True
  end.
