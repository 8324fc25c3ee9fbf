(** * Python calls from many threads (C76, C77)

    For every program, every number of threads and tasks, and every schedule. *)
From Coq Require Import List Bool Arith Lia.
From Verif Require Import PyLocks SpecLocks PyLocksP.
Import ListNotations.

(** ** C76: optimize cannot deadlock *)
Definition C76_full : Prop := forall (ps : list py) schedule es s t,
  execute schedule all_free (program ps) = Some (es, s, t) -> ended t = true \/ can_move s t.

(** an objective that calls optimize waits for itself *)
Definition nested_objective : py :=
  PyOptimize (RsCall Objective (PyOptimize (RsCall Objective PyEnd RsEnd) PyEnd) RsEnd) PyEnd.
Definition stuck_in_objective : thread :=
  Thread [] [Thread [IAcquire CallMutex; IAcquire Gil; IEnter Objective; IExit Objective; IRelease Gil; IRelease CallMutex; IAcquire Gil;
                     IExit Objective; IRelease Gil; IRelease CallMutex; IAcquire Gil; IRelease Gil] []].
Lemma nested_objective_stuck :
  execute (repeat [0] 6) all_free (program [nested_objective]) = Some ([Enters Objective], mk_locks false true false, stuck_in_objective).
Proof. reflexivity. Qed.
Theorem C76_nested_objective_refuted : ~ C76_full.
Proof.
  intro H. destruct (H _ _ _ _ _ nested_objective_stuck) as [K|(p & e & s & t & K)]; [discriminate|].
  destruct p as [|[|n] [|m p]]; try discriminate K.
  - destruct m; discriminate K.
  - destruct n; discriminate K.
  - destruct n; discriminate K.
Qed.
Print Assumptions C76_nested_objective_refuted.
(** so does a constraint that calls optimize on a problem with constraints *)
Definition nested_constraint : py :=
  PyOptimize (RsCall Constraints (PyOptimize (RsRegister RsEnd) PyEnd) RsEnd) PyEnd.
Definition stuck_in_constraint : thread :=
  Thread [] [Thread [IAcquire Registry; IAcquire Gil; IRelease Registry; IRelease Gil; IAcquire Gil;
                     IExit Constraints; IRelease Gil; IRelease Registry; IAcquire Gil; IRelease Gil] []].
Lemma nested_constraint_stuck :
  execute (repeat [0] 6) all_free (program [nested_constraint]) = Some ([Enters Constraints], mk_locks false false true, stuck_in_constraint).
Proof. reflexivity. Qed.
Theorem C76_nested_constraint_refuted : ~ C76_full.
Proof.
  intro H. destruct (H _ _ _ _ _ nested_constraint_stuck) as [K|(p & e & s & t & K)]; [discriminate|].
  destruct p as [|[|n] [|m p]]; try discriminate K.
  - destruct m; discriminate K.
  - destruct n; discriminate K.
  - destruct n; discriminate K.
Qed.
Print Assumptions C76_nested_constraint_refuted.

(** C76 for programs whose objectives and constraints do not call optimize: in every state that
    some schedule reaches, either every thread has ended or some thread can make a step, ...
    (Missing: objectives and constraints that call optimize.) *)
Theorem C76_no_deadlock_partial : forall (ps : list py) schedule es s t,
  (forall p, In p ps -> plain_py p) ->
  execute schedule all_free (program ps) = Some (es, s, t) -> ended t = true \/ can_move s t.
Proof. exact (fun ps sched es s t H => c76_moves ps sched es s t H). Qed.
Print Assumptions C76_no_deadlock_partial.
(** ... and no schedule goes on forever: every program has a number of steps after which all its
    threads have ended, in whatever order the steps are made. *)
Theorem C76_every_schedule_ends_partial : forall ps : list py, (forall p, In p ps -> plain_py p) ->
  exists n, forall schedule es s t, execute schedule all_free (program ps) = Some (es, s, t) ->
    length schedule <= n /\
    (length schedule = n <-> ended t = true) /\
    exists rest es' s' t', execute rest s t = Some (es', s', t') /\ ended t' = true /\ length schedule + length rest = n.
Proof.
  intros ps Hp. destruct (c76_finite ps) as [n Hn]. exists n.
  assert (K : forall m schedule es s t, execute schedule all_free (program ps) = Some (es, s, t) -> m + length schedule = n ->
     exists rest es' s' t', execute rest s t = Some (es', s', t') /\ ended t' = true /\ length schedule + length rest = n).
  { induction m as [|m IH]; intros schedule es s t H Hm.
    - exists [], [], s, t. split; [reflexivity|]. split; [apply (Hn _ _ _ _ H); exact Hm|]. simpl. lia.
    - destruct (c76_moves ps _ _ _ _ Hp H) as [E|(p & e & s1 & t1 & E)]; [apply (Hn _ _ _ _ H) in E; lia|].
      assert (A : forall l s0 t0 es0, execute l s0 t0 = Some (es0, s, t) -> execute (l ++ [p]) s0 t0 = Some (es0 ++ e, s1, t1)).
      { induction l as [|q l IHl]; intros s0 t0 es0 X; simpl in *.
        - injection X as <- <- <-. rewrite E. rewrite app_nil_r. reflexivity.
        - destruct (step_at q s0 t0) as [[[e2 s2] t2]|]; [|discriminate]. destruct (execute l s2 t2) as [[[e3 s3] t3]|] eqn:X2; [|discriminate].
          injection X as <- <- <-. rewrite (IHl _ _ _ X2). rewrite app_assoc. reflexivity. }
      destruct (IH _ _ _ _ (A _ _ _ _ H)) as (rest & es' & s' & t' & B & C & D).
      { rewrite app_length. simpl. lia. }
      rewrite app_length in D. simpl in D. exists (p :: rest), (e ++ es'), s', t'. simpl. rewrite E, B. repeat split; auto. lia. }
  intros schedule es s t H. destruct (Hn _ _ _ _ H) as [A B]. split; [exact A|]. split; [tauto|].
  apply (K (n - length schedule) _ _ _ _ H). lia.
Qed.
Print Assumptions C76_every_schedule_ends_partial.
(** two Python threads; one runs a parallel loop of two tasks with objectives and constraints,
    the other a gradient that itself calls optimize *)
Definition two_programs : list py :=
  [PyWork (PyOptimize (RsRegister (RsParallel
     (TCons (RsCall Objective (PyYield PyEnd) RsEnd)
     (TCons (RsCall Constraints (PyYield PyEnd) (RsCall Objective PyEnd RsEnd)) TNil)) RsEnd)) PyEnd);
   PyOptimize (RsCall Other (PyOptimize (RsCall Objective (PyWork PyEnd) RsEnd) (PyYield PyEnd)) RsEnd) PyEnd].
Example C76_example : (forall p, In p two_programs -> plain_py p) /\
  execute [[0]; [1]] all_free (program two_programs) = None /\
  exists es s t, execute (repeat [0] 8 ++ [[0; 0]; [0; 1]; [1]; [1]; [0; 0]; [0; 0]; [0; 0]; [0; 1]; [0; 1]]) all_free (program two_programs) =
    Some (es, s, t) /\ es = [Enters Objective; Enters Constraints] /\ ended t = false.
Proof.
  split; [intros p [<-|[<-|[]]]; simpl; tauto|]. split; [reflexivity|]. eexists _, _, _. repeat split; reflexivity.
Qed.

(** ** C77: one call at a time *)
(** In full: no function of a problem is called while one of its kind is running. *)
Definition C77_full : Prop := forall f (ps : list py) schedule es s t,
  execute schedule all_free (program ps) = Some (es, s, t) -> begun_calls f es <= returned_calls f es + 1.
(** Two gradients in a parallel loop: while the first lets other threads run, the second begins. *)
Definition two_gradients : py :=
  PyOptimize (RsParallel (TCons (RsCall Other (PyYield PyEnd) RsEnd) (TCons (RsCall Other PyEnd RsEnd) TNil)) RsEnd) PyEnd.
Lemma gradients_overlap : exists s t, execute [[0]; [0]; [0]; [0; 0]; [0; 0]; [0; 0]; [0; 1]; [0; 1]] all_free (program [two_gradients]) =
  Some ([Enters Other; Enters Other], s, t).
Proof. eexists _, _. reflexivity. Qed.
Theorem C77_gradients_refuted : ~ C77_full.
Proof.
  intro H. destruct gradients_overlap as (s & t & E). specialize (H Other _ _ _ _ _ E). vm_compute in H. lia.
Qed.
Print Assumptions C77_gradients_refuted.
(** Proved for objectives and for constraints, of all problems and all optimize calls together.
    (Missing: gradients, Hessians, bounds and callbacks.) *)
Theorem C77_one_at_a_time_partial : forall (ps : list py) schedule es s t,
  execute schedule all_free (program ps) = Some (es, s, t) ->
  begun_calls Objective es <= returned_calls Objective es + 1 /\
  begun_calls Constraints es <= returned_calls Constraints es + 1.
Proof. exact c77_once. Qed.
Print Assumptions C77_one_at_a_time_partial.
(** the schedule that made two gradients overlap stops at the second objective *)
Example C77_example :
  let p := PyOptimize (RsParallel (TCons (RsCall Objective (PyYield PyEnd) RsEnd) (TCons (RsCall Objective PyEnd RsEnd) TNil)) RsEnd) PyEnd in
  (exists s t, execute [[0]; [0]; [0]; [0; 0]; [0; 0]; [0; 0]; [0; 0]] all_free (program [p]) = Some ([Enters Objective], s, t)) /\
  execute [[0]; [0]; [0]; [0; 0]; [0; 0]; [0; 0]; [0; 0]; [0; 1]] all_free (program [p]) = None.
Proof. split; [eexists _, _|]; reflexivity. Qed.
