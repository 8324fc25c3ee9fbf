(** * Properties of the Python bindings (C61, C68 - C72)

    Statements only; the proofs are lemmas of PyRegistryP.v and PyBindP.v, the vocabulary
    is SpecPy.v and SpecPyBind.v. *)
From Coq Require Import ZArith NArith List Bool Arith Lia String.
From Verif Require Import F64 Base Builders Types Filters Runner Observer Env EnvSpec ScatterSearch Codec Checkpoint
  Oqnlp Spec BasicP PyRegistry SpecPy PyRegistryP PyBind SpecPyBind PyBindP Demo.
Import ListNotations.

(** C61.  In full: whatever happens between, a pointer obtained from object [k] on thread
    [t] evaluates that object's own constraint, on every thread. *)
Definition C61_full : Prop := forall h1 t k fs h2 t' i n x o cs f v,
  no_call_panicked (h1 ++ PyFetch t k :: h2) ->
  nth_error (track h1) k = Some (o, Some cs) -> fetched h1 t k = Ok fs -> nth_error fs i = Some n ->
  nth_error cs i = Some f -> f x = Some v -> (forall g, In g cs -> g x <> None) ->
  called (h1 ++ PyFetch t k :: h2) t' n x = Ok v.
(** restricted to the thread that obtained the pointers *)
Definition C61_own_thread : Prop := forall h1 t k fs h2 i n x o cs f v,
  no_call_panicked (h1 ++ PyFetch t k :: h2) ->
  nth_error (track h1) k = Some (o, Some cs) -> fetched h1 t k = Ok fs -> nth_error fs i = Some n ->
  nth_error cs i = Some f -> f x = Some v -> (forall g, In g cs -> g x <> None) ->
  called (h1 ++ PyFetch t k :: h2) t n x = Ok v.
(** restricted to nothing happening between *)
Definition C61_at_once : Prop := forall h1 t k fs t' i n x o cs f v,
  no_call_panicked (h1 ++ [PyFetch t k]) ->
  nth_error (track h1) k = Some (o, Some cs) -> fetched h1 t k = Ok fs -> nth_error fs i = Some n ->
  nth_error cs i = Some f -> f x = Some v -> (forall g, In g cs -> g x <> None) ->
  called (h1 ++ [PyFetch t k]) t' n x = Ok v.
Definition always (v : f64) : pyfun := fun _ => Some v.
Definition two_problems : list py_op := [PyNew (Some [always f1]); PyNew (Some [always f2])].
Lemma fetches_do_not_panic : forall h, (forall t n x, ~ In (PyCall t n x) h) -> no_call_panicked h.
Proof. intros h H a t n x b ->. destruct (H t n x). apply in_or_app. right; left; reflexivity. Qed.
(** Another problem's constraints fetched on the same thread take over the pointers. *)
Theorem C61_interleaved_refuted : ~ C61_own_thread.
Proof.
  intros H.
  assert (K := H two_problems 0 0 [0] [PyFetch 0 1] 0 0 [] 0 [always f1] (always f1) f1).
  assert (X : called (two_problems ++ PyFetch 0 0 :: [PyFetch 0 1]) 0 0 [] = Ok f2) by reflexivity.
  rewrite X in K. assert (Y : @Ok unit f64 f2 <> Ok f1) by discriminate. apply Y, K; try reflexivity.
  - apply fetches_do_not_panic. intros t n x I. repeat (destruct I as [I|I]; [discriminate|]). exact I.
  - intros g [<-|[]]. discriminate.
Qed.
Print Assumptions C61_interleaved_refuted.
(** Called on a thread other than the one that fetched them, the pointers of the problem
    created second evaluate the constraints of the problem with id 0, or nothing at all. *)
Theorem C61_threads_refuted : ~ C61_at_once.
Proof.
  intros H.
  assert (K := H two_problems 0 1 [0] 1 0 0 [] 1 [always f2] (always f2) f2).
  assert (X : called (two_problems ++ [PyFetch 0 1]) 1 0 [] = Ok f0) by reflexivity.
  rewrite X in K. assert (Y : @Ok unit f64 f0 <> Ok f2) by discriminate. apply Y, K; try reflexivity.
  - apply fetches_do_not_panic. intros t n x I. repeat (destruct I as [I|I]; [discriminate|]). exact I.
  - intros g [<-|[]]. discriminate.
Qed.
Print Assumptions C61_threads_refuted.
Theorem C61_refuted : ~ C61_full.
Proof.
  intros H. apply C61_interleaved_refuted. intros h1 t k fs h2 i n x o cs f v. apply H.
Qed.
Print Assumptions C61_refuted.
(** A constraint that fails in one problem makes the constraints of every other panic. *)
Definition C61_failures_are_local : Prop := forall h1 t k fs h2 i n x o cs f v,
  nth_error (track h1) k = Some (o, Some cs) -> fetched h1 t k = Ok fs -> nth_error fs i = Some n ->
  nth_error cs i = Some f -> f x = Some v -> (forall g, In g cs -> g x <> None) ->
  undisturbed (h1 ++ [PyFetch t k]) h2 t o cs ->
  called (h1 ++ PyFetch t k :: h2) t n x = Ok v.
Definition fails : pyfun := fun _ => None.
Theorem C61_failures_refuted : ~ C61_failures_are_local.
Proof.
  intros H.
  assert (K := H [PyNew (Some [always f1]); PyNew (Some [fails])] 0 0 [0] [PyFetch 1 1; PyCall 1 0 []] 0 0 []
                 0 [always f1] (always f1) f1).
  assert (X : called ([PyNew (Some [always f1]); PyNew (Some [fails])] ++ PyFetch 0 0 :: [PyFetch 1 1; PyCall 1 0 []])
                0 0 [] = Panic) by reflexivity.
  rewrite X in K. assert (Y : @Panic unit f64 <> Ok f1) by discriminate. apply Y, K; try reflexivity.
  - intros g [<-|[]]. discriminate.
  - intros a t' k' b o' cs' E T. destruct a as [|q a].
    + inversion E; subst. simpl in T. inversion T; subst. split; discriminate.
    + inversion E as [[E1 E2]]; subst q. destruct a as [|q a]; [discriminate|]. inversion E2 as [[E3 E4]].
      destruct a; discriminate.
Qed.
Print Assumptions C61_failures_refuted.
(** What holds: on the thread that fetched the constraints, while no other problem's are
    fetched there, the problem is not copied, changed and fetched again, and no constraint
    has failed, the i-th pointer evaluates the i-th constraint. *)
Theorem C61_own_constraint_partial : forall h1 t k fs h2 i n x o cs f v,
  no_call_panicked (h1 ++ PyFetch t k :: h2) ->
  nth_error (track h1) k = Some (o, Some cs) -> fetched h1 t k = Ok fs -> nth_error fs i = Some n ->
  nth_error cs i = Some f -> f x = Some v -> (forall g, In g cs -> g x <> None) ->
  undisturbed (h1 ++ [PyFetch t k]) h2 t o cs ->
  called (h1 ++ PyFetch t k :: h2) t n x = Ok v.
Proof. exact right_problem. Qed.
Print Assumptions C61_own_constraint_partial.
(** One pointer for each constraint, up to 1000; more panic. *)
Theorem C61_one_pointer_each_partial : forall h t k o cs, no_call_panicked h ->
  nth_error (track h) k = Some (o, Some cs) ->
  (List.length cs <= 1000 -> exists fs, fetched h t k = Ok fs /\ List.length fs = List.length cs) /\
  (1000 < List.length cs -> fetched h t k = Panic).
Proof.
  intros h t k o cs N T. rewrite (fetched_count _ _ _ _ _ N T).
  destruct (Nat.ltb_spec max_constraints (List.length cs)) as [L|L]; unfold max_constraints in L; split; intros K; try lia; auto.
  eexists. split; [reflexivity|]. apply seq_length.
Qed.
Print Assumptions C61_one_pointer_each_partial.
Example C61_example :
  let h1 := [PyNew (Some [always f1; always f2]); PyNew (Some [always f0]); PyClone 0] in
  let h2 := [PyFetch 1 1; PyCall 1 0 [f1]; PyAssign 0 None; PyFetch 0 0] in
  nth_error (track h1) 2 = Some (0, Some [always f1; always f2]) /\ fetched h1 0 2 = Ok [0; 1] /\
  no_call_panicked (h1 ++ PyFetch 0 2 :: h2) /\ undisturbed (h1 ++ [PyFetch 0 2]) h2 0 0 [always f1; always f2] /\
  called (h1 ++ PyFetch 0 2 :: h2) 0 1 [] = Ok f2.
Proof.
  cbv zeta. repeat split; try reflexivity.
  - intros a t n x b E. do 7 (destruct a as [|? a]; [try discriminate E; inversion E; subst; vm_compute; discriminate|];
      inversion E as [[E1 E2]]; subst; clear E; rename E2 into E).
    destruct a; simpl in E; try discriminate E. destruct a; discriminate E.
  - intros ->. destruct a as [|? a]; [inversion H; subst; vm_compute in H0; inversion H0; reflexivity|].
    do 3 (inversion H as [[E1 E2]]; subst; clear H; rename E2 into H; destruct a as [|? a]; [try discriminate H|]).
    + inversion H; subst. vm_compute in H0. discriminate H0.
    + inversion H as [[E1 E2]]. destruct a; discriminate E2.
  - intros ->. destruct a as [|? a]; [inversion H; subst; vm_compute in H0; inversion H0; reflexivity|].
    do 3 (inversion H as [[E1 E2]]; subst; clear H; rename E2 into H; destruct a as [|? a]; [try discriminate H|]).
    + inversion H; subst. vm_compute in H0. discriminate H0.
    + inversion H as [[E1 E2]]. destruct a; discriminate E2.
Qed.

(** C68: the settings of a Python call of [optimize] *)
Theorem C68_settings : forall E a o, py_build E a = Ok o -> as_asked a o.
Proof. exact build_ok. Qed.
Print Assumptions C68_settings.
Theorem C68_errors : forall E a e, py_build E a = Err e <->
  match e with
  | PyUnknownSolver => asked_solver a = None
  | PyWrongConfig ty => asked_solver a = Some ty /\ exists c, pa_config a = Some c /\ forall cfg, ~ same_settings ty c cfg
  | PyPointsShape =>
      (exists ty cfg, asked_solver a = Some ty /\ asked_config a ty cfg /\
         valid_params (mk_params (pa_iterations a) (pa_population a) (pa_wait_cycle a)
                         (pa_threshold_factor a) (pa_distance_factor a) ty cfg (given 0%N (pa_seed a)))) /\
      exists l, pa_points a = Some l /\ forall ps, ~ recut l ps
  | PyOptimizer e' =>
      exists ty cfg, asked_solver a = Some ty /\ asked_config a ty cfg /\
        let p := mk_params (pa_iterations a) (pa_population a) (pa_wait_cycle a)
                         (pa_threshold_factor a) (pa_distance_factor a) ty cfg (given 0%N (pa_seed a)) in
        (first_violation p e' \/
         valid_params p /\ exists l ps, pa_points a = Some l /\ recut l ps /\
                                        bad_row (pb_bounds (e_problem E)) ps e')
  end.
Proof. exact build_err. Qed.
Print Assumptions C68_errors.
Theorem C68_no_panic : forall E a, py_build E a <> Panic.
Proof. exact build_no_panic. Qed.
Print Assumptions C68_no_panic.
Theorem C68_result : forall E a l ob, py_optimize E a = (Ok l, ob) <->
  exists o s', py_build E a = Ok o /\ run E (mk_st o py_world) = (Ok l, s') /\
    ob = match pa_observer a, o_observer (s_o s') with
         | Some p, Some f => Some (mk_pob f (po_callback p))
         | p, _ => p
         end.
Proof. exact optimize_ok. Qed.
Print Assumptions C68_result.
Theorem C68_failure_keeps_observer : forall E a r ob,
  py_optimize E a = (r, ob) -> (forall l, r <> Ok l) -> ob = pa_observer a.
Proof. exact optimize_not_ok. Qed.
Print Assumptions C68_failure_keeps_observer.
Definition demo_args (c : option py_config) (pts : option (list (list f64))) : py_args :=
  mk_pa 6 6 1 (of_Z 20) (lit 75 100) (lit 1 100000000) (lit 1 1000000) (Some pob_new) None c (Some 3%N)
        None None (Some true) None pts.
Definition built_ok (r : outcome py_error oqnlp) : bool := match r with Ok _ => true | _ => false end.
Example C68_example :
  built_ok (py_build wells_env (demo_args None (Some [[f1]; [f2]]))) = true /\
  py_build wells_env (demo_args (Some (py_default_config LBFGS)) None) = Err (PyWrongConfig COBYLA) /\
  py_build wells_env (demo_args None (Some [[f1]; [f1; f2]])) = Err PyPointsShape /\
  py_build wells_env (demo_args None (Some [[f1]; [of_Z 6]])) = Err (PyOptimizer (CustomPointOutOfBounds 1)).
Proof. vm_compute. auto. Qed.

(** C69 is false of the code: rows of unequal length whose lengths add up are cut anew. *)
Definition C69_full : Prop := forall E a o l, py_build E a = Ok o -> pa_points a = Some l -> o_custom o = Some l.
Definition plane_bounds : problem :=
  mk_problem (fun _ => inl f0) (fun _ => inr 1%N) (fun _ => inr 1%N) [(f0, f2); (f0, f2)] [].
Definition ragged : list (list f64) := [[f0; f1]; [f2]; [f0; f1; f2]].
Definition ragged_build : outcome py_error oqnlp :=
  py_build (demo_env plane_bounds stay) (demo_args None (Some ragged)).
Lemma ragged_ok : match ragged_build with Ok o => o_custom o = Some [[f0; f1]; [f2; f0]; [f1; f2]] | _ => False end.
Proof. vm_compute. reflexivity. Qed.
Theorem C69_ragged_refuted : ~ C69_full.
Proof.
  intros H. pose proof ragged_ok as R. unfold ragged_build in R.
  destruct (py_build (demo_env plane_bounds stay) (demo_args None (Some ragged))) as [o| |] eqn:B; try contradiction.
  rewrite (H _ _ _ ragged B eq_refl) in R. discriminate R.
Qed.
Print Assumptions C69_ragged_refuted.
Theorem C69_rectangular_partial : forall E a o l, py_build E a = Ok o -> pa_points a = Some l -> rectangular l ->
  o_custom o = Some l /\ Forall (row_ok (pb_bounds (e_problem E))) l.
Proof. exact build_points. Qed.
Print Assumptions C69_rectangular_partial.
Example C69_example : rectangular [[f0; f1]; [f2; f0]] /\
  built_ok (py_build (demo_env plane_bounds stay) (demo_args None (Some [[f0; f1]; [f2; f0]]))) = true.
Proof. split; [|vm_compute; reflexivity]. intros r r' [<-|[<-|[]]] [<-|[<-|[]]]; reflexivity. Qed.

(** C70 is false of the code for COBYLA (initial step 1.0 against 0.5). *)
Definition C70_full : Prop := forall ty cfg, same_settings ty (py_default_config ty) cfg -> cfg = doc_config ty.
Theorem C70_cobyla_refuted : ~ C70_full.
Proof.
  intros H. specialize (H COBYLA _ (SameCOBYLA 300%N f1 None None None None)). discriminate H.
Qed.
Print Assumptions C70_cobyla_refuted.
(** The default line search objects: the Hager-Zhang one has the documented values. *)
Theorem C70_other_solvers_partial : forall ty, ty <> COBYLA ->
  same_settings ty (py_default_config ty) (doc_config ty) /\
  forall cfg, same_settings ty (py_default_config ty) cfg -> cfg = doc_config ty.
Proof.
  assert (D : forall ty, ty <> COBYLA -> same_settings ty (py_default_config ty) (doc_config ty)).
  { intros ty N. apply to_config_iff. destruct ty; try (vm_compute; reflexivity). destruct N; reflexivity. }
  intros ty N. split; [apply D; auto|]. intros cfg S.
  apply to_config_iff in S. pose proof (proj2 (to_config_iff _ _ _) (D ty N)) as K. congruence.
Qed.
Print Assumptions C70_other_solvers_partial.
Theorem C70_hager_zhang_partial : forall l, same_line_search py_hz_default l -> l = doc_hager_zhang.
Proof. intros l S. apply line_search_iff in S. subst l. vm_compute. reflexivity. Qed.
Print Assumptions C70_hager_zhang_partial.
(** Without any option, and with default parameters, [optimize] runs the optimizer that Rust
    builds from its own default parameters, in sequential mode. *)
Theorem C70_call : forall E, exists o, oq_new params_default = Ok o /\
  py_build E py_default_args = Ok (parallel false o).
Proof. intro E. eexists. split; [vm_compute; reflexivity|]. vm_compute. reflexivity. Qed.
Print Assumptions C70_call.
Example C70_example : py_to_config NelderMead (py_default_config NelderMead) = Some doc_nelder_mead /\
  py_to_config COBYLA (py_default_config COBYLA) <> Some doc_cobyla.
Proof. split; [vm_compute; reflexivity|]. vm_compute. discriminate. Qed.

(** C71: the result object *)
Theorem C71_best : forall l, match py_best l with
  | None => l = []
  | Some y => exists n, nth_error l n = Some y /\
      forall j z, nth_error l j = Some z ->
        total_le (ls_obj y) (ls_obj z) = true /\ (j < n -> total_lt (ls_obj y) (ls_obj z) = true)
  end.
Proof. exact best_solution_spec. Qed.
Print Assumptions C71_best.
(** [n] steps of an iterator give the first [n] solutions and then stop *)
Theorem C71_iteration : forall l n, iterate n l 0 = map (nth_error l) (seq 0 n).
Proof. intros l n. apply iterate_all. lia. Qed.
Print Assumptions C71_iteration.
Example C71_example : iterate 3 [sol1 f1 f2; sol1 f2 f1] 0 = [Some (sol1 f1 f2); Some (sol1 f2 f1); None] /\
  py_best [sol1 f1 f2; sol1 f2 f1] = Some (sol1 f2 f1).
Proof. vm_compute. auto. Qed.

(** C72 is false of the code: a Python callback shadows a built-in one installed later. *)
Definition C72_full : Prop := forall cs,
  clone_inner (fold_left pob_apply cs pob_new) = fold_left same_call cs obs_new.
Theorem C72_callback_refuted : ~ C72_full.
Proof. intros H. specialize (H [PobCallback 7; PobDefault]). discriminate H. Qed.
Print Assumptions C72_callback_refuted.
Theorem C72_all_but_callback_partial : forall cs,
  same_but_callback (clone_inner (fold_left pob_apply cs pob_new)) (fold_left same_call cs obs_new).
Proof. exact pob_but_callback. Qed.
Print Assumptions C72_all_but_callback_partial.
Theorem C72_same_observer_partial : forall cs,
  (forall a n b, cs = a ++ PobCallback n :: b -> forall c, In c b -> installs_builtin c = false) ->
  clone_inner (fold_left pob_apply cs pob_new) = fold_left same_call cs obs_new.
Proof. exact pob_same. Qed.
Print Assumptions C72_same_observer_partial.
Example C72_example : clone_inner (fold_left pob_apply [PobStage2; PobDefault; PobFrequency 3; PobCallback 7; PobMode Stage2Only] pob_new)
  = mk_obs Stage2Only None (Some s2_new) false (Some (CbUser 7)) 3 false false None false.
Proof. reflexivity. Qed.
