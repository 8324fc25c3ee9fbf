(** * Python observers (C91, C92) *)
From Coq Require Import ZArith NArith List Bool Arith Lia String.
From Verif Require Import F64 Base Builders Types Filters Runner Observer Env ScatterSearch Codec Checkpoint Oqnlp Spec SpecObserver
  PyBind PyObserver SpecPyObserver PyObserverP Demo Properties_Py.
Import ListNotations.
Local Open Scope string_scope.

(** ** C91: what the documentation of the Python observers shows works *)
(** The attributes of the states are the documented ones, and no others. *)
Theorem C91_stage1_attributes : forall ck vars s a h, eval ck vars (EAttr (EVal (VS1 s)) a) h =
  (match assoc a (doc_stage1 ck s) with Some v => Ok v | None => Err AttributeError end, h).
Proof. exact attrs1. Qed.
Print Assumptions C91_stage1_attributes.
Theorem C91_stage2_attributes : forall ck vars s a h, eval ck vars (EAttr (EVal (VS2 s)) a) h =
  (match assoc a (doc_stage2 ck s) with Some v => Ok v | None => Err AttributeError end, h).
Proof. exact attrs2. Qed.
Print Assumptions C91_stage2_attributes.
(** The documented properties and readers of an observer object, in any state of it. *)
Theorem C91_properties : forall ck vars i c h a v, nth_error (ps_cells h) i = Some c -> In (a, v) (doc_properties ck (c_obj c)) ->
  eval ck vars (EAttr (EVal (VObs i)) a) h = (Ok v, h).
Proof. exact props. Qed.
Print Assumptions C91_properties.
Theorem C91_readers : forall ck vars i c h m v, nth_error (ps_cells h) i = Some c -> In (m, v) (doc_readers (c_obj c)) ->
  eval ck vars (ECall0 (EAttr (EVal (VObs i)) m)) h = (Ok v, h).
Proof. exact readers. Qed.
Print Assumptions C91_readers.
(** A configuration method applies its setting to the object (C70 says what the setting does), returns
    None and touches no other object; it is refused, without effect, while a run uses the object. *)
Theorem C91_settings : forall ck vars i c h m args k, nth_error (ps_cells h) i = Some c -> doc_config m args k ->
  eval ck vars (method_call (EVal (VObs i)) m args) h =
    if Nat.eqb (c_borrows c) 0 then (Ok VNone, mk_ps (put i (mk_cell (pob_apply (c_obj c) k) 0) (ps_cells h)) (ps_out h))
    else (Err RuntimeError, h).
Proof. exact setters. Qed.
Print Assumptions C91_settings.

Definition demo_clock : clock := mk_clock (fun _ => None) (fun _ => None) (fun _ => None).
Definition tracked : py_observer := fold_left pob_apply [PobStage1; PobStage2; PobCallback 0] pob_new.
Definition tracked_state : py_state := mk_ps [mk_cell tracked 0] [].
Example C91_settings_example :
  eval demo_clock [] (ESeq (method_call (EVal (VObs 0)) "with_callback_frequency" [VInt 5])
                           (method_call (EVal (VObs 0)) "with_mode" [VMode Stage2Only])) tracked_state =
    (Ok VNone, mk_ps [mk_cell (fold_left pob_apply [PobFrequency 5; PobMode Stage2Only] tracked) 0] []) /\
  fst (eval demo_clock [] (EAttr (EVal (VObs 0)) "should_observe_stage1") tracked_state) = Ok (VBool true) /\
  fst (eval demo_clock [] (ECall0 (EAttr (EVal (VObs 0)) "stage1_final")) tracked_state) = Ok (VS1 s1_new).
Proof. vm_compute. auto. Qed.

(** Not every method of the stub file exists: [flush_messages] does not. *)
Definition C91_methods_full : Prop := forall ck vars i c h m, nth_error (ps_cells h) i = Some c -> In m stub_methods ->
  exists v, eval ck vars (EAttr (EVal (VObs i)) m) h = (Ok v, h).
Theorem C91_methods_refuted : ~ C91_methods_full.
Proof.
  intro H. destruct (H demo_clock [] 0 (mk_cell tracked 0) tracked_state "flush_messages") as [v Hv]; [reflexivity| |discriminate Hv].
  do 13 right. left. reflexivity.
Qed.
Print Assumptions C91_methods_refuted.
Theorem C91_methods_partial : forall ck vars i c h m, nth_error (ps_cells h) i = Some c -> In m stub_methods -> m <> "flush_messages" ->
  exists v, eval ck vars (EAttr (EVal (VObs i)) m) h = (Ok v, h).
Proof. exact methods. Qed.
Print Assumptions C91_methods_partial.

(** The documented chain of configuration methods raises AttributeError at its second call: the
    methods return None.  Only the first call has taken effect. *)
Definition C91_chain_full : Prop := forall ck h, exists i h',
  eval ck [] doc_chain h = (Ok (VObs i), h') /\
  nth_error (ps_cells h') i = Some (mk_cell (fold_left pob_apply [PobStage1; PobStage2; PobDefault] pob_new) 0).
Theorem C91_chain_refuted : ~ C91_chain_full.
Proof. intro H. destruct (H demo_clock tracked_state) as (i & h' & X & _). discriminate X. Qed.
Print Assumptions C91_chain_refuted.
Theorem C91_chain : forall ck h,
  eval ck [] doc_chain h = (Err AttributeError, mk_ps (ps_cells h ++ [mk_cell (pob_apply pob_new PobStage1) 0]) (ps_out h)).
Proof. exact chain. Qed.
Print Assumptions C91_chain.
Theorem C91_no_chain : forall ck vars i c h m args k a, nth_error (ps_cells h) i = Some c -> doc_config m args k -> c_borrows c = 0 ->
  eval ck vars (EAttr (method_call (EVal (VObs i)) m args) a) h =
    (Err AttributeError, mk_ps (put i (mk_cell (pob_apply (c_obj c) k) 0) (ps_cells h)) (ps_out h)).
Proof. exact chained. Qed.
Print Assumptions C91_no_chain.

(** The callback of the stub file prints, at every moment a callback is called and in their order,
    what the states then show; Python callbacks cannot change the observer of the run. *)
Theorem C91_callback : forall ck funs E a i p s n, only_looks (e_callback E) -> object_is s i p -> po_callback p = Some n ->
  funs n = stub_callback ->
  ps_out (snd (optimize_with ck funs E a i s)) = (rev (flat_map doc_print (moments E a p)) ++ ps_out s)%list.
Proof. exact stub_prints. Qed.
Print Assumptions C91_callback.
Lemma wells_looks : only_looks (e_callback wells_env). Proof. repeat intro. reflexivity. Qed.
Example C91_callback_example :
  object_is tracked_state 0 tracked /\ po_callback tracked = Some 0 /\
  flat_map doc_print (moments wells_env (demo_args None None) tracked) = map VInt [0; 6; 6; 6; 9; 9; 0; 1; 2; 3; 4; 5] /\
  rev (ps_out (snd (optimize_with demo_clock (fun _ => stub_callback) wells_env (demo_args None None) 0 tracked_state))) =
    map VInt [0; 6; 6; 6; 9; 9; 0; 1; 2; 3; 4; 5].
Proof. vm_compute. auto. Qed.

(** The callback in the documentation of [with_callback] calls the attributes: it raises TypeError
    whenever there is something to print, and prints nothing in any run. *)
Definition C91_source_callback_full : Prop := forall ck funs E a i p s n, only_looks (e_callback E) -> object_is s i p ->
  po_callback p = Some n -> funs n = source_callback ->
  ps_out (snd (optimize_with ck funs E a i s)) = (rev (flat_map doc_print (moments E a p)) ++ ps_out s)%list.
Theorem C91_source_callback : forall ck funs E a i p s n, only_looks (e_callback E) -> object_is s i p -> po_callback p = Some n ->
  funs n = source_callback -> ps_out (snd (optimize_with ck funs E a i s)) = ps_out s.
Proof. intros. eapply silent_prints; eauto. Qed.
Print Assumptions C91_source_callback.
Theorem C91_source_callback_refuted : ~ C91_source_callback_full.
Proof.
  intro H. specialize (H demo_clock (fun _ => source_callback) wells_env (demo_args None None) 0 tracked tracked_state 0 wells_looks eq_refl eq_refl eq_refl).
  rewrite (C91_source_callback demo_clock (fun _ => source_callback) wells_env (demo_args None None) 0 tracked tracked_state 0 wells_looks eq_refl eq_refl eq_refl) in H.
  destruct C91_callback_example as (_ & _ & X & _). rewrite X in H. discriminate H.
Qed.
Print Assumptions C91_source_callback_refuted.
(** The callback in the documentation of the class has one parameter, and is called with two
    arguments: it prints nothing in any run. *)
Definition C91_class_callback_full : Prop := forall ck funs E a i p s n, only_looks (e_callback E) -> object_is s i p ->
  po_callback p = Some n -> funs n = class_callback ->
  ps_out (snd (optimize_with ck funs E a i s)) = (rev (flat_map class_print (moments E a p)) ++ ps_out s)%list.
Theorem C91_class_callback : forall ck funs E a i p s n, only_looks (e_callback E) -> object_is s i p -> po_callback p = Some n ->
  funs n = class_callback -> ps_out (snd (optimize_with ck funs E a i s)) = ps_out s.
Proof. intros ck funs E a i p s n Hu Ho Hp Hf. eapply silent_prints; eauto. right. rewrite Hf. discriminate. Qed.
Print Assumptions C91_class_callback.
Example class_moments : List.length (flat_map class_print (moments wells_env (demo_args None None) tracked)) = 12.
Proof. vm_compute. reflexivity. Qed.
Theorem C91_class_callback_refuted : ~ C91_class_callback_full.
Proof.
  intro H. specialize (H demo_clock (fun _ => class_callback) wells_env (demo_args None None) 0 tracked tracked_state 0 wells_looks eq_refl eq_refl eq_refl).
  rewrite (C91_class_callback demo_clock (fun _ => class_callback) wells_env (demo_args None None) 0 tracked tracked_state 0 wells_looks eq_refl eq_refl eq_refl) in H.
  pose proof class_moments as X. apply (f_equal (@List.length val)) in H. rewrite app_length, rev_length, X in H. discriminate H.
Qed.
Print Assumptions C91_class_callback_refuted.

(** "Basic observer with default logging": without tracking, the default callback logs nothing in any
    run, successful or not. *)
Definition C91_logging_full : Prop := forall ck funs E a i s l s', object_is s i (pob_apply pob_new PobDefault) ->
  optimize_with ck funs E a i s = (Ok l, s') -> logged_lines (py_record E (with_observer (pob_apply pob_new PobDefault) a)) <> [].
Theorem C91_logging : forall E a, logged_lines (py_record E (with_observer (pob_apply pob_new PobDefault) a)) = [].
Proof. exact logs_nothing. Qed.
Print Assumptions C91_logging.
Definition succeeds {A B C} (r : outcome A B * C) : bool := match fst r with Ok _ => true | _ => false end.
Lemma succeeds_ok : forall A B C (r : outcome A B * C), succeeds r = true -> exists b, r = (Ok b, snd r).
Proof. intros A B C [[b|e|] c] H; try discriminate. exists b. reflexivity. Qed.
Definition logging_state : py_state := mk_ps [mk_cell (pob_apply pob_new PobDefault) 0] [].
Example logging_runs : succeeds (optimize_with demo_clock (fun _ => stub_callback) wells_env (demo_args None None) 0 logging_state) = true.
Proof. vm_compute. reflexivity. Qed.
Theorem C91_logging_refuted : ~ C91_logging_full.
Proof.
  intro H. destruct (succeeds_ok _ _ _ _ logging_runs) as [l Hl].
  apply (H _ _ _ _ _ _ _ _ (eq_refl : object_is logging_state 0 (pob_apply pob_new PobDefault)) Hl). apply C91_logging.
Qed.
Print Assumptions C91_logging_refuted.
(** with tracking it does log *)
Example C91_logging_example :
  List.length (logged_lines (py_record wells_env (with_observer (fold_left pob_apply [PobStage1; PobStage2; PobDefault] pob_new) (demo_args None None)))) = 10.
Proof. vm_compute. reflexivity. Qed.

(** The final statistics: without a target and with both stages tracked, the documented expression
    gives the sum of the two counters after every successful run; with a target it can raise
    AttributeError, because Stage 2 is None when Stage 1 reached the target. *)
Definition C91_statistics_full : Prop := forall ck funs E a i p s l s', only_looks (e_callback E) -> object_is s i p ->
  ob_stage1 (po_inner p) <> None -> ob_stage2 (po_inner p) <> None ->
  optimize_with ck funs E a i s = (Ok l, s') ->
  exists n, eval ck [] (doc_statistics i) s' = (Ok (VInt n), s').
Theorem C91_statistics_partial : forall ck funs E a i p s l s', only_looks (e_callback E) -> object_is s i p ->
  ob_stage1 (po_inner p) <> None -> ob_stage2 (po_inner p) <> None -> pa_target a = None ->
  optimize_with ck funs E a i s = (Ok l, s') ->
  exists q s1 s2, object_is s' i q /\ obs_stage1_final (po_inner q) = Some s1 /\ obs_stage2 (po_inner q) = Some s2 /\
    eval ck [] (doc_statistics i) s' = (Ok (VInt (s1_evals s1 + s2_evals s2)), s').
Proof. exact statistics. Qed.
Print Assumptions C91_statistics_partial.
Example C91_statistics_example :
  let r := optimize_with demo_clock (fun _ => stub_callback) wells_env (demo_args None None) 0 tracked_state in
  succeeds r = true /\ fst (eval demo_clock [] (doc_statistics 0) (snd r)) = Ok (VInt 15).
Proof. vm_compute. auto. Qed.
Definition targeted (a : py_args) (t : f64) : py_args :=
  mk_pa (pa_iterations a) (pa_population a) (pa_wait_cycle a) (pa_threshold_factor a) (pa_distance_factor a)
    (pa_abs_tol a) (pa_rel_tol a) (pa_observer a) (pa_solver a) (pa_config a) (pa_seed a) (Some t) (pa_max_time a)
    (pa_exclude a) (pa_parallel a) (pa_points a).
Example targeted_runs :
  let r := optimize_with demo_clock (fun _ => stub_callback) wells_env (targeted (demo_args None None) (of_Z 1000)) 0 tracked_state in
  succeeds r = true /\ fst (eval demo_clock [] (doc_statistics 0) (snd r)) = Err AttributeError.
Proof. vm_compute. auto. Qed.
Theorem C91_statistics_refuted : ~ C91_statistics_full.
Proof.
  intro H. destruct targeted_runs as [Hs Hx]. destruct (succeeds_ok _ _ _ _ Hs) as [l Hl]. clear Hs.
  destruct (H demo_clock (fun _ => stub_callback) wells_env (targeted (demo_args None None) (of_Z 1000)) 0 tracked tracked_state l _ wells_looks eq_refl ltac:(discriminate) ltac:(discriminate) Hl) as [n Hn].
  clear Hl.
  rewrite Hn in Hx. discriminate Hx.
Qed.
Print Assumptions C91_statistics_refuted.

(** ** C92: the observer object during and after a run *)
(** "Access current Stage 2 state during optimization using observer.stage2()" (the same for Stage 1):
    at every callback the object shows what it showed before the run, whatever the callbacks do. *)
Definition C92_live_full : Prop := forall ck funs E a i p s k ob, only_looks (e_callback E) -> object_is s i p ->
  nth_error (moments E a p) k = Some ob ->
  let h := at_callback ck funs E a i p s k in
  eval ck [] (ECall0 (EAttr (EVal (VObs i)) "stage1")) h = (Ok (none_or VS1 (obs_stage1 ob)), h) /\
  eval ck [] (ECall0 (EAttr (EVal (VObs i)) "stage2")) h = (Ok (none_or VS2 (obs_stage2 ob)), h).
Theorem C92_stale : forall ck funs E a i p s k vars m v, object_is s i p -> In (m, v) (doc_readers p) ->
  let h := at_callback ck funs E a i p s k in
  eval ck vars (ECall0 (EAttr (EVal (VObs i)) m)) h = (Ok v, h).
Proof. exact stale. Qed.
Print Assumptions C92_stale.
Example live_moment : exists ob, nth_error (moments wells_env (demo_args None None) tracked) 11 = Some ob /\
  option_map s2_iteration (obs_stage2 ob) = Some 5.
Proof. vm_compute. eexists; auto. Qed.
Theorem C92_live_refuted : ~ C92_live_full.
Proof.
  intro H. destruct live_moment as (ob & Hk & Ho).
  specialize (H demo_clock (fun _ => stub_callback) wells_env (demo_args None None) 0 tracked tracked_state 11 ob wells_looks eq_refl Hk).
  cbv zeta in H. destruct H as [_ H].
  rewrite (C92_stale demo_clock (fun _ => stub_callback) wells_env (demo_args None None) 0 tracked tracked_state 11 [] "stage2" VNone eq_refl) in H; [|right; right; left; reflexivity].
  clear Hk. destruct (obs_stage2 ob); [discriminate H|discriminate Ho].
Qed.
Print Assumptions C92_live_refuted.
(** During a run the object cannot be changed: every configuration method raises RuntimeError. *)
Theorem C92_locked : forall ck funs E a i p s k vars m args c, object_is s i p -> doc_config m args c ->
  let h := at_callback ck funs E a i p s k in
  eval ck vars (method_call (EVal (VObs i)) m args) h = (Err RuntimeError, h).
Proof. exact locked. Qed.
Print Assumptions C92_locked.
Definition meddling : py_fun := mk_fun 2 (ESeq (EPrint (EVal (VInt 7))) (ESeq (method_call (EVal (VObs 0)) "with_timing" []) (EPrint (EVal (VInt 8))))).
Example C92_locked_example :
  ps_out (at_callback demo_clock (fun _ => meddling) wells_env (demo_args None None) 0 tracked tracked_state 3) = map VInt [7; 7; 7] /\
  ps_cells (at_callback demo_clock (fun _ => meddling) wells_env (demo_args None None) 0 tracked tracked_state 3) = [mk_cell tracked 1].
Proof. vm_compute. auto. Qed.
(** After a successful run the object shows the final observer of the run and keeps its callable;
    after a failed one it is what it was.  Either way it is free again, and what the callbacks did
    has no influence. *)
Theorem C92_after : forall ck funs E a b i p s, object_is s i p -> given_observer p a b ->
  let r := optimize_with ck funs E a i s in
  (forall l, fst r = Ok l -> exists o s' ob, py_build E b = Ok o /\ run E (mk_st o py_world) = (Ok l, s') /\
     o_observer (s_o s') = Some ob /\ object_is (snd r) i (mk_pob ob (po_callback p))) /\
  ((forall l, fst r <> Ok l) -> object_is (snd r) i p).
Proof. intros ck funs E a b i p s H G. rewrite (given_is _ _ _ G). exact (after ck funs E a i p s H). Qed.
Print Assumptions C92_after.
(** The result does not depend on the callbacks, and an exception in a callback is not seen. *)
Theorem C92_result : forall ck funs E a b i p s, object_is s i p -> given_observer p a b ->
  fst (optimize_with ck funs E a i s) =
    match fst (py_optimize E b) with Ok l => Ok l | Err e => Err (ValueError e) | Panic => Panic end.
Proof. intros ck funs E a b i p s H G. rewrite (given_is _ _ _ G). exact (same_result ck funs E a i p s H). Qed.
Print Assumptions C92_result.
Example C92_given_example : given_observer tracked (demo_args None None) (with_observer tracked (demo_args None None)) /\
  pa_population (demo_args None None) = 6.
Proof. repeat split. Qed.
Example C92_result_example :
  fst (optimize_with demo_clock (fun _ => meddling) wells_env (demo_args None None) 0 tracked_state) =
  fst (optimize_with demo_clock (fun _ => stub_callback) wells_env (demo_args None None) 0 tracked_state) /\
  (exists q, ps_cells (snd (optimize_with demo_clock (fun _ => meddling) wells_env (demo_args None None) 0 tracked_state)) = [mk_cell q 0] /\
    option_map s2_iteration (obs_stage2 (po_inner q)) = Some 5).
Proof. split; [vm_compute; reflexivity|]. vm_compute. eexists; auto. Qed.
(** An observer that served one successful run shows no Stage 1 progress to the callbacks of later
    runs, although it still tracks Stage 1. *)
Theorem C92_reused : forall ck funs E a i p s l s' q E' a', only_looks (e_callback E) -> only_looks (e_callback E') -> object_is s i p ->
  optimize_with ck funs E a i s = (Ok l, s') -> object_is s' i q -> Forall (fun ob => obs_stage1 ob = None) (moments E' a' q).
Proof. exact reused. Qed.
Print Assumptions C92_reused.
Definition C92_reused_full : Prop := forall E a p, only_looks (e_callback E) -> po_callback p <> None -> should_observe_stage1 (po_inner p) = true ->
  moments E a p <> [] -> exists ob, In ob (moments E a p) /\ obs_stage1 ob <> None.
Definition used : py_observer :=
  match ps_cells (snd (optimize_with demo_clock (fun _ => stub_callback) wells_env (demo_args None None) 0 tracked_state)) with
  | c :: _ => c_obj c | [] => tracked end.
Example used_shape : po_callback used = Some 0 /\ should_observe_stage1 (po_inner used) = true /\
  object_is (snd (optimize_with demo_clock (fun _ => stub_callback) wells_env (demo_args None None) 0 tracked_state)) 0 used /\
  List.length (moments wells_env (demo_args None None) used) = 12.
Proof. vm_compute. auto. Qed.
Theorem C92_reused_refuted : ~ C92_reused_full.
Proof.
  intro H. destruct used_shape as (U1 & U2 & U3 & U4).
  destruct (succeeds_ok _ _ _ _ (proj1 C91_statistics_example)) as [l Hl].
  pose proof (C92_reused demo_clock (fun _ => stub_callback) wells_env (demo_args None None) 0 tracked tracked_state l _ used
    wells_env (demo_args None None) wells_looks wells_looks eq_refl Hl U3) as G. clear Hl U3.
  destruct (H wells_env (demo_args None None) used wells_looks) as (ob & Hi & Ho).
  - rewrite U1. discriminate.
  - exact U2.
  - intro X. rewrite X in U4. discriminate U4.
  - rewrite Forall_forall in G. exact (Ho (G ob Hi)).
Qed.
Print Assumptions C92_reused_refuted.
