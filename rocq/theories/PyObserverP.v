(** * Python observers (C91, C92) *)
From Coq Require Import ZArith NArith List Bool Arith Lia String.
From Verif Require Import F64 Base Builders Types Filters Runner Observer Env ScatterSearch Codec Checkpoint Oqnlp Spec SpecStage2 SpecObserver
  PyBind SpecPyBind PyBindP EmitsP HoareP PyObserver SpecPyObserver ObsInvP.
Import ListNotations.
Local Open Scope monad_scope.

(** ** Attributes and methods *)
Lemma attrs1 : forall ck vars s a h, eval ck vars (EAttr (EVal (VS1 s)) a) h =
  (match assoc a (doc_stage1 ck s) with Some v => Ok v | None => Err AttributeError end, h).
Proof.
  intros. simpl. unfold bind, ret, attribute, attr_s1, fail, of_opt, none_or.
  repeat (match goal with |- context [String.eqb a ?x] => destruct (String.eqb a x); [reflexivity|] end). reflexivity.
Qed.
Lemma attrs2 : forall ck vars s a h, eval ck vars (EAttr (EVal (VS2 s)) a) h =
  (match assoc a (doc_stage2 ck s) with Some v => Ok v | None => Err AttributeError end, h).
Proof.
  intros. simpl. unfold bind, ret, attribute, attr_s2, fail, of_opt, none_or.
  repeat (match goal with |- context [String.eqb a ?x] => destruct (String.eqb a x); [reflexivity|] end). reflexivity.
Qed.
Lemma props : forall ck vars i c h a v, nth_error (ps_cells h) i = Some c -> In (a, v) (doc_properties ck (c_obj c)) ->
  eval ck vars (EAttr (EVal (VObs i)) a) h = (Ok v, h).
Proof.
  intros ck vars i c h a v H X. simpl. unfold bind, ret, attribute, cell_at, bind. rewrite H.
  simpl in X. destruct X as [X|[X|[X|[X|[]]]]]; injection X as <- <-; reflexivity.
Qed.
Lemma readers : forall ck vars i c h m v, nth_error (ps_cells h) i = Some c -> In (m, v) (doc_readers (c_obj c)) ->
  eval ck vars (ECall0 (EAttr (EVal (VObs i)) m)) h = (Ok v, h).
Proof.
  intros ck vars i c h m v H X. simpl in X. destruct X as [X|[X|[X|[]]]]; injection X as <- <-;
    cbn [eval]; unfold bind, ret, attribute, bind, cell_at; rewrite H; simpl; unfold bind, cell_at; rewrite H; reflexivity.
Qed.
Lemma setters : forall ck vars i c h m args k, nth_error (ps_cells h) i = Some c -> doc_config m args k ->
  eval ck vars (method_call (EVal (VObs i)) m args) h =
    if Nat.eqb (c_borrows c) 0 then (Ok VNone, mk_ps (put i (mk_cell (pob_apply (c_obj c) k) 0) (ps_cells h)) (ps_out h))
    else (Err RuntimeError, h).
Proof.
  intros ck vars i c h m args k H X. destruct X; unfold method_call; cbn [eval]; unfold bind, ret, attribute, bind, cell_at; rewrite H; simpl;
    unfold change, cell_at, bind; rewrite H; simpl; destruct (c_borrows c); reflexivity.
Qed.
(** the result of a configuration method has no attributes *)
Lemma chained : forall ck vars i c h m args k a, nth_error (ps_cells h) i = Some c -> doc_config m args k -> c_borrows c = 0 ->
  eval ck vars (EAttr (method_call (EVal (VObs i)) m args) a) h =
    (Err AttributeError, mk_ps (put i (mk_cell (pob_apply (c_obj c) k) 0) (ps_cells h)) (ps_out h)).
Proof.
  intros ck vars i c h m args k a H X B. cbn [eval]. unfold bind at 1. rewrite (setters ck vars i c h m args k H X), B. reflexivity.
Qed.

(** ** What expressions leave alone *)
Lemma put_other : forall A i j (a : A) l, i <> j -> nth_error (put i a l) j = nth_error l j.
Proof. intros A i j a l. revert i j. induction l as [|b l IH]; intros [|i] [|j] H; simpl; auto; congruence. Qed.
Lemma put_same : forall A i (a b : A) l, nth_error l i = Some b -> nth_error (put i a l) i = Some a.
Proof. intros A i a b. induction i as [|i IH]; intros [|x l] H; simpl in *; try discriminate; auto. Qed.
Lemma put_put : forall A i (a b : A) l, put i a (put i b l) = put i a l.
Proof. intros A i a b. induction i as [|i IH]; intros [|x l]; simpl; auto. f_equal. auto. Qed.
Definition held (i : nat) (c : cell) (s : py_state) : Prop := nth_error (ps_cells s) i = Some c.
Definition safe {A} (i : nat) (c : cell) (m : PM A) : Prop := forall s, held i c s -> held i c (snd (m s)).
Lemma safe_bind : forall A B i c (m : PM A) (k : A -> PM B), safe i c m -> (forall a, safe i c (k a)) -> safe i c (bind m k).
Proof. intros A B i c m k Hm Hk s Hs. unfold bind. specialize (Hm s Hs). destruct (m s) as [[a|e|] s']; simpl in *; auto. apply Hk, Hm. Qed.
Lemma safe_ret : forall A i c (a : A), safe i c (ret a). Proof. intros A i c a s H. exact H. Qed.
Lemma safe_fail : forall A i c e, @safe A i c (fail e). Proof. intros A i c a s H. exact H. Qed.
Lemma safe_cell : forall i c j, safe i c (cell_at j).
Proof. intros i c j s H. unfold cell_at. destruct (nth_error (ps_cells s) j); exact H. Qed.
Lemma safe_change : forall i c j k, c_borrows c <> 0 -> safe i c (change j k).
Proof.
  intros i c j k B s H. unfold change, cell_at, bind. destruct (nth_error (ps_cells s) j) as [d|] eqn:D; [|exact H].
  destruct (Nat.eqb (c_borrows d) 0) eqn:Q; [|exact H]. simpl. unfold held. simpl. rewrite put_other; [exact H|].
  intros ->. unfold held in H. rewrite H in D. injection D as <-. apply Nat.eqb_eq in Q. contradiction.
Qed.
Lemma safe_eval : forall ck vars e i c, c_borrows c <> 0 -> safe i c (eval ck vars e).
Proof.
  intros ck vars e i c B. induction e; simpl.
  - apply safe_ret.
  - destruct (nth_error vars n); [apply safe_ret|apply safe_fail].
  - intros s H. unfold held in *. simpl. rewrite nth_error_app1; [exact H|]. apply nth_error_Some. congruence.
  - apply safe_bind; [exact IHe|]. intro v. unfold attribute. destruct v; try apply safe_fail.
    + destruct (attr_s1 ck s a); [apply safe_ret|apply safe_fail].
    + destruct (attr_s2 ck s a); [apply safe_ret|apply safe_fail].
    + apply safe_bind; [apply safe_cell|]. intro d. destruct (attr_obs _ _ _ _); [apply safe_ret|apply safe_fail].
  - apply safe_bind; [exact IHe|]. intro v. unfold call0. destruct v; try apply safe_fail.
    destruct (setter0 m); [apply safe_change, B|]. apply safe_bind; [apply safe_cell|]. intro d. destruct (reader _ _); [apply safe_ret|apply safe_fail].
  - apply safe_bind; [exact IHe1|]. intro f. apply safe_bind; [exact IHe2|]. intro v. unfold call1. destruct f; try apply safe_fail.
    destruct (setter1 m v) as [[k|]|]; [apply safe_change, B|apply safe_fail..].
  - apply safe_bind; [exact IHe1|]. intro v. apply safe_bind; [exact IHe2|]. intro w. destruct v; try apply safe_fail. destruct w; try apply safe_fail. apply safe_ret.
  - apply safe_bind; [exact IHe|]. intro v. apply safe_bind; [|intro; apply safe_ret]. intros s H. exact H.
  - apply safe_bind; [exact IHe1|]. intro v. destruct (truthy v); [exact IHe2|apply safe_ret].
  - apply safe_bind; [exact IHe1|]. intro. exact IHe2.
Qed.
Lemma call_back_ok : forall ck funs ob s, fst (call_back ck funs ob s) = Ok tt.
Proof.
  intros. unfold call_back. destruct (ob_callback ob) as [[n| | |]|]; try reflexivity. destruct (Nat.eqb _ _); [|reflexivity].
  destruct (eval _ _ _ _); reflexivity.
Qed.
Lemma safe_call_back : forall ck funs ob i c, c_borrows c <> 0 -> safe i c (call_back ck funs ob).
Proof.
  intros ck funs ob i c B s H. unfold call_back. destruct (ob_callback ob) as [[n| | |]|]; try exact H. destruct (Nat.eqb _ _); [|exact H].
  pose proof (safe_eval ck [of_opt VS1 (obs_stage1 ob); of_opt VS2 (obs_stage2 ob)] (fn_body (funs n)) i c B s H) as G.
  destruct (eval _ _ _ _). exact G.
Qed.
Lemma calls_ok : forall ck funs l s, fst (for_each l (call_back ck funs) s) = Ok tt.
Proof.
  intros ck funs l. induction l as [|ob l IH]; intro s; simpl; [reflexivity|]. unfold bind.
  pose proof (call_back_ok ck funs ob s) as G. destruct (call_back ck funs ob s) as [r s1]. simpl in G. subst r. apply IH.
Qed.
Lemma safe_calls : forall ck funs l i c, c_borrows c <> 0 -> safe i c (for_each l (call_back ck funs)).
Proof.
  intros ck funs l i c B. induction l as [|ob l IH]; simpl; [apply safe_ret|]. apply safe_bind; [apply safe_call_back, B|intro; exact IH].
Qed.
(** ** During and after a run *)
Lemma during : forall ck funs E a i p s k, object_is s i p ->
  nth_error (ps_cells (at_callback ck funs E a i p s k)) i = Some (mk_cell p 1).
Proof.
  intros ck funs E a i p s k H. unfold at_callback. apply (safe_calls ck funs _ i (mk_cell p 1)); [discriminate|].
  unfold held. simpl. eapply put_same. exact H.
Qed.
Lemma optimize_steps : forall ck funs E a i p s, object_is s i p ->
  let a' := with_observer p a in
  let s1 := snd (for_each (moments E a p) (call_back ck funs) (mk_ps (put i (mk_cell p 1) (ps_cells s)) (ps_out s))) in
  optimize_with ck funs E a i s =
    (match fst (py_optimize E a') with Ok l => Ok l | Err e => Err (ValueError e) | Panic => Panic end,
     mk_ps (put i (mk_cell (match snd (py_optimize E a') with Some q => q | None => p end) 0) (ps_cells s1)) (ps_out s1)).
Proof.
  intros ck funs E a i p s H a' s1. unfold optimize_with. unfold bind at 1, cell_at. rewrite H. cbv zeta. cbn [c_obj c_borrows].
  fold a'. unfold bind at 1, store, modify.
  pose proof (calls_ok ck funs (moments E a p) (mk_ps (put i (mk_cell p 1) (ps_cells s)) (ps_out s))) as G1.
  pose proof (safe_calls ck funs (moments E a p) i (mk_cell p 1) ltac:(discriminate) (mk_ps (put i (mk_cell p 1) (ps_cells s)) (ps_out s))
    (put_same _ i _ _ _ H)) as G2. fold s1 in G2. unfold s1 in *. clear s1. change (callback_moments (py_record E a')) with (moments E a p).
  unfold bind at 1. destruct (for_each (moments E a p) (call_back ck funs) _) as [r s1]. simpl in G1, G2. subst r. cbn [snd].
  destruct (py_optimize E a') as [r q]. unfold bind. unfold held in G2. rewrite G2. simpl. destruct r; reflexivity.
Qed.

(** ** The output of the documented callbacks *)
Lemma py_record_run : forall E a o, py_build E a = Ok o -> py_record E a = w_trace (s_w (snd (run E (mk_st o py_world)))).
Proof. intros E a o H. unfold py_record. rewrite H. reflexivity. Qed.
Lemma moment_in : forall ob l, In ob (callback_moments l) -> exists e, In e l /\
  match e with EvCallback _ x => x = ob | EvStage1 (SsCallback x) => x = ob | _ => False end.
Proof.
  intros ob l H. unfold callback_moments in H. apply in_flat_map in H as (e & He & Hx). apply in_rev in He. exists e. split; [exact He|].
  destruct e; try contradiction Hx; [destruct e; try contradiction Hx|]; destruct Hx as [->|[]]; reflexivity.
Qed.
(** the observer of the run, and the callable *)
Lemma given_is : forall p a b, given_observer p a b -> b = with_observer p a.
Proof.
  intros p a b H. destruct a, b. unfold given_observer in H. cbn in H.
  destruct H as (-> & -> & -> & -> & -> & -> & -> & -> & -> & -> & -> & -> & -> & -> & -> & ->). reflexivity.
Qed.
Lemma build_observer : forall E a p o, py_build E (with_observer p a) = Ok o -> o_observer o = Some (clone_inner p).
Proof.
  intros E a p o H. unfold py_build in H. simpl in H.
  destruct (from_string _); [|discriminate]. destruct (match pa_config a with Some c => _ | None => _ end); [|discriminate].
  destruct (oq_new _); try discriminate. destruct (match pa_points a with Some l => _ | None => _ end); try discriminate.
  injection H as <-. unfold with_tolerance, set_exclude_out_of_bounds, when_some, add_observer, parallel, target_objective, max_time.
  destruct (or_else false (pa_exclude a)), (pa_max_time a), (pa_target a); reflexivity.
Qed.
Lemma callable_kept : forall E a p n, only_looks (Env.e_callback E) -> po_callback p = Some n ->
  Forall (fun ob => ob_callback ob = Some (CbUser n)) (moments E a p).
Proof.
  intros E a p n Hu Hn. apply Forall_forall. intros ob Hob. unfold moments in Hob. unfold py_record in Hob.
  destruct (py_build E (with_observer p a)) as [o|e|] eqn:B; try contradiction Hob.
  destruct (run E (mk_st o py_world)) as [r s'] eqn:R. cbn [snd] in Hob.
  pose proof (observer_invariant E (fun ob => ob_callback ob = Some (CbUser n))
    (fun e => match e with EvCallback _ x => ob_callback x = Some (CbUser n) | EvStage1 (SsCallback x) => ob_callback x = Some (CbUser n) | _ => True end) False) as G.
  assert (G2 : Forall (fun e => match e with EvCallback _ x => ob_callback x = Some (CbUser n) | EvStage1 (SsCallback x) => ob_callback x = Some (CbUser n) | _ => True end) (w_trace (s_w s'))).
  { eapply (proj2 (G _ _ _ _ _ _ _ _ _ _ _ _ _ _ R _ _)). Unshelve.
    all: clear G; try (intros; exact Logic.I).
    - intros f x X. unfold upd_stage1. destruct (should_observe_stage1 x); [|exact X]. destruct (ob_stage1 x); exact X.
    - intros f x X. unfold upd_stage2. destruct (should_observe_stage2 x); [|exact X]. destruct (ob_stage2 x); exact X.
    - intros f x X. unfold upd_stage2_any. destruct (ob_stage2 x); exact X.
    - intros x X. exact X.
    - intros x X. exact X.
    - intros x X _. unfold invoke_callback. rewrite X. simpl. rewrite Hu. exact X.
    - intros [] X; simpl in *; auto; try contradiction. destruct e; auto; contradiction.
    - intros i x X _. exact X.
    - intros x X _. exact X.
    - cbn [s_o]. rewrite (build_observer _ _ _ _ B). unfold clone_inner. rewrite Hn. reflexivity.
    - constructor. }
  rewrite Forall_forall in G2. apply moment_in in Hob as (e & He & Hx). specialize (G2 e He).
  destruct e; try contradiction; [destruct e; try contradiction|]; subst; exact G2.
Qed.
(** *** one call *)
Lemma out_stub : forall ck funs ob n s, ob_callback ob = Some (CbUser n) -> funs n = stub_callback ->
  snd (call_back ck funs ob s) = mk_ps (ps_cells s) (rev (doc_print ob) ++ ps_out s).
Proof.
  intros ck funs ob n s Hc Hf. unfold call_back. rewrite Hc, Hf. unfold doc_print. destruct s as [cells out].
  destruct (obs_stage1 ob), (obs_stage2 ob); reflexivity.
Qed.
Lemma out_source : forall ck funs ob n s, ob_callback ob = Some (CbUser n) -> funs n = source_callback ->
  snd (call_back ck funs ob s) = s.
Proof.
  intros ck funs ob n s Hc Hf. unfold call_back. rewrite Hc, Hf.
  destruct (obs_stage1 ob), (obs_stage2 ob); reflexivity.
Qed.
Lemma out_arity : forall ck funs ob n s, ob_callback ob = Some (CbUser n) -> fn_arity (funs n) <> 2 ->
  snd (call_back ck funs ob s) = s.
Proof.
  intros ck funs ob n s Hc Hf. unfold call_back. rewrite Hc. apply Nat.eqb_neq in Hf. rewrite Hf. reflexivity.
Qed.
(** *** all calls *)
Lemma calls_cons : forall ck funs ob l s, snd (for_each (ob :: l) (call_back ck funs) s) =
  snd (for_each l (call_back ck funs) (snd (call_back ck funs ob s))).
Proof.
  intros. simpl. unfold bind. pose proof (call_back_ok ck funs ob s) as G. destruct (call_back ck funs ob s) as [r s1]. simpl in G. subst r. reflexivity.
Qed.
Lemma outs_stub : forall ck funs n l s, Forall (fun ob => ob_callback ob = Some (CbUser n)) l -> funs n = stub_callback ->
  snd (for_each l (call_back ck funs) s) = mk_ps (ps_cells s) (rev (flat_map doc_print l) ++ ps_out s).
Proof.
  intros ck funs n l s H Hf. revert s. induction H as [|ob l Hc _ IH]; intro s; [destruct s; reflexivity|].
  rewrite calls_cons, (out_stub ck funs ob n s Hc Hf), IH. cbn [ps_cells ps_out flat_map]. rewrite rev_app_distr, app_assoc. reflexivity.
Qed.
Lemma outs_none : forall ck funs n l s, Forall (fun ob => ob_callback ob = Some (CbUser n)) l ->
  funs n = source_callback \/ fn_arity (funs n) <> 2 -> snd (for_each l (call_back ck funs) s) = s.
Proof.
  intros ck funs n l s H Hf. revert s. induction H as [|ob l Hc _ IH]; intro s; [reflexivity|].
  rewrite calls_cons. destruct Hf as [Hf|Hf]; [rewrite (out_source ck funs ob n s Hc Hf)|rewrite (out_arity ck funs ob n s Hc Hf)]; apply IH.
Qed.
Lemma stub_prints : forall ck funs E a i p s n, only_looks (Env.e_callback E) -> object_is s i p -> po_callback p = Some n -> funs n = stub_callback ->
  ps_out (snd (optimize_with ck funs E a i s)) = rev (flat_map doc_print (moments E a p)) ++ ps_out s.
Proof.
  intros ck funs E a i p s n Hu Ho Hp Hf. rewrite (optimize_steps ck funs E a i p s Ho). cbv zeta. cbn [snd ps_out].
  rewrite (outs_stub ck funs n _ _ (callable_kept E a p n Hu Hp) Hf). reflexivity.
Qed.
Lemma silent_prints : forall ck funs E a i p s n, only_looks (Env.e_callback E) -> object_is s i p -> po_callback p = Some n ->
  funs n = source_callback \/ fn_arity (funs n) <> 2 -> ps_out (snd (optimize_with ck funs E a i s)) = ps_out s.
Proof.
  intros ck funs E a i p s n Hu Ho Hp Hf. rewrite (optimize_steps ck funs E a i p s Ho). cbv zeta. cbn [snd ps_out].
  rewrite (outs_none ck funs n _ _ (callable_kept E a p n Hu Hp) Hf). reflexivity.
Qed.

(** ** The default callback without tracking *)
Definition untracked (ob : observer) : Prop := ob_stage1 ob = None /\ ob_stage2 ob = None /\ ob_callback ob = Some CbDefault.
Lemma untracked_silent : forall u ob, untracked ob -> snd (invoke_callback u ob) = [] /\ untracked (fst (invoke_callback u ob)).
Proof.
  intros u ob (H1 & H2 & H3). unfold invoke_callback. rewrite H3. unfold default_callback, stage1_callback, obs_stage1, obs_stage2. rewrite H1, H2.
  destruct (ob_stage1_completed ob), (ob_stage2_started ob); simpl; repeat split; auto.
Qed.
Lemma logs_nothing : forall E a, logged_lines (py_record E (with_observer (pob_apply pob_new PobDefault) a)) = [].
Proof.
  intros E a. set (p := pob_apply pob_new PobDefault). unfold py_record. destruct (py_build E (with_observer p a)) as [o|e|] eqn:B; try reflexivity.
  destruct (run E (mk_st o py_world)) as [r s'] eqn:R. cbn [snd].
  pose proof (observer_invariant E untracked (fun e => match e with EvPrint _ | EvStage1 (SsPrint _) => False | _ => True end) False) as G.
  assert (G2 : Forall (fun e => match e with EvPrint _ | EvStage1 (SsPrint _) => False | _ => True end) (w_trace (s_w s'))).
  { eapply (proj2 (G _ _ _ _ _ _ _ _ _ _ _ _ _ _ R _ _)). Unshelve.
    all: clear G.
    - intros f x X. pose proof X as (X1 & X2 & X3). unfold upd_stage1, should_observe_stage1. rewrite X1. destruct (ob_mode x); exact X.
    - intros f x X. pose proof X as (X1 & X2 & X3). unfold upd_stage2, should_observe_stage2. rewrite X2. destruct (ob_mode x); exact X.
    - intros f x X. pose proof X as (X1 & X2 & X3). unfold upd_stage2_any. rewrite X2. exact X.
    - intros x X. exact X.
    - intros x X. exact X.
    - intros x X _. apply untracked_silent, X.
    - intros [] X; simpl in *; auto. destruct e; auto.
    - intros; exact Logic.I.
    - intros x m X Hm. rewrite (proj1 (untracked_silent _ x X)) in Hm. exact Hm.
    - intros; exact Logic.I.
    - intros x m X Hm. rewrite (proj1 (untracked_silent _ x X)) in Hm. exact Hm.
    - cbn [s_o]. rewrite (build_observer _ _ _ _ B). repeat split.
    - constructor. }
  clear R B. unfold logged_lines. revert G2. generalize (w_trace (s_w s')). intros l H. induction H as [|e l He _ IH]; [reflexivity|]. simpl. rewrite IH.
  destruct e; try reflexivity; try contradiction. destruct e; try reflexivity; contradiction.
Qed.

(** ** The final statistics *)
Definition never {A} (m : OM (option A)) : Prop := forall s, o_target (s_o s) = None -> forall s', m s <> (Ok None, s').
Lemma never_bind : forall A B (m : OM A) (k : A -> OM (option B)), keeps o_target m -> (forall a, never (k a)) -> never (bind m k).
Proof.
  intros A B m k H1 H2 s Hs s'. unfold bind. specialize (H1 s). destruct (m s) as [[a|e|] s1]; try discriminate. apply H2. simpl in H1. congruence.
Qed.
Lemma never_some : forall A (a : A), never (ret (Some a)). Proof. intros A a s _ s' H. discriminate. Qed.
Lemma never_fail : forall A e, @never A (fail e). Proof. intros A a s _ s' H. discriminate. Qed.
Lemma never_panic : forall A, @never A panic. Proof. intros A s _ s' H. discriminate. Qed.
Lemma no_early_end : forall E, never (stage1_run E).
Proof.
  intro E. unfold stage1_run, end_stage1, stage1_enter.
  apply never_bind; [kp; parts|intro o]. apply never_bind; [kp; parts|intro t].
  destruct (stage1_init E o t) as [s3|e|]; [|apply never_fail|apply never_panic]. destruct (ss_run E s3) as [res sf].
  apply never_bind; [kp; parts|intro]. apply never_bind; [kp; parts|intro].
  destruct res as [[pts cand]|e|]; [|apply never_fail|apply never_panic]. cbv zeta.
  do 10 (apply never_bind; [kp; parts|intro]).
  intros s Hs s'. unfold bind at 1, the_oqnlp, get, ret, bind at 1. cbv beta iota.
  unfold target_reached. rewrite Hs. unfold unwrap, bind at 1. unfold ret at 1. cbv beta iota.
  revert s' . assert (G : never (bind (upd (set_o_ref (Some (map fst pts)))) (fun _ => bind (bind (obs (upd_stage1 (s1_enter "stage1_complete"))) (fun _ => bind (callback E None) (fun _ => obs mark_stage1_complete))) (fun _ => ret (Some (map fst pts, map snd pts)))))).
  { do 2 (apply never_bind; [kp; parts|intro]). apply never_some. }
  intro s'. exact (G s Hs s').
Qed.
Definition counted (ob : observer) : Prop := ob_stage1 ob <> None /\ ob_stage2 ob <> None.
Definition both (ob : observer) : Prop := counted ob /\ ob_stage2_started ob = true.
Lemma keeps_counted1 : forall f ob, counted ob -> counted (upd_stage1 f ob).
Proof. intros f x [X1 X2]. unfold upd_stage1. destruct (should_observe_stage1 x); [|split; auto]. destruct (ob_stage1 x) eqn:Q; [|split; auto; congruence]. split; [discriminate|exact X2]. Qed.
Lemma keeps_counted2 : forall f ob, counted ob -> counted (upd_stage2 f ob).
Proof. intros f x [X1 X2]. unfold upd_stage2. destruct (should_observe_stage2 x); [|split; auto]. destruct (ob_stage2 x) eqn:Q; [|split; auto; congruence]. split; [exact X1|discriminate]. Qed.
Lemma keeps_counted3 : forall f ob, counted ob -> counted (upd_stage2_any f ob).
Proof. intros f x [X1 X2]. unfold upd_stage2_any. destruct (ob_stage2 x) eqn:Q; [|split; auto; congruence]. split; [exact X1|discriminate]. Qed.
Lemma invoked : forall u ob, only_looks u -> fst (invoke_callback u ob) = ob \/ exists q, fst (invoke_callback u ob) = set_previous q ob.
Proof.
  intros u ob Hu. unfold invoke_callback. destruct (ob_callback ob) as [[n| | |]|]; simpl; try rewrite Hu; auto.
  unfold default_callback. destruct (match obs_stage1 ob with Some s => _ | None => _ end); [auto|]. destruct (obs_stage2 ob) as [s|]; [|auto].
  destruct (Nat.ltb 0 (s2_iteration s)); [|auto]. destruct (ob_filter ob); [right; eexists; reflexivity|auto].
Qed.
Lemma set_previous_both : forall q ob, both ob -> both (set_previous q ob). Proof. intros q ob H. exact H. Qed.
Lemma keeps_counted6 : forall E, only_looks (Env.e_callback E) -> forall ob, counted ob -> ob_callback ob <> None -> counted (fst (invoke_callback (Env.e_callback E) ob)).
Proof. intros E Hu ob H _. destruct (invoked _ ob Hu) as [->|[q ->]]; exact H. Qed.
Lemma keeps_both1 : forall f ob, both ob -> both (upd_stage1 f ob).
Proof.
  intros f ob [H1 H2]. split; [apply keeps_counted1, H1|]. unfold upd_stage1. destruct (should_observe_stage1 ob); [|exact H2]. destruct (ob_stage1 ob); exact H2.
Qed.
Lemma keeps_both2 : forall f ob, both ob -> both (upd_stage2 f ob).
Proof.
  intros f ob [H1 H2]. split; [apply keeps_counted2, H1|]. unfold upd_stage2. destruct (should_observe_stage2 ob); [|exact H2]. destruct (ob_stage2 ob); exact H2.
Qed.
Lemma keeps_both3 : forall f ob, both ob -> both (upd_stage2_any f ob).
Proof.
  intros f ob [H1 H2]. split; [apply keeps_counted3, H1|]. unfold upd_stage2_any. destruct (ob_stage2 ob); exact H2.
Qed.
Lemma keeps_both6 : forall E, only_looks (Env.e_callback E) -> forall ob, both ob -> ob_callback ob <> None -> both (fst (invoke_callback (Env.e_callback E) ob)).
Proof. intros E Hu ob H _. destruct (invoked _ ob Hu) as [->|[q ->]]; exact H. Qed.
Lemma anything : forall l : list event, Forall (fun _ => True) l. Proof. intro l. apply Forall_forall. auto. Qed.
Lemma stage2_both : forall E res refs objs u s, only_looks (Env.e_callback E) -> has counted False (o_observer (s_o s)) ->
  has both False (o_observer (s_o (snd (stage2_run E res refs objs u s)))).
Proof.
  intros E res refs objs u s Hu Hc.
  refine (proj1 (iv_stage2_from E both (fun _ => True) False _ _ _ _ _ _ res refs objs u s _)); auto using keeps_both1, keeps_both2, keeps_both3, (keeps_both6 E Hu).
  - split; [|apply anything]. unfold begin_stage2, obs, upd, modify, bind, the_oqnlp, get, ret. simpl.
    destruct (o_observer (s_o s)) as [o|]; [|exact Hc]. simpl. split; [|reflexivity].
    match goal with |- counted (mark_stage2_started ?x) => change (counted x) end. apply keeps_counted2, Hc.
Qed.
Lemma run_both : forall E s l s', only_looks (Env.e_callback E) -> has counted False (o_observer (s_o s)) -> o_target (s_o s) = None ->
  o_cp (s_o s) = None -> run E s = (Ok l, s') -> has both False (o_observer (s_o s')).
Proof.
  intros E s l s' Hu Hc Ht Hk H. unfold run in H. unfold bind at 1 in H.
  assert (X : try_resume_from_checkpoint E s = (Ok false, s)).
  { unfold try_resume_from_checkpoint, bind, the_oqnlp, get, ret, bind. rewrite Hk. reflexivity. }
  rewrite X in H. cbv beta iota in H. clear X.
  pose proof (no_early_end E s Ht) as Hn.
  assert (G : has counted False (o_observer (s_o (snd (stage1_run E s))))).
  { refine (proj1 (iv_stage1 E counted (fun _ => True) False _ _ _ _ _ _ _ _ _ s _)); auto using keeps_counted1, keeps_counted2, keeps_counted3, (keeps_counted6 E Hu). split; [exact Hc|apply anything]. }
  unfold bind in H. destruct (stage1_run E s) as [[[[refs objs]|]|e|] s1]; try discriminate; [|destruct (Hn s1); reflexivity]. cbn [snd] in G.
  pose proof (stage2_both E false refs (Some objs) 0 s1 Hu G) as X. rewrite H in X. exact X.
Qed.
Lemma statistics : forall ck funs E a i p s l s', only_looks (Env.e_callback E) -> object_is s i p ->
  ob_stage1 (po_inner p) <> None -> ob_stage2 (po_inner p) <> None -> pa_target a = None ->
  optimize_with ck funs E a i s = (Ok l, s') ->
  exists q s1 s2, object_is s' i q /\ obs_stage1_final (po_inner q) = Some s1 /\ obs_stage2 (po_inner q) = Some s2 /\
    eval ck [] (doc_statistics i) s' = (Ok (VInt (s1_evals s1 + s2_evals s2)), s').
Proof.
  intros ck funs E a i p s l s' Hu Ho T1 T2 Ht H. rewrite (optimize_steps ck funs E a i p s Ho) in H. cbv zeta in H.
  pose proof (safe_calls ck funs (moments E a p) i (mk_cell p 1) ltac:(discriminate) (mk_ps (put i (mk_cell p 1) (ps_cells s)) (ps_out s))
    (put_same _ i _ _ _ Ho)) as G. destruct (for_each _ _ _) as [r0 h]. cbn [snd] in G, H.
  unfold py_optimize in H. destruct (py_build E (with_observer p a)) as [o|e|] eqn:B; try discriminate H.
  destruct (run E (mk_st o py_world)) as [[set|e|] f] eqn:R; try discriminate H. cbn [fst snd] in H. injection H as _ <-.
  pose proof (build_ok _ _ _ B) as A.
  assert (C : has counted False (o_observer o)).
  { rewrite (build_observer _ _ _ _ B). unfold clone_inner. destruct (po_callback p); split; assumption. }
  assert (X1 : o_target (s_o (mk_st o py_world)) = None). { simpl. rewrite (proj1 (aa_stop _ _ A)). exact Ht. }
  assert (X2 : o_cp (s_o (mk_st o py_world)) = None). { pose proof (aa_new _ _ A) as (_ & _ & _ & _ & _ & X & _). exact X. }
  pose proof (run_both E (mk_st o py_world) _ _ Hu C X1 X2 R) as D.
  destruct (o_observer (s_o f)) as [ob|]; [|contradiction]. destruct D as [[D1 D2] D3].
  destruct (ob_stage1 ob) as [s1|] eqn:Q1; [|contradiction]. destruct (ob_stage2 ob) as [s2|] eqn:Q2; [|contradiction].
  assert (Z : nth_error (put i (mk_cell (mk_pob ob (po_callback p)) 0) (ps_cells h)) i = Some (mk_cell (mk_pob ob (po_callback p)) 0)) by (eapply put_same; exact G).
  exists (mk_pob ob (po_callback p)), s1, s2. split; [exact Z|]. split; [exact Q1|]. split; [simpl; unfold obs_stage2; rewrite D3; exact Q2|].
  set (h' := mk_ps _ _) in *. unfold doc_statistics. set (e1 := ECall0 (EAttr _ "stage1_final")). set (e2 := ECall0 (EAttr _ "stage2")).
  assert (E1 : eval ck [] e1 h' = (Ok (VS1 s1), h')).
  { eapply readers; [exact Z|]. right; left. simpl. unfold obs_stage1_final. rewrite Q1. reflexivity. }
  assert (E2 : eval ck [] e2 h' = (Ok (VS2 s2), h')).
  { eapply readers; [exact Z|]. right; right; left. simpl. unfold obs_stage2. rewrite D3, Q2. reflexivity. }
  clearbody e1 e2. cbn [eval]. unfold bind. rewrite E1. cbn. rewrite E2. reflexivity.
Qed.

(** ** After a run *)
Lemma present_after : forall E s r s', run E s = (r, s') -> o_observer (s_o s) <> None -> o_observer (s_o s') <> None.
Proof.
  intros E s r s' R H.
  assert (G : has (fun _ => True) False (o_observer (s_o s'))).
  { eapply (proj1 (observer_invariant E (fun _ => True) (fun _ => True) False _ _ _ _ _ _ _ _ _ _ _ s r s' R _ _)). Unshelve.
    all: try (intros; exact Logic.I); auto using anything. destruct (o_observer (s_o s)); [exact Logic.I|contradiction]. }
  destruct (o_observer (s_o s')); [discriminate|contradiction].
Qed.
Lemma after : forall ck funs E a i p s, object_is s i p ->
  let r := optimize_with ck funs E a i s in
  (forall l, fst r = Ok l -> exists o s' ob, py_build E (with_observer p a) = Ok o /\ run E (mk_st o py_world) = (Ok l, s') /\
     o_observer (s_o s') = Some ob /\ object_is (snd r) i (mk_pob ob (po_callback p))) /\
  ((forall l, fst r <> Ok l) -> object_is (snd r) i p).
Proof.
  intros ck funs E a i p s Ho r. unfold r. rewrite (optimize_steps ck funs E a i p s Ho). cbv zeta. clear r.
  pose proof (safe_calls ck funs (moments E a p) i (mk_cell p 1) ltac:(discriminate) (mk_ps (put i (mk_cell p 1) (ps_cells s)) (ps_out s))
    (put_same _ i _ _ _ Ho)) as G. destruct (for_each _ _ _) as [r0 h]. cbn [fst snd] in *. clear r0.
  assert (Z : forall q, object_is (mk_ps (put i (mk_cell q 0) (ps_cells h)) (ps_out h)) i q) by (intro q; eapply put_same; exact G).
  unfold py_optimize. destruct (py_build E (with_observer p a)) as [o|e|] eqn:B; [|split; [intros l H; discriminate H|intro; apply Z]..].
  destruct (run E (mk_st o py_world)) as [[set|e|] f] eqn:R; cbn [fst snd]; [|split; [intros l H; discriminate H|intro; apply Z]..].
  split; [|intro H; destruct (H set); reflexivity]. intros l H. injection H as <-.
  pose proof (present_after _ _ _ _ R) as K. simpl in K. rewrite (build_observer _ _ _ _ B) in K. specialize (K ltac:(discriminate)).
  destruct (o_observer (s_o f)) as [ob|] eqn:Q; [|contradiction]. exists o, f, ob. repeat split; auto.
Qed.

(** ** A second run with the same observer *)
Definition done (ob : observer) : Prop := ob_stage1_completed ob = true.
Lemma d1 : forall f ob, done ob -> done (upd_stage1 f ob).
Proof. intros f x X. unfold upd_stage1. destruct (should_observe_stage1 x); [|exact X]. destruct (ob_stage1 x); exact X. Qed.
Lemma d2 : forall f ob, done ob -> done (upd_stage2 f ob).
Proof. intros f x X. unfold upd_stage2. destruct (should_observe_stage2 x); [|exact X]. destruct (ob_stage2 x); exact X. Qed.
Lemma d3 : forall f ob, done ob -> done (upd_stage2_any f ob).
Proof. intros f x X. unfold upd_stage2_any. destruct (ob_stage2 x); exact X. Qed.
Lemma d6 : forall E, only_looks (Env.e_callback E) -> forall ob, done ob -> ob_callback ob <> None -> done (fst (invoke_callback (Env.e_callback E) ob)).
Proof. intros E Hu ob H _. destruct (invoked _ ob Hu) as [->|[q ->]]; exact H. Qed.
Lemma used_moments : forall E a p, only_looks (Env.e_callback E) -> done (po_inner p) -> Forall (fun ob => obs_stage1 ob = None) (moments E a p).
Proof.
  intros E a p Hu Hd. apply Forall_forall. intros ob Hob. unfold moments, py_record in Hob.
  destruct (py_build E (with_observer p a)) as [o|e|] eqn:B; try contradiction Hob.
  destruct (run E (mk_st o py_world)) as [r s'] eqn:R. cbn [snd] in Hob.
  assert (G2 : Forall (fun e => match e with EvCallback _ x => done x | EvStage1 (SsCallback x) => done x | _ => True end) (w_trace (s_w s'))).
  { eapply (proj2 (observer_invariant E done (fun e => match e with EvCallback _ x => done x | EvStage1 (SsCallback x) => done x | _ => True end) False _ _ _ _ _ _ _ _ _ _ _ _ _ _ R _ _)). Unshelve.
    all: try (intros; exact Logic.I); auto using d1, d2, d3, (d6 E Hu); try (intros x X; exact X).
    - intros x _. reflexivity.
    - intros e X. destruct e; try exact Logic.I; try contradiction X. destruct e; try exact Logic.I; contradiction X.
    - cbn [s_o]. rewrite (build_observer _ _ _ _ B). unfold clone_inner. simpl. destruct (po_callback p); exact Hd.
    - constructor. }
  rewrite Forall_forall in G2. apply moment_in in Hob as (e & He & Hx). specialize (G2 e He).
  assert (D : done ob). { destruct e; try contradiction; [destruct e; try contradiction|]; subst; exact G2. }
  unfold obs_stage1. rewrite D. reflexivity.
Qed.
Definition ends {A} (m : OM A) : Prop := forall s r s', m s = (Ok r, s') -> has done True (o_observer (s_o s')).
Lemma ends_bind : forall A B (m : OM A) (k : A -> OM B), (forall a, ends (k a)) -> ends (bind m k).
Proof. intros A B m k H s r s' X. unfold bind in X. destruct (m s) as [[a|e|] s1]; try discriminate. eapply H; exact X. Qed.
Lemma ends_mark : forall A (x : A), ends (bind (obs mark_stage1_complete) (fun _ => ret x)).
Proof. intros A x s r s' X. unfold bind, obs, upd, modify, ret in X. injection X as _ <-. simpl. destruct (o_observer (s_o s)); [reflexivity|exact Logic.I]. Qed.
Lemma stage1_done : forall E, ends (stage1_run E).
Proof.
  intro E. unfold stage1_run. apply ends_bind; intro o. apply ends_bind; intro t.
  destruct (stage1_init E o t) as [s3|e|]; [|intros ? ? ? X; discriminate X..]. destruct (ss_run E s3) as [res sf].
  do 2 (apply ends_bind; intro). destruct res as [[pts cand]|e|]; [|intros ? ? ? X; discriminate X..]. cbv zeta.
  do 12 (apply ends_bind; intro). 
  assert (Z : forall A (x : A), ends (bind (end_stage1 E) (fun _ => ret x))).
  { intros A x s r s' X. unfold end_stage1 in X. eapply (ends_bind _ _ (stage1_enter "stage1_complete")
      (fun _ => bind (callback E None) (fun _ => bind (obs mark_stage1_complete) (fun _ => ret x))) _ s r s'). Unshelve.
    2: intro; apply ends_bind; intro; apply ends_mark.
    rewrite <- X. unfold bind. destruct (stage1_enter _ s) as [[u|e|] s1]; try reflexivity. destruct (callback E None s1) as [[u2|e|] s2]; reflexivity. }
  match goal with |- ends (if ?b then _ else _) => destruct b end; [apply Z|]. apply ends_bind; intro. apply Z.
Qed.
Lemma run_done : forall E s l s', only_looks (Env.e_callback E) -> o_cp (s_o s) = None -> run E s = (Ok l, s') -> has done True (o_observer (s_o s')).
Proof.
  intros E s l s' Hu Hk H. unfold run in H. unfold bind at 1 in H.
  assert (X : try_resume_from_checkpoint E s = (Ok false, s)).
  { unfold try_resume_from_checkpoint, bind, the_oqnlp, get, ret, bind. rewrite Hk. reflexivity. }
  rewrite X in H. cbv beta iota in H. clear X. unfold bind in H. destruct (stage1_run E s) as [[r|e|] s1] eqn:S1; try discriminate.
  pose proof (stage1_done E _ _ _ S1) as D. destruct r as [[refs objs]|].
  - assert (G : has done True (o_observer (s_o (snd (stage2_run E false refs (Some objs) 0 s1))))).
    { eapply (proj1 (iv_stage2 E done (fun _ => True) True _ _ _ _ _ _ _ false refs (Some objs) 0 s1 _)). Unshelve.
      all: try (intros; exact Logic.I); auto using d1, d2, d3, (d6 E Hu). split; [exact D|apply anything]. }
    rewrite H in G. exact G.
  - unfold final_set, bind, the_oqnlp, get, ret, bind in H. destruct (o_set (s_o s1)); injection H as _ <-; exact D.
Qed.
Lemma reused : forall ck funs E a i p s l s' q E' a', only_looks (Env.e_callback E) -> only_looks (Env.e_callback E') -> object_is s i p ->
  optimize_with ck funs E a i s = (Ok l, s') -> object_is s' i q -> Forall (fun ob => obs_stage1 ob = None) (moments E' a' q).
Proof.
  intros ck funs E a i p s l s' q E' a' Hu Hu' Ho H Hq. pose proof (after ck funs E a i p s Ho) as [G _]. rewrite H in G.
  destruct (G l eq_refl) as (o & f & ob & B & R & Q & Z). clear G. cbn [snd] in Z. unfold object_is in Z, Hq. rewrite Z in Hq. injection Hq as <-.
  apply used_moments; [exact Hu'|]. simpl.
  assert (X2 : o_cp (s_o (mk_st o py_world)) = None). { pose proof (aa_new _ _ (build_ok _ _ _ B)) as (_ & _ & _ & _ & _ & X & _). exact X. }
  pose proof (run_done E _ _ _ Hu X2 R) as D. rewrite Q in D. exact D.
Qed.

Lemma methods : forall ck vars i c h m, nth_error (ps_cells h) i = Some c -> In m stub_methods -> m <> "flush_messages"%string ->
  exists v, eval ck vars (EAttr (EVal (VObs i)) m) h = (Ok v, h).
Proof.
  intros ck vars i c h m H Hm Hf. exists (VMethod i m). cbn [eval]. unfold bind, ret, attribute, bind, cell_at. rewrite H.
  simpl in Hm. repeat (destruct Hm as [<-|Hm]; [try reflexivity; contradiction|]). contradiction.
Qed.
Lemma chain : forall ck h,
  eval ck [] doc_chain h = (Err AttributeError, mk_ps (ps_cells h ++ [mk_cell (pob_apply pob_new PobStage1) 0]) (ps_out h)).
Proof.
  intros ck h. set (h0 := mk_ps (ps_cells h ++ [mk_cell pob_new 0]) (ps_out h)).
  assert (Z : nth_error (ps_cells h0) (List.length (ps_cells h)) = Some (mk_cell pob_new 0)).
  { simpl. rewrite nth_error_app2, Nat.sub_diag; [reflexivity|apply le_n]. }
  pose proof (chained ck [] (List.length (ps_cells h)) (mk_cell pob_new 0) h0 "with_stage1_tracking" [] PobStage1 "with_stage2_tracking" Z DocStage1 eq_refl) as X.
  change (eval ck [] (EAttr (ECall0 (EAttr ENew "with_stage1_tracking")) "with_stage2_tracking") h = (Err AttributeError,
    mk_ps (put (List.length (ps_cells h)) (mk_cell (pob_apply pob_new PobStage1) 0) (ps_cells h0)) (ps_out h0))) in X.
  unfold doc_chain. set (e := EAttr (ECall0 (EAttr ENew "with_stage1_tracking")) "with_stage2_tracking") in *.
  clearbody e. cbn [eval]. unfold bind. rewrite X. f_equal. f_equal. unfold h0. cbn [ps_cells].
  generalize (ps_cells h) as l. induction l as [|c l IH]; simpl; [reflexivity|]. f_equal. exact IH.
Qed.
Lemma stale : forall ck funs E a i p s k vars m v, object_is s i p -> In (m, v) (doc_readers p) ->
  let h := at_callback ck funs E a i p s k in eval ck vars (ECall0 (EAttr (EVal (VObs i)) m)) h = (Ok v, h).
Proof. intros. eapply readers; [apply during; assumption|assumption]. Qed.
Lemma locked : forall ck funs E a i p s k vars m args c, object_is s i p -> doc_config m args c ->
  let h := at_callback ck funs E a i p s k in eval ck vars (method_call (EVal (VObs i)) m args) h = (Err RuntimeError, h).
Proof.
  intros ck funs E a i p s k vars m args c Ho Hc h. rewrite (setters ck vars i (mk_cell p 1) h m args c); [reflexivity|apply during, Ho|exact Hc].
Qed.
Lemma same_result : forall ck funs E a i p s, object_is s i p ->
  fst (optimize_with ck funs E a i s) =
    match fst (py_optimize E (with_observer p a)) with Ok l => Ok l | Err e => Err (ValueError e) | Panic => Panic end.
Proof. intros ck funs E a i p s Ho. rewrite (optimize_steps ck funs E a i p s Ho). reflexivity. Qed.
