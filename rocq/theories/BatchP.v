(** * A batch of one candidate: parallel and sequential processing agree (C37) *)
From Coq Require Import ZArith NArith List Bool Arith Lia String.
From Verif Require Import F64 Base Builders Types Filters Runner Observer Env
  ScatterSearch Codec Checkpoint Oqnlp Actions RunP SetP SimP ObsFreeP.
Import ListNotations.
Local Open Scope monad_scope.

(** what both ways of processing must agree on: everything but the observer and the
    bookkeeping of checkpoints *)
Definition core (o : oqnlp) : oqnlp :=
  set_o_iteration 0 (set_o_unchanged 0 (set_o_seed 0 (set_o_observer None o))).
Section Agree.
Context (E : env) (ty : solver_type) (cfg : solver_config).
Definition quiet {A} (m : OM A) : Prop := forall s a s', m s = (Ok a, s') -> core (s_o s') = core (s_o s).
Definition alike (o o' : oqnlp) : Prop := core o = core o' /\ o_solver_type o' = ty /\ o_solver_config o' = cfg.
Lemma alike_l : forall o1 o o', core o1 = core o -> alike o o' -> alike o1 o'.
Proof. intros o1 o o' H (H1 & H2 & H3). split; [congruence|auto]. Qed.
Lemma alike_r : forall o1 o o', core o1 = core o' -> alike o o' -> alike o o1.
Proof.
  intros o1 o o' H (H1 & H2 & H3). split; [congruence|]. split.
  - rewrite <- H2. change (o_solver_type (core o1) = o_solver_type (core o')). congruence.
  - rewrite <- H3. change (o_solver_config (core o1) = o_solver_config (core o')). congruence.
Qed.
Definition agree {A B} (V : A -> B -> Prop) (m : OM A) (m' : OM B) : Prop := forall s t a s' b t',
  alike (s_o s) (s_o t) -> m s = (Ok a, s') -> m' t = (Ok b, t') -> V a b /\ alike (s_o s') (s_o t').
Lemma bind_inv : forall A B (m : OM A) (k : A -> OM B) s b s', bind m k s = (Ok b, s') ->
  exists a s1, m s = (Ok a, s1) /\ k a s1 = (Ok b, s').
Proof. intros A B m k s b s' H. unfold bind in H. destruct (m s) as [[a|e|] s1]; try discriminate. eauto. Qed.
Lemma ag_bind : forall A B A' B' (V : A -> B -> Prop) (W : A' -> B' -> Prop) m m' k k',
  agree V m m' -> (forall a b, V a b -> agree W (k a) (k' b)) -> agree W (bind m k) (bind m' k').
Proof.
  intros A B A' B' V W m m' k k' H1 H2 s t a s' b t' Hc G1 G2.
  apply bind_inv in G1 as (x & s1 & X1 & X2). apply bind_inv in G2 as (y & t1 & Y1 & Y2).
  destruct (H1 _ _ _ _ _ _ Hc X1 Y1) as [HV Hc1]. eapply (H2 x y HV); eauto.
Qed.
Lemma ag_left : forall A B A' (W : A' -> B -> Prop) (m : OM A) k m', quiet m -> (forall a, agree W (k a) m') ->
  agree W (bind m k) m'.
Proof.
  intros A B A' W m k m' Hq H s t a s' b t' Hc G1 G2. apply bind_inv in G1 as (x & s1 & X1 & X2).
  eapply (H x); [|exact X2|exact G2]. eapply alike_l; [apply (Hq _ _ _ X1)|exact Hc].
Qed.
Lemma ag_right : forall A B A' (W : B -> A' -> Prop) (m : OM A) k (m' : OM B), quiet m -> (forall a, agree W m' (k a)) ->
  agree W m' (bind m k).
Proof.
  intros A B A' W m k m' Hq H s t a s' b t' Hc G1 G2. apply bind_inv in G2 as (x & s1 & X1 & X2).
  eapply (H x); [|exact G1|exact X2]. eapply alike_r; [apply (Hq _ _ _ X1)|exact Hc].
Qed.
Lemma ag_ret : forall A B (V : A -> B -> Prop) a b, V a b -> agree V (ret a) (ret b).
Proof. intros A B V a b H s t a' s' b' t' Hc G1 G2. injection G1 as <- <-. injection G2 as <- <-. auto. Qed.
Lemma ag_never : forall A B (V : A -> B -> Prop) (m : OM A) m', (forall s b s', m' s <> (Ok b, s')) -> agree V m m'.
Proof. intros A B V m m' H s t a s' b t' _ _ G. destruct (H _ _ _ G). Qed.
Lemma ag_oqnlp : agree alike the_oqnlp the_oqnlp.
Proof. intros s t a s' b t' Hc G1 G2. injection G1 as <- <-. injection G2 as <- <-. auto. Qed.
Lemma ag_upd : forall f, (forall o, core (f o) = core (f (core o))) -> (forall o, o_solver_type (f o) = o_solver_type o) ->
  (forall o, o_solver_config (f o) = o_solver_config o) -> agree eq (upd f) (upd f).
Proof.
  intros f Hf F1 F2 s t a s' b t' (Hc & H1 & H2) G1 G2. injection G1 as <- <-. injection G2 as <- <-. split; [reflexivity|].
  unfold alike. simpl. rewrite (Hf (s_o s)), (Hf (s_o t)), Hc, F1, F2. auto.
Qed.
Lemma ag_ok_l : forall A B C (W : B -> C -> Prop) (x : A) (k : A -> OM B) m', agree W (k x) m' -> agree W (bind (of_result (Ok x)) k) m'.
Proof. intros. exact H. Qed.
Lemma ag_ok_r : forall A B C (W : C -> B -> Prop) (x : A) (k : A -> OM B) m', agree W m' (k x) -> agree W m' (bind (of_result (Ok x)) k).
Proof. intros. exact H. Qed.
Lemma ag_ret_l : forall A B C (W : B -> C -> Prop) (x : A) (k : A -> OM B) m', agree W (k x) m' -> agree W (bind (ret x) k) m'.
Proof. intros. exact H. Qed.
Lemma ag_ret_r : forall A B C (W : C -> B -> Prop) (x : A) (k : A -> OM B) m', agree W m' (k x) -> agree W m' (bind (ret x) k).
Proof. intros. exact H. Qed.
Lemma ag_emit_r : forall B C (W : C -> B -> Prop) l (k : unit -> OM B) m', agree W m' (k tt) -> agree W m' (bind (emit l) k).
Proof. intros B C W l k m' H s t a s' b t' Hc G1 G2. eapply H; [|exact G1|exact G2]. exact Hc. Qed.
(** reading the state again: the local solver is still the same *)
Lemma ag_read_l : forall B C (W : B -> C -> Prop) (k : oqnlp -> OM B) m',
  (forall o, o_solver_type o = ty -> o_solver_config o = cfg -> agree W (k o) m') -> agree W (bind the_oqnlp k) m'.
Proof.
  intros B C W k m' H s t a s' b t' Hc G1 G2. eapply (H (s_o s)); [| |exact Hc|exact G1|exact G2]; destruct Hc as (H1 & H2 & H3).
  - rewrite <- H2. change (o_solver_type (core (s_o s)) = o_solver_type (core (s_o t))). congruence.
  - rewrite <- H3. change (o_solver_config (core (s_o s)) = o_solver_config (core (s_o t))). congruence.
Qed.
Lemma ag_assoc_l : forall A B C D (W : C -> D -> Prop) (m : OM A) (k : A -> OM B) (h : B -> OM C) m',
  agree W (bind m (fun a => bind (k a) h)) m' -> agree W (bind (bind m k) h) m'.
Proof.
  intros A B C D W m k h m' H s t a s' b t' Hc G1 G2. apply (H s t a s' b t'); auto. rewrite <- G1. unfold bind.
  destruct (m s) as [[x|e|] s1]; reflexivity.
Qed.
Lemma ag_assoc_r : forall A B C D (W : D -> C -> Prop) (m : OM A) (k : A -> OM B) (h : B -> OM C) m',
  agree W m' (bind m (fun a => bind (k a) h)) -> agree W m' (bind (bind m k) h).
Proof.
  intros A B C D W m k h m' H s t a s' b t' Hc G1 G2. apply (H s t a s' b t'); auto. rewrite <- G2. unfold bind.
  destruct (m t) as [[x|e|] s1]; reflexivity.
Qed.
Lemma ag_unwrap : forall A (o : option A), agree eq (unwrap o) (unwrap o).
Proof. intros A [x|] s t a s' b t' Hc G1 G2; [|discriminate]. injection G1 as <- <-. injection G2 as <- <-. auto. Qed.
Lemma ag_tracked : forall x a b, agree (fun r r' => fst r = fst r')
  (of_solver (solve_tracked E ty cfg x a)) (of_solver (solve_tracked E ty cfg x b)).
Proof.
  intros x a b s t u s' v t' Hc G1 G2. pose proof (tracked E ty cfg x a b) as T.
  destruct (solve_tracked E ty cfg x a) as [r|e|], (solve_tracked E ty cfg x b) as [r'|e'|]; simpl in *; try discriminate.
  injection G1 as <- <-. injection G2 as <- <-. auto.
Qed.
(** ** Quiet parts *)
Lemma q_ret : forall A (a : A), quiet (ret a). Proof. intros A a s b s' H. injection H as <- <-. auto. Qed.
Lemma q_bind : forall A B (m : OM A) (k : A -> OM B), quiet m -> (forall a, quiet (k a)) -> quiet (bind m k).
Proof. intros A B m k H1 H2 s b s' H. apply bind_inv in H as (a & s1 & X & Y). rewrite (H2 _ _ _ _ Y). eauto. Qed.
Lemma q_upd : forall f, (forall o, core (f o) = core o) -> quiet (upd f).
Proof. intros f H s a s' G. injection G as <- <-. apply H. Qed.
Lemma q_obs : forall f, quiet (obs f). Proof. intros f. apply q_upd. reflexivity. Qed.
Lemma q_emit : forall l, quiet (emit l). Proof. intros l s a s' G. injection G as <- <-. reflexivity. Qed.
Lemma q_tick : quiet tick. Proof. intros s a s' G. injection G as <- <-. reflexivity. Qed.
Lemma q_oqnlp : quiet the_oqnlp. Proof. intros s a s' G. injection G as <- <-. reflexivity. Qed.
Lemma q_unwrap : forall A (o : option A), quiet (unwrap o).
Proof. intros A [x|] s a s' G; [|discriminate]. injection G as <- <-. reflexivity. Qed.
Lemma q_of_result : forall A (r : outcome oq_error A), quiet (of_result r).
Proof. intros A r s a s' G. injection G as _ <-. reflexivity. Qed.
Lemma q_panic : forall A, quiet (@panic _ _ A). Proof. intros A s a s' G. discriminate. Qed.
Lemma q_on_disk : forall A (m : DM A), quiet (on_disk m).
Proof. intros A m s a s' G. unfold on_disk in G. destruct (m _) as [[x|e|] d]; try discriminate. injection G as <- <-. reflexivity. Qed.
Ltac q := repeat match goal with
  | |- quiet (bind _ _) => apply q_bind; [|intros ?]
  | |- quiet (ret _) => apply q_ret
  | |- quiet (upd _) => apply q_upd; reflexivity
  | |- quiet (obs _) => apply q_obs
  | |- quiet (emit _) => apply q_emit
  | |- quiet tick => apply q_tick
  | |- quiet the_oqnlp => apply q_oqnlp
  | |- quiet (unwrap _) => apply q_unwrap
  | |- quiet (of_result _) => apply q_of_result
  | |- quiet panic => apply q_panic
  | |- quiet (on_disk _) => apply q_on_disk
  | |- quiet (let '(_, _) := ?x in _) => destruct x
  | |- quiet (if ?b then _ else _) => destruct b
  | |- quiet (match ?x with _ => _ end) => destruct x
  end.
Lemma q_callback : forall i, quiet (callback E i). Proof. intros. unfold callback. q. Qed.
Lemma q_callback_at : forall i, quiet (callback_at E i). Proof. intros. unfold callback_at. q; apply q_callback. Qed.
Lemma q_maybe_save : quiet (maybe_save_checkpoint E). Proof. unfold maybe_save_checkpoint, save_now, create_checkpoint. q. Qed.
Lemma q_begin : forall i u, quiet (begin_iteration E i u). Proof. intros. unfold begin_iteration. q. Qed.
Lemma q_obs_iteration : forall i u, quiet (obs_iteration i u). Proof. intros. unfold obs_iteration. q. Qed.
Lemma q_obs_search : forall a n, quiet (obs_search a n). Proof. intros. unfold obs_search. q. Qed.
Ltac q0 := first [ apply q_callback | apply q_callback_at | apply q_maybe_save | apply q_begin | apply q_obs_iteration
  | apply q_obs_search | unfold emit_eval; q ].
Ltac asl := repeat match goal with |- agree _ (bind (bind _ _) _) _ => apply ag_assoc_l end.
Ltac asr := repeat match goal with |- agree _ _ (bind (bind _ _) _) => apply ag_assoc_r end.
Ltac lft := asl; apply ag_left; [q0|let x := fresh "x" in intro x].
Ltac rgt := asr; apply ag_right; [q0|let x := fresh "x" in intro x].
Ltac both := asl; asr.
Lemma ag_emit : forall l l', agree eq (emit l) (emit l').
Proof. intros l l' s t a s' b t' Hc G1 G2. injection G1 as <- <-. injection G2 as <- <-. auto. Qed.
Lemma ag_threshold : forall v, agree eq (set_threshold v) (set_threshold v).
Proof.
  intro v. unfold set_threshold. eapply ag_bind; [apply ag_upd; reflexivity|intros ? ? _]. apply ag_emit.
Qed.
Lemma ag_count : forall u, agree eq (count_unchanged u) (count_unchanged u).
Proof.
  intro u. unfold count_unchanged. eapply ag_bind; [apply ag_oqnlp|]. intros o o' (Hc & _ & _).
  change (p_wait_cycle (o_params o)) with (p_wait_cycle (o_params (core o))). rewrite Hc. 
  change (p_wait_cycle (o_params (core o'))) with (p_wait_cycle (o_params o')).
  destruct (_ <=? _); [|apply ag_ret; auto]. eapply ag_bind with (V := eq); [|intros ? ? _; apply ag_ret; auto].
  unfold adjust_threshold. eapply ag_bind; [apply ag_oqnlp|]. clear o o' Hc. intros o o' (Hc & _ & _). cbv zeta.
  change (relaxed (p_threshold_factor (o_params o)) (mf_threshold (o_merit o))) with
    (relaxed (p_threshold_factor (o_params (core o))) (mf_threshold (o_merit (core o)))). rewrite Hc.
  eapply ag_bind; [apply ag_upd; reflexivity|intros ? ? _]. apply ag_emit.
Qed.
Lemma pls_core : forall sol s, exists b, fst (process_local_solution E sol s) = b /\ 
  core (s_o (snd (process_local_solution E sol s))) = core (s_o (snd (process_local_solution E sol (mk_st (core (s_o s)) (s_w s))))) /\
  fst (process_local_solution E sol (mk_st (core (s_o s)) (s_w s))) = b.
Proof.
  intros sol [o w]. eexists. split; [reflexivity|]. unfold process_local_solution, bind, the_oqnlp, get, ret, unwrap, panic, bind. simpl.
  destruct (o_exclude o); [destruct (within_bounds (pb_bounds (e_problem E)) (ls_point sol)) as [[|]|]|]; simpl; try (split; reflexivity);
    (destruct (o_set o) as [[|c l]|]; simpl; [split; reflexivity| |split; reflexivity]);
    (destruct (flt _ _); simpl; [split; reflexivity|]); destruct (_ && _); simpl; split; reflexivity.
Qed.
Lemma pls_world : forall sol o w w', fst (process_local_solution E sol (mk_st o w)) = fst (process_local_solution E sol (mk_st o w')) /\
  s_o (snd (process_local_solution E sol (mk_st o w))) = s_o (snd (process_local_solution E sol (mk_st o w'))).
Proof.
  intros sol o w w'. unfold process_local_solution, bind, the_oqnlp, get, ret, unwrap, panic, bind. simpl.
  destruct (o_exclude o); [destruct (within_bounds (pb_bounds (e_problem E)) (ls_point sol)) as [[|]|]|]; simpl; try (split; reflexivity);
    (destruct (o_set o) as [[|c l]|]; simpl; [split; reflexivity| |split; reflexivity]);
    (destruct (flt _ _); simpl; [split; reflexivity|]); destruct (_ && _); simpl; split; reflexivity.
Qed.
Lemma ag_process : forall sol, agree eq (process_local_solution E sol) (process_local_solution E sol).
Proof.
  intros sol s t a s' b t' Hal G1 G2. assert (Hc := proj1 Hal).
  destruct (pls_core sol s) as (x & X1 & X2 & X3). destruct (pls_core sol t) as (y & Y1 & Y2 & Y3).
  rewrite G1 in X1, X2. rewrite G2 in Y1, Y2. simpl in *. rewrite Hc in X2, X3.
  destruct (pls_world sol (core (s_o t)) (s_w s) (s_w t)) as [Z1 Z2]. rewrite Z1 in X3. rewrite Z2 in X2.
  split; [congruence|]. split; [congruence|]. rewrite <- (proj1 (proj2 Hal)), <- (proj2 (proj2 Hal)).
  destruct (pls_cases E sol t) as [[Z _]|[[_ [_ [Z _]]]|[_ [[_ [Z _]]|
    [cur [rest [_ [[_ [_ [ob Z]]]|[[_ [_ [_ [_ [ob Z]]]]]|[_ [_ [_ Z]]]]]]]]]]]]; rewrite G2 in Z; simpl in Z; rewrite Z; auto.
Qed.
Lemma start_local_core : forall o p v, should_start_local o p v = should_start_local (core o) p v.
Proof. reflexivity. Qed.
Lemma target_core : forall o, target_reached E o = target_reached E (core o).
Proof. reflexivity. Qed.

Lemma single_batch : forall start resumed objs i p u, agree eq
  (process_batch_parallel E start resumed objs [(i, p)] u)
  (process_batch_sequential E start resumed objs [(i, p)] u).
Proof.
  intros. unfold process_batch_parallel. simpl process_batch_sequential.
  assert (Hfb : (if resumed then filter (fun b : nat * point => start <=? fst b) [(i, p)] else [(i, p)])
            = if resumed && (i <? start) then [] else [(i, p)]).
  { destruct resumed; [|reflexivity]. simpl. destruct (Nat.leb_spec start i), (Nat.ltb_spec i start); try reflexivity; lia. }
  rewrite Hfb. clear Hfb. destruct (resumed && (i <? start)); [apply ag_ret; reflexivity|].
  unfold process_one_seq.
  (* the objective value *)
  destruct (cand_objective E objs i p) as [v|e|] eqn:Hv;
    [|apply ag_never; intros s b s' G; repeat (match type of G with bind _ _ _ = _ => let Hx := fresh in apply bind_inv in G as (? & ? & Hx & G) end);
       repeat (match goal with H : bind _ _ _ = _ |- _ => let Hx := fresh in apply bind_inv in H as (? & ? & Hx & H) end);
       match goal with H : of_result _ _ = _ |- _ => discriminate H end..].
  cbn [map fst snd]. rewrite Hv.
  do 2 lft.
  assert (Hpc : par_collect (e_err_pick E [x0; 1]) [Ok (i, p, v)] = Ok [(i, p, v)] :> outcome oq_error _) by reflexivity.
  rewrite Hpc. clear Hpc. apply ag_ok_l. lft. do 3 rgt. both. apply ag_ok_r. rgt. both.
  eapply ag_bind; [apply ag_oqnlp|]. intros o o' Hal. cbv zeta. cbn [partition map fst snd].
  rewrite (start_local_core o), (start_local_core o'), (proj1 Hal).
  destruct (should_start_local (core o') p v); cbn [partition].
  - lft. rgt. cbn [process_quicks]. apply ag_ret_l. apply ag_left; [apply q_oqnlp|]. intro o2. cbn [List.length Nat.leb andb].
    cbn [process_singles]. unfold process_single. lft. both. eapply ag_bind; [apply ag_threshold|intros ? ? _].
    asr. apply ag_emit_r. asl. apply ag_read_l. intros o3 T1 T2.
    asl. apply ag_left; [apply q_emit|]. intros ?. both. rewrite T1, T2.
    destruct Hal as (_ & T3 & T4). rewrite T3, T4.
    eapply ag_bind; [apply ag_tracked|]. intros r r' Hr. rewrite <- Hr. both.
    eapply ag_bind; [apply ag_process|]. intros ? ? <-. rgt. do 3 lft. both.
    eapply ag_bind; [apply ag_oqnlp|]. intros o4 o5 Hal. both. rewrite (target_core o4), (target_core o5), (proj1 Hal).
    eapply ag_bind; [apply ag_unwrap|]. intros stop ? <-. destruct stop; both.
    + apply ag_ret. reflexivity.
    + apply ag_ret_r. cbv beta iota. do 2 rgt. lft. apply ag_ret_l. cbn [process_singles]. apply ag_ret. reflexivity.
  - cbn [process_quicks]. unfold process_quick. lft. rgt. both. lft. both. eapply ag_bind; [apply ag_count|]. intros u' ? <-.
    asr. apply ag_ret_r. cbv beta iota. do 2 rgt. do 3 lft. asl. apply ag_ret_l. cbn [process_quicks]. apply ag_ret_l. apply ag_left; [apply q_oqnlp|]. intros o2. cbn [List.length Nat.leb andb process_singles].
    apply ag_ret. reflexivity.
Qed.
End Agree.

Lemma c37_single : forall E start resumed objs i p u s r1 s1 r2 s2,
  process_batch_parallel E start resumed objs [(i, p)] u s = (Ok r1, s1) ->
  process_batch_sequential E start resumed objs [(i, p)] u s = (Ok r2, s2) ->
  r1 = r2 /\ o_set (s_o s1) = o_set (s_o s2) /\ o_merit (s_o s1) = o_merit (s_o s2) /\ o_df (s_o s1) = o_df (s_o s2).
Proof.
  intros E start resumed objs i p u s r1 s1 r2 s2 H1 H2.
  destruct (single_batch E _ _ start resumed objs i p u s s r1 s1 r2 s2 (conj eq_refl (conj eq_refl eq_refl)) H1 H2) as [Hr (Hc & _)].
  split; [exact Hr|]. split; [|split].
  - exact (f_equal o_set Hc).
  - exact (f_equal o_merit Hc).
  - exact (f_equal o_df Hc).
Qed.
