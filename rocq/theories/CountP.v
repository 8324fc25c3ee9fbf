(** * How often a run does what (C31)

    [uses n m]: whatever the state, [m] records events of total weight at most [n].  The
    weight of an event of candidate [i] is given by [i] and the kind of the event, so that
    the same lemma bounds the number of events of one candidate and of all candidates. *)
From Coq Require Import ZArith NArith List Bool Arith Lia String Permutation.
From Verif Require Import F64 F64Order F64Alg F64Real Base Builders Types Filters Runner Observer Env EnvSpec
  ScatterSearch Codec Checkpoint Oqnlp Spec SpecStage2 BasicP Wp Actions RunP SetP FrameP FilterP.
Import ListNotations.

Section Count.
Context (wi wo wd ws : nat -> nat) (w1 : nat).
Definition weight (e : event) : nat :=
  match e with
  | EvIteration i => wi i
  | EvObjective i _ => wo i
  | EvDecide i _ _ _ _ => wd i
  | EvSearch (Some i) _ => ws i
  | EvSearch None _ => w1
  | _ => 0
  end.
Fixpoint total (l : list event) : nat := match l with [] => 0 | e :: r => weight e + total r end.
Lemma total_app : forall a b, total (a ++ b) = total a + total b.
Proof. induction a as [|e a IH]; intro b; simpl; [reflexivity|]. rewrite IH. lia. Qed.
Lemma total_rev : forall a, total (rev a) = total a.
Proof. induction a as [|e a IH]; simpl; [reflexivity|]. rewrite total_app, IH. simpl. lia. Qed.

Definition uses {A} (n : nat) (m : OM A) : Prop :=
  forall s, exists new, trace (snd (m s)) = new ++ trace s /\ total new <= n.
Lemma u_le : forall A n k (m : OM A), uses n m -> n <= k -> uses k m.
Proof. intros A n k m H Hl s. destruct (H s) as (new & H1 & H2). exists new. split; auto. lia. Qed.
Lemma u_same : forall A (m : OM A), (forall s, trace (snd (m s)) = trace s) -> uses 0 m.
Proof. intros A m H s. exists []. simpl. auto. Qed.
Lemma u_bind' : forall A B a b (m : OM A) (k : A -> OM B), uses a m ->
  (forall x s s', m s = (Ok x, s') -> uses b (k x)) -> uses (a + b) (bind m k).
Proof.
  intros A B a b m k H1 H2 s. unfold bind. destruct (H1 s) as (n1 & T1 & L1).
  destruct (m s) as [[x|e|] s1] eqn:Em; simpl in *; [|exists n1; split; auto; lia..].
  destruct (H2 x s s1 Em s1) as (n2 & T2 & L2). exists (n2 ++ n1). rewrite T2, T1, app_assoc. split; auto.
  rewrite total_app. lia.
Qed.
Lemma u_bind : forall A B a b (m : OM A) (k : A -> OM B), uses a m -> (forall x, uses b (k x)) -> uses (a + b) (bind m k).
Proof. intros. apply u_bind'; auto. Qed.
Lemma u_bind0 : forall A B (m : OM A) (k : A -> OM B), uses 0 m -> (forall x, uses 0 (k x)) -> uses 0 (bind m k).
Proof. intros. apply (u_bind _ _ 0 0); auto. Qed.
Lemma u_skip : forall A B b (m : OM A) (k : A -> OM B), uses 0 m -> (forall x, uses b (k x)) -> uses b (bind m k).
Proof. intros. apply (u_bind _ _ 0 b); auto. Qed.
Lemma u_skip' : forall A B b (m : OM A) (k : A -> OM B), uses 0 m -> (forall x s s', m s = (Ok x, s') -> uses b (k x)) -> uses b (bind m k).
Proof. intros. apply (u_bind' _ _ 0 b); auto. Qed.
Lemma u_ret : forall A (a : A), uses 0 (ret a). Proof. intros; apply u_same; auto. Qed.
Lemma u_fail : forall A e, @uses A 0 (fail e). Proof. intros; apply u_same; auto. Qed.
Lemma u_panic : forall A, @uses A 0 panic. Proof. intros; apply u_same; auto. Qed.
Lemma u_oqnlp : uses 0 the_oqnlp. Proof. apply u_same; auto. Qed.
Lemma u_upd : forall f, uses 0 (upd f). Proof. intros; apply u_same; auto. Qed.
Lemma u_tick : uses 0 tick. Proof. apply u_same; auto. Qed.
Lemma u_on_disk : forall A (m : DM A), uses 0 (on_disk m).
Proof. intros; apply u_same. intro s. rewrite on_disk_state. reflexivity. Qed.
Lemma u_unwrap : forall A (o : option A), uses 0 (unwrap o). Proof. intros A []; [apply u_ret|apply u_panic]. Qed.
Lemma u_of_result : forall A r, @uses A 0 (of_result r). Proof. intros; apply u_same; auto. Qed.
Lemma u_of_solver : forall A r, @uses A 0 (of_solver r).
Proof. intros A [a|e|]; [apply u_ret|apply u_fail|apply u_panic]. Qed.
Lemma u_emit : forall l, uses (total l) (emit l).
Proof. intros l s. exists (rev l). split; auto. rewrite total_rev. auto. Qed.
Lemma u_emit0 : forall l, total l = 0 -> uses 0 (emit l).
Proof. intros l H. rewrite <- H. apply u_emit. Qed.
Lemma total_map0 : forall A (f : A -> event) l, (forall x, weight (f x) = 0) -> total (map f l) = 0.
Proof. intros A f l H. induction l as [|x l IH]; simpl; [reflexivity|]. rewrite H, IH. reflexivity. Qed.

Ltac us1 :=
  match goal with
  | |- uses 0 (bind _ _) => apply u_bind0; [|intro]
  | |- uses 0 (ret _) => apply u_ret
  | |- uses 0 (fail _) => apply u_fail
  | |- uses 0 panic => apply u_panic
  | |- uses 0 the_oqnlp => apply u_oqnlp
  | |- uses 0 (upd _) => apply u_upd
  | |- uses 0 (obs _) => apply u_upd
  | |- uses 0 (emit _) => apply u_emit0; reflexivity
  | |- uses 0 tick => apply u_tick
  | |- uses 0 (on_disk _) => apply u_on_disk
  | |- uses 0 (unwrap _) => apply u_unwrap
  | |- uses 0 (of_result _) => apply u_of_result
  | |- uses 0 (of_solver _) => apply u_of_solver
  | |- uses 0 (let '(_, _) := ?x in _) => destruct x
  | |- uses 0 (if ?b then _ else _) => destruct b
  | |- uses 0 (match ?x with _ => _ end) => destruct x
  end.
Ltac us := repeat us1.

Context (E : env).
Lemma u_process : forall sol, uses 0 (process_local_solution E sol).
Proof. intro sol. unfold process_local_solution, set_solutions, set_threshold, add_to_filter. us. Qed.
Lemma u_callback : forall i, uses 0 (callback E i).
Proof.
  intro i. unfold callback. us. apply u_emit0. simpl. apply total_map0. reflexivity.
Qed.
Lemma u_callback_at : forall i, uses 0 (callback_at E i).
Proof. intro i. unfold callback_at. us. apply u_callback. Qed.
Lemma u_save_now : forall c, uses 0 (save_now E c). Proof. intro. unfold save_now, create_checkpoint. us. Qed.
Lemma u_maybe_save : uses 0 (maybe_save_checkpoint E).
Proof. unfold maybe_save_checkpoint. us. apply u_save_now. Qed.
Lemma u_final_save : uses 0 (maybe_save_final_checkpoint E).
Proof. unfold maybe_save_final_checkpoint. us. apply u_save_now. Qed.
Lemma u_resume : uses 0 (try_resume_from_checkpoint E).
Proof. unfold try_resume_from_checkpoint, restore_from_checkpoint. us. Qed.
Lemma u_begin : forall i u, uses (wi i) (begin_iteration E i u).
Proof.
  intros. unfold begin_iteration. repeat (apply u_skip; [us|intro]). eapply u_le; [apply u_emit|]. simpl. lia.
Qed.
Lemma u_obs_iteration : forall i u, uses 0 (obs_iteration i u). Proof. intros. unfold obs_iteration. us. Qed.
Lemma u_obs_search : forall a n, uses 0 (obs_search a n). Proof. intros. unfold obs_search. us. Qed.
Lemma u_count : forall u, uses 0 (count_unchanged u).
Proof. intros. unfold count_unchanged, adjust_threshold. us. Qed.
Lemma u_threshold : forall v, uses 0 (set_threshold v). Proof. intros. unfold set_threshold. us. Qed.
Lemma u_emit_eval : forall objs i p, uses (wo i) (emit_eval objs i p).
Proof.
  intros [l|] i p; simpl; [eapply u_le; [apply u_ret|lia]|]. eapply u_le; [apply u_emit|]. simpl; lia.
Qed.
Lemma u_emit1 : forall e, uses (weight e) (emit [e]).
Proof. intro e. eapply u_le; [apply u_emit|]. simpl; lia. Qed.
Ltac us2 := repeat first
  [ us1 | apply u_process | apply u_callback | apply u_callback_at | apply u_maybe_save | apply u_final_save
  | apply u_obs_iteration | apply u_obs_search | apply u_count | apply u_threshold ].

Definition cost (i : nat) : nat := wi i + wo i + wd i + ws i.
Fixpoint costs {A} (f : A -> nat) (l : list A) : nat := match l with [] => 0 | x :: r => f x + costs f r end.
Lemma u_one_seq : forall objs i p u, uses (cost i) (process_one_seq E objs i p u).
Proof.
  intros. unfold process_one_seq, cost.
  eapply u_le; [apply (u_bind _ _ (wi i) (wo i + wd i + ws i)); [apply u_begin|intro]|lia].
  apply u_skip; [apply u_obs_iteration|intro].
  eapply u_le; [apply (u_bind _ _ (wo i) (wd i + ws i)); [apply u_emit_eval|intro]|lia].
  apply u_skip; [us|intro obj]. apply u_skip; [us|intro]. apply u_skip; [us|intro o]. cbv zeta.
  apply u_bind; [eapply u_le; [apply u_emit1|reflexivity]|intro].
  eapply u_le; [apply (u_bind _ _ (ws i) 0)|lia].
  - destruct (should_start_local o p obj); [|apply (u_le _ 0); [us2|lia]].
    apply u_skip; [us2|intro]. eapply u_le; [apply (u_bind _ _ (ws i) 0); [apply u_emit1|intro; us2]|lia].
  - intros [u' stop]. us2.
Qed.
Lemma u_batch_seq : forall start res objs b u,
  uses (costs (fun x => cost (fst x)) b) (process_batch_sequential E start res objs b u).
Proof.
  intros start res objs b; induction b as [|[i p] b IH]; intros u; simpl; [apply u_ret|].
  destruct (res && (i <? start)); [eapply u_le; [apply IH|lia]|].
  apply u_bind; [apply u_one_seq|]. intros [u' [|]]; [eapply u_le; [apply u_ret|lia]|apply IH].
Qed.
Definition idx (c : nat * point * f64) : nat := fst (fst c).
Lemma u_quicks : forall l u, uses (costs (fun c => wi (idx c)) l) (process_quicks E l u).
Proof.
  induction l as [|[[i p] v] l IH]; intro u; simpl; [apply u_ret|].
  apply u_bind; [|auto]. unfold process_quick. 
  eapply u_le; [apply (u_bind _ _ (wi i) 0); [apply u_begin|intro; us2]|cbn; lia].
Qed.
Lemma u_par_results : forall l u,
  uses (costs (fun c => wi (idx (fst c))) l) (process_par_results E l u).
Proof.
  induction l as [|[[[i p] v] [x n]] l IH]; intro u; simpl; [apply u_ret|].
  apply u_bind; [|intros [|]; [eapply u_le; [apply u_ret|lia]|auto]]. unfold process_par_result.
  eapply u_le; [apply (u_bind _ _ (wi i) 0); [apply u_begin|intro; us2]|cbn; lia].
Qed.
Lemma u_singles : forall l u, uses (costs (fun c => wi (idx c) + ws (idx c)) l) (process_singles E l u).
Proof.
  induction l as [|[[i p] v] l IH]; intro u; simpl; [apply u_ret|].
  apply u_bind; [|intros [|]; [eapply u_le; [apply u_ret|lia]|auto]]. unfold process_single.
  apply u_bind; [apply u_begin|intro]. apply u_skip; [us2|intro]. apply u_skip; [us2|intro].
  eapply u_le; [apply (u_bind _ _ (ws i) 0); [apply u_emit1|intro; us2]|cbn; lia].
Qed.
Lemma costs_filter : forall A (f : A -> nat) (p : A -> bool) l,
  costs f (filter p l) + costs f (filter (fun x => negb (p x)) l) = costs f l.
Proof. intros A f p l. induction l as [|x l IH]; simpl; [reflexivity|]. destruct (p x); simpl; lia. Qed.
Lemma costs_filter_le : forall A (f : A -> nat) (p : A -> bool) l, costs f (filter p l) <= costs f l.
Proof. intros A f p l. induction l as [|x l IH]; simpl; [lia|]. destruct (p x); simpl; lia. Qed.
Lemma costs_map : forall A B (f : B -> nat) (g : A -> B) l, costs f (map g l) = costs (fun x => f (g x)) l.
Proof. intros. induction l as [|x l IH]; simpl; [reflexivity|]. rewrite IH. reflexivity. Qed.
Lemma costs_add : forall A (f g : A -> nat) l, costs (fun x => f x + g x) l = costs f l + costs g l.
Proof. intros. induction l as [|x l IH]; simpl; [reflexivity|]. rewrite IH. lia. Qed.
Lemma total_costs : forall A (f : A -> event) l, total (map f l) = costs (fun x => weight (f x)) l.
Proof. intros. induction l as [|x l IH]; simpl; [reflexivity|]. rewrite IH. reflexivity. Qed.
(** a parallel collect keeps the candidates *)
Lemma collect_costs : forall A B (f : A -> outcome oq_error B) (g : A -> nat) (h : B -> nat) pick l vs,
  (forall a b, f a = Ok b -> g a = h b) -> par_collect pick (map f l) = Ok vs -> costs h vs = costs g l.
Proof.
  intros A B f g h pick l vs H Hc. apply par_collect_ok in Hc. revert vs Hc.
  induction l as [|a l IH]; intros [|v vs] Hc; simpl in *; try discriminate; [reflexivity|].
  injection Hc as H1 H2. rewrite (IH vs H2), (H a v H1). reflexivity.
Qed.
Lemma u_batch_par : forall start res objs b u,
  uses (costs (fun x => cost (fst x)) b) (process_batch_parallel E start res objs b u).
Proof.
  intros. unfold process_batch_parallel. set (fb := if res then _ else _).
  assert (Hfb : costs (fun x => cost (fst x)) fb <= costs (fun x => cost (fst x)) b).
  { unfold fb. destruct res; [apply costs_filter_le|lia]. }
  eapply u_le; [|exact Hfb]. clearbody fb. clear Hfb.
  destruct (match fb with [] => true | _ => false end); [eapply u_le; [apply u_ret|lia]|].
  unfold cost at 1. rewrite 3 costs_add.
  set (Ci := costs (fun x : nat * point => wi (fst x)) fb). set (Co := costs (fun x : nat * point => wo (fst x)) fb).
  set (Cd := costs (fun x : nat * point => wd (fst x)) fb). set (Cs := costs (fun x : nat * point => ws (fst x)) fb).
  eapply u_le; [apply (u_bind _ _ Co (Ci + Cd + Cs))|lia].
  { destruct objs; [eapply u_le; [apply u_ret|lia]|]. eapply u_le; [apply u_emit|]. rewrite total_costs. reflexivity. }
  intros _. apply u_skip; [apply u_tick|intro t]. apply u_skip'; [apply u_of_result|].
  intros results sA sB Hres. injection Hres as Hres _.
  assert (Hsum : forall f : nat -> nat, costs (fun c => f (idx c)) results = costs (fun x : nat * point => f (fst x)) fb).
  { intro f. refine (collect_costs _ _ _ _ _ _ _ _ _ Hres). intros [i p] [[i' p'] v] Hx. cbn in *.
    destruct (cand_objective E objs i p); inversion Hx; reflexivity. }
  apply u_skip; [us|intro]. apply u_skip; [us|intro o]. cbv zeta.
  set (passes := fun c : nat * point * f64 => should_start_local o (snd (fst c)) (snd c)).
  rewrite partition_filter.
  eapply u_le; [apply (u_bind _ _ Cd (Ci + Cs))|lia].
  { eapply u_le; [apply u_emit|]. rewrite total_costs. cbn [weight]. change (fun x => wd (fst (fst x))) with (fun x => wd (idx x)).
    rewrite Hsum. reflexivity. }
  intros _.
  pose proof (costs_filter _ (fun c => wi (idx c)) passes results) as Fi. rewrite (Hsum wi) in Fi. fold Ci in Fi.
  pose proof (costs_filter_le _ (fun c => ws (idx c)) passes results) as Fs. rewrite (Hsum ws) in Fs. fold Cs in Fs.
  eapply u_le; [apply u_bind; [apply u_quicks|intro u']|].
  2: { instantiate (1 := costs (fun c => wi (idx c)) (filter passes results) + Cs). lia. }
  apply u_skip; [us|intro o2].
  eapply u_le; [apply (u_bind _ _ (costs (fun c => wi (idx c)) (filter passes results) + Cs) 0); [|intro; apply u_ret]|lia].
  destruct (_ && _).
  - eapply u_le; [apply (u_bind _ _ Cs (costs (fun c => wi (idx c)) (filter passes results)))|lia].
    { eapply u_le; [apply u_emit|]. rewrite total_costs. cbn [weight]. exact Fs. }
    intros _. apply u_skip'; [apply u_of_result|]. intros rs sC sD Hrs. injection Hrs as Hrs _.
    eapply u_le; [apply u_par_results|].
    assert (X : costs (fun c => wi (idx (fst c))) rs = costs (fun c => wi (idx c)) (filter passes results)); [|lia].
    refine (collect_costs _ _ _ _ _ _ _ _ _ Hrs). intros c [c' r] Hx. cbv beta in Hx.
    destruct (lift_solver _) as [a|e|]; inversion Hx; reflexivity.
  - eapply u_le; [apply u_singles|]. rewrite costs_add. lia.
Qed.
Lemma u_loop : forall size start res objs l u,
  uses (costs (costs (fun x => cost (fst x))) l) (stage2_loop E size start res objs l u).
Proof.
  intros size start res objs l; induction l as [|b l IH]; intros u; simpl; [apply u_ret|].
  apply u_skip; [us|intro]. apply u_skip; [us|intros [|]]; [eapply u_le; [apply u_ret|lia]|].
  apply u_skip; [us|intro]. apply u_bind; [destruct (1 <? size); [apply u_batch_par|apply u_batch_seq]|].
  intro u'. apply u_skip; [us|intro]. apply u_skip; [us|intros [|]]; [eapply u_le; [apply u_ret|lia]|apply IH].
Qed.
Lemma chunks_costs : forall A (f : A -> nat) fuel n l, n <> 0 -> List.length l <= fuel ->
  costs (costs f) (chunks_fuel fuel n l) = costs f l.
Proof.
  intros A f. induction fuel as [|fuel IH]; intros n l Hn Hl.
  - destruct l; simpl in *; [reflexivity|lia].
  - destruct l as [|x l]; [reflexivity|]. remember (x :: l) as y.
    change (chunks_fuel (S fuel) n y) with (match y with [] => [] | _ => firstn n y :: chunks_fuel fuel n (skipn n y) end).
    assert (Hy : match y with [] => [] | _ => firstn n y :: chunks_fuel fuel n (skipn n y) end = firstn n y :: chunks_fuel fuel n (skipn n y)) by (subst y; reflexivity).
    rewrite Hy. cbn [costs]. rewrite IH; auto.
    + clear. revert n. induction y as [|a y IHy]; intros [|n]; simpl; try reflexivity. specialize (IHy n). lia.
    + rewrite skipn_length. subst y. cbn [List.length] in *. lia.
Qed.
(** the candidates of a Stage 2 *)
Definition trials (res : bool) (o : oqnlp) (rs : list point) : list (nat * point) :=
  skipn (if res then o_iteration o else 0) (enumerate (firstn (p_iterations (o_params o)) rs)).
Definition stage2_tail (res : bool) (objs : option (list f64)) (u : nat) (o : oqnlp) (rs : list point) : OM solset :=
  let start := if res then o_iteration o else 0 in
  let size := batch_size E o start in
  bind (if size =? 0 then panic
        else stage2_loop E size start res objs (chunks size (trials res o rs)) u) (fun _ =>
  bind (maybe_save_final_checkpoint E) (fun _ => final_set)).
Lemma u_tail : forall res objs u o rs, uses (costs (fun x => cost (fst x)) (trials res o rs)) (stage2_tail res objs u o rs).
Proof.
  intros. unfold stage2_tail. rewrite <- (Nat.add_0_r (costs _ _)). cbv zeta. apply u_bind; [|intro; unfold final_set; us2].
  destruct (_ =? 0) eqn:Hz; [eapply u_le; [apply u_panic|lia]|]. apply Nat.eqb_neq in Hz.
  eapply u_le; [apply u_loop|]. unfold chunks. rewrite chunks_costs; auto.
Qed.
Lemma bind_ok : forall A B (m : OM A) (k : A -> OM B) s a s', m s = (Ok a, s') -> bind m k s = k a s'.
Proof. intros A B m k s a s' H. unfold bind. rewrite H. reflexivity. Qed.
Lemma bind_panic : forall A B (m : OM A) (k : A -> OM B) s s', m s = (Panic, s') -> bind m k s = (Panic, s').
Proof. intros A B m k s s' H. unfold bind. rewrite H. reflexivity. Qed.
Lemma stage2_eq : forall res refs objs u s,
  stage2_run E res refs objs u s =
  bind begin_stage2 (fun _ => bind the_oqnlp (fun o =>
    bind (if res then ret refs
          else bind (unwrap (add_u64 E (p_seed (o_params o)) (N.of_nat (o_iteration o)))) (fun seed =>
               bind (upd (set_o_seed seed)) (fun _ => ret (e_shuffle E (e_seed_from E seed) refs))))
      (stage2_tail res objs u o))) s.
Proof. reflexivity. Qed.
Lemma u_stage2 : forall res refs objs u s, exists new,
  trace (snd (stage2_run E res refs objs u s)) = new ++ trace s /\
  (total new = 0 \/ exists rs, order_of E res (s_o s) refs rs /\
     total new <= costs (fun x => cost (fst x)) (trials res (s_o s) rs)).
Proof.
  intros res refs objs u s. rewrite stage2_eq.
  assert (Hb : begin_stage2 s = (Ok tt, snd (begin_stage2 s))) by reflexivity.
  rewrite (bind_ok _ _ _ _ _ _ _ Hb). set (s1 := snd (begin_stage2 s)) in *.
  assert (T1 : trace s1 = trace s) by reflexivity.
  assert (O1 : o_iteration (s_o s1) = o_iteration (s_o s)) by reflexivity.
  assert (P1 : o_params (s_o s1) = o_params (s_o s)) by reflexivity.
  clearbody s1. clear Hb. rewrite (bind_ok _ _ the_oqnlp _ s1 (s_o s1) s1 eq_refl). rewrite <- T1.
  destruct res.
  - rewrite (bind_ok _ _ (ret refs) _ s1 refs s1 eq_refl).
    destruct (u_tail true objs u (s_o s1) refs s1) as (new & H1 & H2). exists new. split; auto. right. exists refs.
    split; [reflexivity|]. unfold trials in *. rewrite <- O1, <- P1. exact H2.
  - destruct (add_u64 E (p_seed (o_params (s_o s1))) (N.of_nat (o_iteration (s_o s1)))) as [seed|] eqn:Hs.
    + set (s2 := mk_st (set_o_seed seed (s_o s1)) (s_w s1)).
      erewrite bind_ok with (s' := s2); [|unfold bind, unwrap, ret; reflexivity].
      destruct (u_tail false objs u (s_o s1) (e_shuffle E (e_seed_from E seed) refs) s2) as (new & H1 & H2).
      exists new. split; auto. right. eexists. split.
      * exists seed. split; [rewrite <- O1, <- P1; exact Hs|reflexivity].
      * unfold trials in *. rewrite <- P1. exact H2.
    + rewrite (bind_panic _ _ _ _ s1 s1) by reflexivity. exists []. split; [reflexivity|left; reflexivity].
Qed.
Lemma u_stage1 : uses w1 (stage1_run E).
Proof.
  unfold stage1_run, end_stage1, stage1_enter. apply u_skip; [us|intro o]. apply u_skip; [us|intro t].
  destruct (stage1_init E o t); [|apply (u_le _ 0); [us|lia]..].
  destruct (ss_run E a) as [res sf]. apply u_skip; [us|intro].
  apply u_skip; [apply u_emit0, total_map0; reflexivity|intro].
  destruct res as [[pts cand]|e|]; [|apply (u_le _ 0); [us|lia]..]. cbv zeta.
  apply u_skip; [us|intro]. apply u_skip; [us2|intro]. apply u_skip; [us|intro]. apply u_skip; [us|intro].
  eapply u_le; [apply (u_bind _ _ w1 0); [apply u_emit1|intro; us2]|lia].
Qed.
End Count.

(** ** From weights to indices *)
Definition ind (i : nat) : nat -> nat := fun j => if j =? i then 1 else 0.
Definition zero : nat -> nat := fun _ => 0.
Lemma total_indices : forall (f : event -> option nat) wi wo wd ws w1 i l,
  (forall e, weight wi wo wd ws w1 e = match f e with Some j => ind i j | None => 0 end) ->
  total wi wo wd ws w1 l = count_occ Nat.eq_dec (indices f l) i.
Proof.
  intros f wi wo wd ws w1 i l H. induction l as [|e l IH]; simpl; [reflexivity|].
  rewrite H, IH. unfold indices. simpl. rewrite count_occ_app. destruct (f e) as [j|]; [|reflexivity].
  f_equal. unfold ind. simpl. destruct (Nat.eq_dec j i) as [->|n]; [rewrite Nat.eqb_refl; reflexivity|].
  apply Nat.eqb_neq in n. rewrite n. reflexivity.
Qed.
Lemma costs_ext : forall A (f g : A -> nat) l, (forall x, f x = g x) -> costs f l = costs g l.
Proof. intros A f g l H. induction l as [|x l IH]; simpl; [reflexivity|]. rewrite H, IH. reflexivity. Qed.
Lemma ind_costs : forall A (l : list (nat * A)) i, costs (fun x => ind i (fst x)) l = count_occ Nat.eq_dec (map fst l) i.
Proof.
  intros A l i. induction l as [|[j a] l IH]; simpl; [reflexivity|]. rewrite IH. unfold ind.
  destruct (Nat.eq_dec j i) as [->|n]; [rewrite Nat.eqb_refl; reflexivity|]. apply Nat.eqb_neq in n. rewrite n. reflexivity.
Qed.
Lemma zero_costs : forall A (l : list A), costs (fun _ => 0) l = 0.
Proof. intros A l. induction l; simpl; auto. Qed.
Lemma enum_fst : forall A (l : list A) n, map fst (enumerate_from n l) = seq n (List.length l).
Proof. induction l as [|x l IH]; intro n; simpl; [reflexivity|]. rewrite IH. reflexivity. Qed.
Lemma skipn_seq : forall k m n, skipn k (seq m n) = seq (m + k) (n - k).
Proof.
  induction k as [|k IH]; intros m n; simpl; [rewrite Nat.add_0_r, Nat.sub_0_r; reflexivity|].
  destruct n as [|n]; simpl; [reflexivity|]. rewrite IH. f_equal. lia.
Qed.
Lemma trials_fst : forall res o rs, exists k,
  map fst (trials res o rs) = seq k (Nat.min (p_iterations (o_params o)) (List.length rs) - k).
Proof.
  intros res o rs. unfold trials, enumerate. rewrite <- skipn_map, enum_fst, firstn_length, skipn_seq. simpl. eauto.
Qed.
Lemma trials_count : forall res o rs i,
  count_occ Nat.eq_dec (map fst (trials res o rs)) i <= 1 /\
  (count_occ Nat.eq_dec (map fst (trials res o rs)) i > 0 -> i < Nat.min (p_iterations (o_params o)) (List.length rs)).
Proof.
  intros res o rs i. destruct (trials_fst res o rs) as [k ->]. split.
  - apply NoDup_count_occ, seq_NoDup.
  - intro H. apply count_occ_In in H. apply in_seq in H. lia.
Qed.

(** a Stage 2 whose candidates are [rs] works on each index below the bound at most once *)
Definition kind_ok (f : event -> option nat) (wi wo wd ws : nat -> nat -> nat) : Prop :=
  forall i, (forall e, weight (wi i) (wo i) (wd i) (ws i) 0 e = match f e with Some j => ind i j | None => 0 end) /\
            (forall j, cost (wi i) (wo i) (wd i) (ws i) j = ind i j).
Definition zz : nat -> nat -> nat := fun _ => zero.
Lemma kind_begun : kind_ok (fun e => match e with EvIteration i => Some i | _ => None end) ind zz zz zz.
Proof. intro i; split; [intro e; destruct e; try reflexivity; destruct iter; reflexivity|]. intro j. unfold cost, zz, zero. lia. Qed.
Lemma kind_eval : kind_ok (fun e => match e with EvObjective i _ => Some i | _ => None end) zz ind zz zz.
Proof. intro i; split; [intro e; destruct e; try reflexivity; destruct iter; reflexivity|]. intro j. unfold cost, zz, zero. lia. Qed.
Lemma kind_decide : kind_ok (fun e => match e with EvDecide i _ _ _ _ => Some i | _ => None end) zz zz ind zz.
Proof. intro i; split; [intro e; destruct e; try reflexivity; destruct iter; reflexivity|]. intro j. unfold cost, zz, zero. lia. Qed.
Lemma kind_search : kind_ok (fun e => match e with EvSearch (Some i) _ => Some i | _ => None end) zz zz zz ind.
Proof. intro i; split; [intro e; destruct e; try reflexivity; destruct iter; reflexivity|]. intro j. unfold cost, zz, zero. lia. Qed.

Lemma order_length : forall E res o refs rs, env_ok E -> order_of E res o refs rs -> List.length rs = List.length refs.
Proof.
  intros E [|] o refs rs He H; simpl in H; [congruence|]. destruct H as (seed & _ & ->).
  symmetry. apply Permutation_length. apply Permutation_sym || idtac. apply eo_shuffle. exact He.
Qed.
Lemma stage2_once : forall E res refs objs u s new f wi wo wd ws, env_ok E -> kind_ok f wi wo wd ws ->
  trace (snd (stage2_run E res refs objs u s)) = new ++ trace s ->
  once_below (Nat.min (p_iterations (o_params (s_o s))) (List.length refs)) (indices f new).
Proof.
  intros E res refs objs u s new f wi wo wd ws He Hk Ht.
  assert (Hc : forall i, count_occ Nat.eq_dec (indices f new) i <= 1 /\
     (count_occ Nat.eq_dec (indices f new) i > 0 -> i < Nat.min (p_iterations (o_params (s_o s))) (List.length refs))).
  { intro i. destruct (Hk i) as [K1 K2].
    destruct (u_stage2 (wi i) (wo i) (wd i) (ws i) 0 E res refs objs u s) as (new' & T & Hb).
    rewrite Ht in T. apply app_inv_tail in T. subst new'.
    rewrite <- (total_indices f _ _ _ _ 0 i new K1). destruct Hb as [->|(rs & Ho & Hb)]; [lia|].
    rewrite (costs_ext _ _ (fun x => ind i (fst x))) in Hb by (intro; apply K2). rewrite ind_costs in Hb.
    destruct (trials_count res (s_o s) rs i) as [C1 C2]. rewrite (order_length E res (s_o s) refs rs He Ho) in C2. lia. }
  split.
  - apply (NoDup_count_occ Nat.eq_dec). intro i. apply Hc.
  - intros i Hi. apply Hc. apply count_occ_In. exact Hi.
Qed.
Lemma stage1_none : forall E s new f wi wo wd ws, kind_ok f wi wo wd ws ->
  trace (snd (stage1_run E s)) = new ++ trace s -> indices f new = [].
Proof.
  intros E s new f wi wo wd ws Hk Ht. destruct (indices f new) as [|i l] eqn:Hi; [reflexivity|].
  destruct (Hk i) as [K1 _]. destruct (u_stage1 (wi i) (wo i) (wd i) (ws i) 0 E s) as (new' & T & Hb).
  rewrite Ht in T. apply app_inv_tail in T. subst new'.
  rewrite (total_indices f _ _ _ _ 0 i new K1), Hi in Hb. simpl in Hb. destruct (Nat.eq_dec i i); [lia|congruence].
Qed.
Lemma indices_app : forall f a b, indices f (a ++ b) = indices f a ++ indices f b.
Proof. intros. apply flat_map_app. Qed.

(** ** The reference set is not changed by Stage 2 *)
Lemma acts_ref : forall E K objs s s', (forall p, ~ K None p) -> acts E K objs s s' -> o_ref (s_o s') = o_ref (s_o s).
Proof.
  intros E K objs s s' Hk H. induction H as [s|s s1 s' H H0 IH]; [reflexivity|]. rewrite IH. clear IH H0.
  destruct H; try reflexivity; [|exfalso; eapply Hk; eauto].
  destruct (pls_cases E sol s) as [[-> _]|[[_ [_ [-> _]]]|[_ [[_ [-> _]]|
    [cur [rest [_ [[_ [_ [ob ->]]]|[[_ [_ [_ [_ [ob ->]]]]]|[_ [_ [_ ->]]]]]]]]]]]]; reflexivity.
Qed.
Lemma u_resume_state : forall E s b s1, try_resume_from_checkpoint E s = (Ok b, s1) -> trace s1 = trace s.
Proof.
  intros E s b s1 H. apply resume_ok in H. inversion H; reflexivity.
Qed.
Definition none_below (n : nat) (new : list event) : Prop :=
  once_below n (begun new) /\ once_below n (evaluated new) /\ once_below n (decided new) /\ once_below n (searched new).
Lemma stage1_count : forall l, total zero zero zero zero 1 l = List.length (stage1_searches l).
Proof.
  induction l as [|e l IH]; [reflexivity|]. unfold stage1_searches. simpl. fold (stage1_searches l).
  destruct e; try destruct iter; simpl; rewrite IH; reflexivity.
Qed.
Lemma once_nil : forall n, once_below n []. Proof. intro n. split; [constructor|intros ? []]. Qed.

Lemma c31_run : forall E s r s' new, env_ok E -> run E s = (r, s') -> recorded s s' new ->
  none_below (work_bound s') new /\ List.length (stage1_searches new) <= 1.
Proof.
  intros E s r s' new He Hrun Hnew. change (trace s' = new ++ trace s) in Hnew.
  unfold run in Hrun. unfold bind in Hrun at 1.
  destruct (try_resume_from_checkpoint E s) as [[resumed|e|] s1] eqn:Ht.
  2,3: injection Hrun as <- <-; destruct (resume_fail E s _ _ Ht) as (d & _ & ->); [congruence|];
       assert (new = []) by (eapply app_inv_tail; rewrite <- Hnew; reflexivity); subst new;
       split; [repeat split; try constructor; intros ? []|simpl; auto].
  pose proof (u_resume_state E s _ s1 Ht) as T1. rewrite <- T1 in Hnew.
  destruct resumed.
  - pose proof (resume_ok E s true s1 Ht) as Hst.
    assert (Href : exists refs, o_ref (s_o s1) = Some refs) by (inversion Hst; subst; simpl; eauto).
    destruct Href as [refs Href]. unfold bind, the_oqnlp, get, ret, bind in Hrun. simpl in Hrun. rewrite Href in Hrun.
    pose proof (a_stage2 E (candidate E true (s_o s1) refs) None true refs (o_unchanged (s_o s1))
                    (fun r s' => True) s1 (fun i p H => H) (fun r s' _ H => I)) as [W1 _].
    rewrite Hrun in W1. simpl in W1.
    assert (Hp : o_params (s_o s') = o_params (s_o s1)) by (apply acts_config in W1; apply W1).
    assert (Hr : o_ref (s_o s') = Some refs).
    { rewrite <- Href. eapply acts_ref; [|exact W1]. intros p (i & rs & Hx & _). discriminate. }
    assert (Hn : trace (snd (stage2_run E true refs None (o_unchanged (s_o s1)) s1)) = new ++ trace s1) by (rewrite Hrun; exact Hnew).
    unfold work_bound, reference_set. rewrite Hp, Hr. split.
    + repeat split;
        first [ eapply (stage2_once E true refs None _ s1 new _ _ _ _ _ He kind_begun Hn)
              | eapply (stage2_once E true refs None _ s1 new _ _ _ _ _ He kind_eval Hn)
              | eapply (stage2_once E true refs None _ s1 new _ _ _ _ _ He kind_decide Hn)
              | eapply (stage2_once E true refs None _ s1 new _ _ _ _ _ He kind_search Hn) ].
    + rewrite <- stage1_count. destruct (u_stage2 zero zero zero zero 1 E true refs None (o_unchanged (s_o s1)) s1) as (new' & T & Hb).
      rewrite Hn in T. apply app_inv_tail in T. subst new'. destruct Hb as [->|(rs & _ & Hb)]; [lia|].
      rewrite (costs_ext _ _ (fun _ => 0)), zero_costs in Hb by reflexivity. lia.
  - unfold bind in Hrun at 1. destruct (stage1_run E s1) as [r2 s2] eqn:E1.
    assert (Hs1 : exists n1, trace s2 = n1 ++ trace s1).
    { destruct (u_stage1 zero zero zero zero 0 E s1) as (n1 & T & _). rewrite E1 in T. simpl in T. eauto. }
    destruct Hs1 as [n1 Hn1].
    assert (Hn1' : trace (snd (stage1_run E s1)) = n1 ++ trace s1) by (rewrite E1; exact Hn1).
    assert (Hnone : forall f wi wo wd ws, kind_ok f wi wo wd ws -> indices f n1 = []).
    { intros. eapply stage1_none; eauto. }
    assert (Hone : List.length (stage1_searches n1) <= 1).
    { rewrite <- stage1_count. destruct (u_stage1 zero zero zero zero 1 E s1) as (new' & T & Hb).
      rewrite Hn1' in T. apply app_inv_tail in T. subst new'. exact Hb. }
    assert (Hquiet : forall n, none_below n n1).
    { intro n. unfold none_below, begun, evaluated, decided, searched.
      rewrite (Hnone _ _ _ _ _ kind_begun), (Hnone _ _ _ _ _ kind_eval), (Hnone _ _ _ _ _ kind_decide), (Hnone _ _ _ _ _ kind_search).
      auto using once_nil. }
    destruct r2 as [[[refs objs]|]|e|].
    + assert (Hn : exists n2, new = n2 ++ n1 /\ trace (snd (stage2_run E false refs (Some objs) 0 s2)) = n2 ++ trace s2).
      { destruct (u_stage2 zero zero zero zero 0 E false refs (Some objs) 0 s2) as (n2 & T & _). exists n2. split; auto.
        rewrite Hrun in T. simpl in T. rewrite Hnew, Hn1, app_assoc in T. apply app_inv_tail in T. exact T. }
      destruct Hn as (n2 & -> & Hn).
      pose proof (a_stage2 E (candidate E false (s_o s2) refs) (Some objs) false refs 0
                    (fun r s' => True) s2 (fun i p H => H) (fun r s' _ H => I)) as [W1 _].
      rewrite Hrun in W1. simpl in W1.
      pose proof (a_stage1 E (stage1_best E s1) None
        (fun r s2 => forall refs objs, r = Some (refs, objs) -> stage1_result E s1 s2 refs objs) s1
        (fun _ H => H) (fun _ _ _ H => H)) as [_ W0].
      rewrite E1 in W0. simpl in W0. destruct (W0 refs objs eq_refl) as (_ & _ & _ & _ & _ & _ & _ & _ & Href).
      assert (Hp : o_params (s_o s') = o_params (s_o s2)) by (apply acts_config in W1; apply W1).
      assert (Hr : o_ref (s_o s') = Some refs).
      { rewrite <- Href. eapply acts_ref; [|exact W1]. intros p (i & rs & Hx & _). discriminate. }
      unfold work_bound, reference_set. rewrite Hp, Hr. split.
      * unfold none_below, begun, evaluated, decided, searched. rewrite !indices_app.
        rewrite (Hnone _ _ _ _ _ kind_begun), (Hnone _ _ _ _ _ kind_eval), (Hnone _ _ _ _ _ kind_decide), (Hnone _ _ _ _ _ kind_search).
        rewrite !app_nil_r. repeat split;
        first [ eapply (stage2_once E false refs (Some objs) _ s2 n2 _ _ _ _ _ He kind_begun Hn)
              | eapply (stage2_once E false refs (Some objs) _ s2 n2 _ _ _ _ _ He kind_eval Hn)
              | eapply (stage2_once E false refs (Some objs) _ s2 n2 _ _ _ _ _ He kind_decide Hn)
              | eapply (stage2_once E false refs (Some objs) _ s2 n2 _ _ _ _ _ He kind_search Hn) ].
      * unfold stage1_searches in *. rewrite filter_app, app_length. fold (stage1_searches n2). rewrite <- stage1_count.
        destruct (u_stage2 zero zero zero zero 1 E false refs (Some objs) 0 s2) as (new' & T & Hb).
        rewrite Hn in T. apply app_inv_tail in T. subst new'. destruct Hb as [->|(rs & _ & Hb)]; [lia|].
        rewrite (costs_ext _ _ (fun _ => 0)), zero_costs in Hb by reflexivity. lia.
    + assert (Hx : new = n1).
      { unfold final_set, bind, the_oqnlp, get, ret, fail, bind in Hrun. simpl in Hrun.
        destruct (o_set (s_o s2)); injection Hrun as <- <-; rewrite Hn1 in Hnew; apply app_inv_tail in Hnew; auto. }
      subst new. split; auto.
    + injection Hrun as <- <-. rewrite Hn1 in Hnew. apply app_inv_tail in Hnew. subst. split; auto.
    + injection Hrun as <- <-. rewrite Hn1 in Hnew. apply app_inv_tail in Hnew. subst. split; auto.
Qed.
