(** * The wait cycle (C34) *)
From Coq Require Import ZArith NArith List Bool Arith Lia String Permutation.
From Verif Require Import F64 F64Order Base Builders Types Filters Runner Observer Env EnvSpec
  ScatterSearch Codec Checkpoint Oqnlp Spec SpecStage2 BasicP Wp Actions RunP SetP LeaderP FrameP FilterP CountP EmitsP HoareP.
Import ListNotations.

Lemma rejections_app : forall a b, rejections (a ++ b) = rejections a + rejections b.
Proof. intros. unfold rejections. rewrite filter_app, app_length. reflexivity. Qed.
Lemma relaxations_app : forall a b, relaxations (a ++ b) = relaxations a + relaxations b.
Proof. intros. unfold relaxations. rewrite filter_app, app_length. reflexivity. Qed.

Section Wait.
Context (E : env) (u0 wc : nat).
Definition w : nat := Nat.max 1 wc.
Definition balanced (u : nat) (tr : list event) : Prop := u0 + rejections tr = relaxations tr * w + u.
(** at every batch start, and in every checkpoint, the counter is below the cycle *)
Definition at_batches (tr : list event) : Prop := forall l1 l2, tr = l1 ++ EvBatch :: l2 -> exists u, u < w /\ balanced u l2.
Definition saves_ok (tr : list event) : Prop := forall f cp, In (EvSave f cp) tr -> cp_unchanged cp < w.
Definition okay (s : st) : Prop := at_batches (trace s) /\ saves_ok (trace s) /\ o_unchanged (s_o s) < w.
(** [u]: the counter; [pend]: rejected candidates not yet counted *)
Definition cnt (u pend : nat) (s : st) : Prop :=
  okay s /\ u < w /\ balanced (u + pend) (trace s) /\ p_wait_cycle (o_params (s_o s)) = wc.
Notation hoare := (hoare okay).
Definition calm (e : event) : Prop :=
  match e with EvBatch | EvSave _ _ | EvRelax _ | EvDecide _ _ _ _ false => False | _ => True end.
Definition kept (o : oqnlp) := (p_wait_cycle (o_params o), o_unchanged o).
Lemma cnt_okay : forall u n s, cnt u n s -> okay s. Proof. intros u n s H; apply H. Qed.
Lemma at_batches_app : forall new tr, ~ In EvBatch new -> at_batches tr -> at_batches (new ++ tr).
Proof.
  intros new tr Hn H l1 l2 Heq. apply app_split2 in Heq as [(r & Hx & Hy)|(r & Hx & Hy)].
  - exfalso. apply Hn. rewrite Hx. apply in_or_app; right; left; reflexivity.
  - eapply H; eauto.
Qed.
Lemma cnt_stable : forall u n, stable calm kept (cnt u n).
Proof.
  intros u n s s' new ((H1 & H2 & H3) & H4 & H5 & H6) Ht Hn Hf. injection Hf as F1 F2.
  assert (Z : rejections new = 0 /\ relaxations new = 0).
  { clear - Hn. induction new as [|e new IH]; [auto|]. pose proof (Forall_inv Hn) as He. specialize (IH (Forall_inv_tail Hn)).
    unfold rejections, relaxations in *. destruct e; simpl in *; auto; try contradiction. destruct go; simpl; auto; contradiction. }
  split; [|split; [auto|split; [|congruence]]].
  - split; [|split; [|congruence]]; rewrite Ht.
    + apply at_batches_app; auto. intro Hi. rewrite Forall_forall in Hn. apply (Hn _ Hi).
    + intros f cp Hi. apply in_app_or in Hi as [Hi|Hi]; [|eauto]. rewrite Forall_forall in Hn. destruct (Hn _ Hi).
  - unfold balanced in *. rewrite Ht, rejections_app, relaxations_app, (proj1 Z), (proj2 Z). simpl. auto.
Qed.
Lemma c_calm : forall u n A (m : OM A), emits calm m -> keeps kept m -> hoare (cnt u n) m (fun _ => cnt u n).
Proof. intros. eapply h_stable; eauto using cnt_stable, cnt_okay. Qed.
Lemma c_ret : forall u n A (a : A), hoare (cnt u n) (ret a) (fun _ => cnt u n).
Proof. intros. apply h_ret. eauto using cnt_okay. Qed.
Lemma c_retv : forall u n A (a : A) (Q : A -> st -> Prop), (forall s, cnt u n s -> Q a s) -> hoare (cnt u n) (ret a) Q.
Proof. intros. apply h_ret. intros s Hs. split; eauto using cnt_okay. Qed.
Ltac cc := apply c_calm; [parts|parts].
Ltac cs := eapply h_bind; [cc|intro].

(** saving stores the counter of the optimizer *)
Lemma c_save_now : forall u n c, hoare (cnt u n) (save_now E c) (fun _ => cnt u n).
Proof.
  intros u n c s H. unfold save_now, create_checkpoint, bind, tick, the_oqnlp, get, ret, bind. simpl.
  set (cp := mk_cp _ _ _ _ _ _ _ _ _ _ _ _ _ _ _ _). set (fn := file_name _ _).
  assert (G : forall s2, s_o s2 = s_o s -> trace s2 = EvSave fn cp :: trace s -> cnt u n s2).
  { intros s2 G1 G2. destruct H as ((H1 & H2 & H3) & H4 & H5 & H6). split; [|split; [auto|split]].
    - split; [|split; [|congruence]]; rewrite G2.
      + apply (at_batches_app [_]); auto. intros [Hx|[]]; discriminate.
      + intros f x [Hx|Hx]; [|eauto]. injection Hx as _ <-. exact H3.
    - unfold balanced in *. rewrite G2. exact H5.
    - congruence. }
  match goal with |- context [on_disk ?m ?s1] => pose proof (on_disk_state _ m s1) as Hd;
    destruct (on_disk m s1) as [[a|e|] s2] end; simpl in *; subst s2.
  - split; [eapply cnt_okay, G; reflexivity|]. intros x s' Hx. injection Hx as _ <-. apply G; reflexivity.
  - split; [eapply cnt_okay, G; reflexivity|discriminate].
  - split; [eapply cnt_okay, G; reflexivity|discriminate].
Qed.
Lemma c_of : forall u n A (m : OM A) (Q : A -> st -> Prop), hoare (cnt u n) m Q -> forall X : Prop, hoare (fun s => cnt u n s /\ X) m Q.
Proof. intros u n A m Q H X s [Hs _]. apply H; auto. Qed.
Lemma c_maybe_save : forall u n, hoare (cnt u n) (maybe_save_checkpoint E) (fun _ => cnt u n).
Proof.
  intros u n. unfold maybe_save_checkpoint. cs. destruct (o_cp a) as [c|]; [|apply c_ret].
  destruct (cc_save_frequency c); [apply h_panic; intros s; apply cnt_okay|].
  destruct (_ =? 0); [apply c_save_now|apply c_ret].
Qed.
Lemma c_final_save : forall u n, hoare (cnt u n) (maybe_save_final_checkpoint E) (fun _ => cnt u n).
Proof. intros u n. unfold maybe_save_final_checkpoint. cs. destruct (o_cp a) as [c|]; [apply c_save_now|apply c_ret]. Qed.
(** the iteration stores the counter *)
Lemma c_begin : forall u n i, hoare (cnt u n) (begin_iteration E i u) (fun _ => cnt u n).
Proof.
  intros u n i s H.
  assert (G : forall s2 new, trace s2 = new ++ trace s -> Forall calm new -> o_params (s_o s2) = o_params (s_o s) ->
    o_unchanged (s_o s2) = u -> cnt u n s2).
  { intros s2 new G1 G2 G3 G4. pose proof H as (_ & Hu & _).
    apply (cnt_stable u n (changed (set_o_unchanged u) s) s2 new); auto.
    - destruct H as ((H1 & H2 & H3) & H4 & H5 & H6). split; [split; [auto|split; auto]|auto].
    - unfold kept. simpl. congruence. }
  unfold begin_iteration, bind, upd, modify, the_oqnlp, get, ret, bind. simpl.
  destruct (add_u64 _ _ _) as [sd|]; simpl.
  - split; [eapply cnt_okay, (G _ [EvIteration i]); try reflexivity; repeat constructor|].
    intros x s' Hx. injection Hx as _ <-. apply (G _ [EvIteration i]); try reflexivity; repeat constructor.
  - split; [eapply cnt_okay, (G _ []); try reflexivity; repeat constructor|discriminate].
Qed.
Lemma c_count : forall u n, hoare (cnt u (S n)) (count_unchanged u) (fun v => cnt v n).
Proof.
  intros u n s ((H1 & H2 & H3) & H4 & H5 & H6).
  unfold count_unchanged, adjust_threshold, bind, the_oqnlp, get, ret, bind, upd, modify, emit. simpl. rewrite H6.
  destruct (wc <=? S u) eqn:Hc; simpl.
  - apply Nat.leb_le in Hc.
    match goal with |- okay ?s2 /\ _ => assert (G : cnt 0 n s2) end.
    { split; [split; [|split; [|exact H3]]|split; [unfold w in *; lia|split; [|exact H6]]].
      - apply (at_batches_app [_]); auto. intros [Hx|[]]; discriminate.
      - intros f x [Hx|Hx]; [discriminate|eauto].
      - unfold balanced, rejections, relaxations in *. simpl. unfold trace in *. simpl.
        assert (w = S u) by (unfold w in *; lia). nia. }
    split; [apply G|]. intros a s' Hx. injection Hx as <- <-. exact G.
  - apply Nat.leb_gt in Hc.
    assert (G : cnt (S u) n s).
    { split; [split; [auto|split; auto]|]. split; [unfold w in *; lia|]. split; [|exact H6]. unfold balanced in *. lia. }
    split; [apply G|]. intros a s' Hx. injection Hx as <- <-. exact G.
Qed.
Lemma c_reject : forall u n i p v o, hoare (cnt u n) (emit [EvDecide i p v o false]) (fun _ => cnt u (S n)).
Proof.
  intros u n i p v o s ((H1 & H2 & H3) & H4 & H5 & H6).
  assert (G : cnt u (S n) (snd (emit [EvDecide i p v o false] s))).
  { split; [split; [|split; [|exact H3]]|split; [auto|split; [|exact H6]]].
    - apply (at_batches_app [_]); auto. intros [Hx|[]]; discriminate.
    - intros f x [Hx|Hx]; [discriminate|eauto].
    - unfold balanced, rejections, relaxations in *. simpl. unfold trace in *. simpl. lia. }
  split; [apply G|]. intros a s' Hx. injection Hx as <- <-. exact G.
Qed.
Lemma c_batch : forall u, hoare (cnt u 0) (emit [EvBatch]) (fun _ => cnt u 0).
Proof.
  intros u s ((H1 & H2 & H3) & H4 & H5 & H6).
  assert (G : cnt u 0 (snd (emit [EvBatch] s))).
  { split; [split; [|split; [|exact H3]]|split; [auto|split; [|exact H6]]].
    - intros [|a l1] l2 Heq; simpl in Heq; [injection Heq as Ha|injection Heq as _ Hb; apply (H1 l1); exact Hb].
      subst l2. exists u. split; [exact H4|]. rewrite Nat.add_0_r in H5. exact H5.
    - intros f x [Hx|Hx]; [discriminate|eauto].
    - exact H5. }
  split; [apply G|]. intros a s' Hx. injection Hx as <- <-. exact G.
Qed.
Definition some_cnt (r : nat) : st -> Prop := cnt r 0.

Lemma c_one_seq : forall objs i p u, hoare (cnt u 0) (process_one_seq E objs i p u) (fun r => some_cnt (fst r)).
Proof.
  intros. unfold process_one_seq, some_cnt. eapply h_bind; [apply c_begin|intro]. cs.
  eapply h_bind with (Q := fun _ => cnt u 0). { unfold emit_eval. destruct objs; [apply c_ret|cc]. } intros _.
  cs. eapply h_bind with (Q := fun _ => cnt u 0). { destruct objs; [apply c_ret|cc]. } intros _.
  cs. cbv zeta.
  eapply h_bind with (Q := fun _ s => if should_start_local a2 p a1 then cnt u 0 s else cnt u 1 s).
  { destruct (should_start_local a2 p a1); [cc|apply c_reject]. } intros _.
  eapply h_bind with (Q := fun r => cnt (fst r) 0).
  - destruct (should_start_local a2 p a1).
    + do 7 cs. apply c_retv; auto.
    + eapply h_bind; [apply (c_count u 0)|intro v]. apply c_retv; auto.
  - intros [u' [|]]; simpl; [apply c_retv; auto|]. cs. eapply h_bind; [apply c_maybe_save|intro]. apply c_retv; auto.
Qed.
Lemma c_batch_seq : forall start res objs b u,
  hoare (cnt u 0) (process_batch_sequential E start res objs b u) some_cnt.
Proof.
  intros start res objs b; induction b as [|[i p] b IH]; intros u; simpl; [apply c_retv; auto|].
  destruct (res && (i <? start)); [apply IH|]. eapply h_bind; [apply c_one_seq|].
  intros [u' [|]]; [apply c_retv; auto|apply IH].
Qed.
Lemma c_quicks : forall l u, hoare (cnt u (List.length l)) (process_quicks E l u) some_cnt.
Proof.
  induction l as [|[[i p] v] l IH]; intros u; simpl; [apply c_retv; auto|].
  eapply h_bind with (Q := fun r => cnt r (List.length l)); [|intro; apply IH]. unfold process_quick.
  eapply h_bind; [apply c_begin|intro]. eapply h_bind; [apply c_count|intro u'].
  do 2 cs. eapply h_bind; [apply c_maybe_save|intro]. apply c_retv; auto.
Qed.
Lemma c_par_results : forall l u, hoare (cnt u 0) (process_par_results E l u) (fun _ => cnt u 0).
Proof.
  induction l as [|[[[i p] v] [x n]] l IH]; intros u; simpl; [apply c_ret|].
  eapply h_bind with (Q := fun _ => cnt u 0).
  - unfold process_par_result. eapply h_bind; [apply c_begin|intro]. do 7 cs.
    match goal with |- HoareP.hoare _ _ (if ?x then _ else _) _ => destruct x end; [apply c_ret|].
    eapply h_bind; [apply c_maybe_save|intro]. apply c_ret.
  - intros [|]; [apply c_ret|apply IH].
Qed.
Lemma c_singles : forall l u, hoare (cnt u 0) (process_singles E l u) (fun _ => cnt u 0).
Proof.
  induction l as [|[[i p] v] l IH]; intros u; simpl; [apply c_ret|].
  eapply h_bind with (Q := fun _ => cnt u 0).
  - unfold process_single. eapply h_bind; [apply c_begin|intro]. do 10 cs.
    match goal with |- HoareP.hoare _ _ (if ?x then _ else _) _ => destruct x end; [apply c_ret|].
    eapply h_bind; [apply c_maybe_save|intro]. apply c_ret.
  - intros [|]; [apply c_ret|apply IH].
Qed.
Lemma emit_app : forall a b s, emit (a ++ b) s = bind (emit a) (fun _ => emit b) s.
Proof. intros a b [o [d t tr]]. unfold emit, bind, modify. simpl. rewrite rev_app_distr, app_assoc. reflexivity. Qed.
Lemma c_decides : forall u o pass (l : list (nat * point * f64)) n,
  hoare (cnt u n) (emit (map (fun c => EvDecide (fst (fst c)) (snd (fst c)) (snd c) o (pass c)) l))
    (fun _ => cnt u (n + List.length (filter (fun c => negb (pass c)) l))).
Proof.
  intros u o pass. induction l as [|c l IH]; intro n; simpl.
  - rewrite Nat.add_0_r. cc.
  - intros s H. change (EvDecide ?a ?b ?c0 ?d ?e :: ?r) with ([EvDecide a b c0 d e] ++ r). rewrite emit_app.
    revert s H. change (hoare (cnt u n) (bind (emit [EvDecide (fst (fst c)) (snd (fst c)) (snd c) o (pass c)])
      (fun _ => emit (map (fun c => EvDecide (fst (fst c)) (snd (fst c)) (snd c) o (pass c)) l)))
      (fun _ => cnt u (n + List.length (if negb (pass c) then c :: filter (fun c => negb (pass c)) l else filter (fun c => negb (pass c)) l)))).
    destruct (pass c); simpl.
    + cs. apply IH.
    + eapply h_bind; [apply c_reject|intro]. rewrite Nat.add_succ_r, <- Nat.add_succ_l. apply IH.
Qed.
Lemma c_batch_par : forall start res objs b u,
  hoare (cnt u 0) (process_batch_parallel E start res objs b u) some_cnt.
Proof.
  intros. unfold process_batch_parallel. set (fb := if res then _ else _). clearbody fb.
  destruct (match fb with [] => true | _ => false end); [apply c_retv; auto|].
  eapply h_bind with (Q := fun _ => cnt u 0). { destruct objs; [apply c_ret|]. cc. } intros _.
  do 2 cs. eapply h_bind with (Q := fun _ => cnt u 0). { destruct objs; [apply c_ret|cc]. } intros _.
  cs. cbv zeta. rewrite partition_filter.
  eapply h_bind; [apply c_decides|intro; cbv beta; rewrite Nat.add_0_l].
  eapply h_bind; [apply c_quicks|intro u'; unfold some_cnt]. cs.
  eapply h_bind with (Q := fun _ => cnt u' 0); [|intro; apply c_retv; auto].
  destruct (_ && _); [|apply c_singles]. do 2 cs. apply c_par_results.
Qed.
Lemma c_loop : forall size start res objs l u,
  hoare (cnt u 0) (stage2_loop E size start res objs l u) (fun _ s => exists v, cnt v 0 s).
Proof.
  assert (R : forall u A (a : A), hoare (cnt u 0) (ret a) (fun _ s => exists v, cnt v 0 s)).
  { intros. apply c_retv; eauto. }
  intros size start res objs l; induction l as [|b l IH]; intros u; simpl; [apply R|].
  cs. eapply h_bind with (Q := fun _ => cnt u 0).
  { destruct (o_max_time a); [|apply c_ret]. do 2 cs. apply c_ret. }
  intros [|]; [apply R|]. eapply h_bind; [apply c_batch|intro].
  eapply h_bind with (Q := some_cnt). { destruct (1 <? size); [apply c_batch_par|apply c_batch_seq]. }
  intro u'. unfold some_cnt. do 2 cs.
  match goal with |- HoareP.hoare _ _ (if ?x then _ else _) _ => destruct x end; [apply R|apply IH].
Qed.
Lemma h_ex : forall A (m : OM A) (Q : A -> st -> Prop), (forall u, hoare (cnt u 0) m Q) ->
  hoare (fun s => exists v, cnt v 0 s) m Q.
Proof. intros A m Q H s (v & Hv). apply (H v); auto. Qed.
Definition done (s : st) : Prop := exists v, cnt v 0 s.
Lemma c_stage2 : forall res refs objs u, hoare (cnt u 0) (stage2_run E res refs objs u) (fun _ => done).
Proof.
  intros. unfold stage2_run.
  eapply h_bind with (Q := fun _ => cnt u 0).
  { apply c_calm; [unfold begin_stage2; em|apply k_begin_stage2; auto]. } intros _. cs.
  eapply h_bind with (Q := fun _ => cnt u 0).
  { destruct res; [apply c_ret|]. do 2 cs. apply c_ret. }
  intro rs. cbv zeta. eapply h_bind with (Q := fun _ => done).
  { destruct (_ =? 0); [apply h_panic; intro; apply cnt_okay|apply c_loop]. }
  intros _. apply h_ex. intro v. eapply h_bind; [apply c_final_save|intro]. unfold final_set.
  eapply h_post; [cc|intros x s H; exists v; exact H].
Qed.
Lemma c_stage1 : forall u n, hoare (cnt u n) (stage1_run E) (fun _ => cnt u n).
Proof. intros. apply c_calm; unfold stage1_run, end_stage1, stage1_enter.
  - em; try parts; try side.
  - kp; try parts. 
Qed.
End Wait.

Lemma wait_run : forall E s r s' new, run E s = (r, s') -> recorded s s' new ->
  o_unchanged (s_o s) < cycle (s_o s) ->
  checkpoints_hold (fun cp => cp_unchanged cp < Nat.max 1 (p_wait_cycle (cp_params cp))) s ->
  exists u0, initial_counter s u0 /\ u0 < cycle (s_o s') /\
    (forall l1 l2, new = l1 ++ EvBatch :: l2 -> exists u, u < cycle (s_o s') /\
       u0 + rejections l2 = relaxations l2 * cycle (s_o s') + u) /\
    (forall set, r = Ok set -> exists u, u < cycle (s_o s') /\
       u0 + rejections new = relaxations new * cycle (s_o s') + u) /\
    (forall f cp, In (EvSave f cp) new -> cp_unchanged cp < cycle (s_o s')) /\
    o_unchanged (s_o s') < cycle (s_o s').
Proof.
  intros E s r s' new Hrun Hnew Hu Hcp.
  destruct (run_cases E s r s' new Hrun Hnew) as [(-> & Ho & Hr)|(b & s1 & Ht & Htr & Hb & Hc)].
  { exists 0. rewrite Ho. split; [left; auto|]. split; [unfold cycle; lia|]. split; [intros [|? ?] ? Hx; discriminate|].
    split; [intros set ->; destruct (Hr set); auto|]. split; [intros f cp []|exact Hu]. }
  set (wc := p_wait_cycle (o_params (s_o s1))).
  assert (Hcy : cycle (s_o s') = w wc).
  { unfold cycle, w, wc. rewrite (proj1 Hc). reflexivity. }
  rewrite Hcy. set (u0 := if b then o_unchanged (s_o s1) else 0).
  assert (Hi : initial_counter s u0 /\ u0 < w wc /\ o_unchanged (s_o s1) < w wc).
  { destruct b.
    - destruct (run_start_file E _ _ Ht) as (f & content & cp & F1 & F2 & F3).
      split; [right; exists f, content, cp; split; [exact F1|split; [exact F2|]]; unfold u0; rewrite F3; reflexivity|].
      specialize (Hcp f content cp F1 F2). unfold u0, wc. rewrite F3. simpl. auto.
    - pose proof (run_start_fresh E _ _ Ht) as F. split; [left; auto|]. unfold u0, wc, w. rewrite F. change (s_o (blank s)) with (s_o s). unfold cycle in Hu. split; lia. }
  destruct Hi as (I1 & I2 & I3).
  assert (C : cnt u0 wc u0 0 s1).
  { split; [|split; [exact I2|split; [|reflexivity]]].
    - split; [|split; [|exact I3]]; rewrite Htr; [intros [|? ?] ? Hx; discriminate|intros f cp []].
    - unfold balanced. rewrite Htr. simpl. unfold relaxations, rejections. simpl. lia. }
  assert (W : okay u0 wc (ends s' new) /\ (forall set, r = Ok set -> done u0 wc (ends s' new))).
  { destruct b; unfold run_rest in Hb.
    - unfold bind, the_oqnlp, get, ret, bind in Hb. simpl in Hb.
      destruct (c_stage2 E u0 wc true (match o_ref (s_o s1) with Some r => r | None => [] end) None (o_unchanged (s_o s1)) s1 C) as [W1 W2].
      rewrite Hb in W1, W2. split; [exact W1|]. intros set ->; eapply W2; reflexivity.
    - assert (W : hoare (okay u0 wc) (cnt u0 wc 0 0)
        (bind (stage1_run E) (fun r => match r with None => final_set | Some (refs, objs) => stage2_run E false refs (Some objs) 0 end))
        (fun _ => done u0 wc)).
      { eapply h_bind; [apply c_stage1|].
        intros [[refs objs]|]; [apply c_stage2|]. unfold final_set.
        eapply h_post; [apply c_calm; [em|kp]|intros x y H; eexists; exact H]. }
      destruct (W s1 C) as [W1 W2]; rewrite Hb in W1, W2. split; [exact W1|]. intros set ->; eapply W2; reflexivity. }
  destruct W as ((O1 & O2 & O3) & Hd).
  exists u0. split; [exact I1|]. split; [exact I2|]. split; [exact O1|]. split; [|split; [exact O2|exact O3]].
  intros set Hr. destruct (Hd set Hr) as (v & _ & V1 & V2 & _). exists v. split; [exact V1|]. rewrite Nat.add_0_r in V2. exact V2.
Qed.

(** the value a relaxation sets *)
Definition relax_ok (factor t0 : f64) (tr : list event) : Prop := forall l1 v l2, tr = l1 ++ EvRelax v :: l2 ->
  v = fadd (threshold_after t0 l2) (fmul factor (fadd f1 (fabs (threshold_after t0 l2)))).
Definition relax_inv (factor t0 : f64) (s : st) : Prop :=
  p_threshold_factor (o_params (s_o s)) = factor /\
  mf_threshold (o_merit (s_o s)) = threshold_after t0 (trace s) /\ relax_ok factor t0 (trace s).
Lemma relax_ok_cons : forall factor t0 e tr, relax_ok factor t0 tr -> (forall v, e <> EvRelax v) -> relax_ok factor t0 (e :: tr).
Proof. intros factor t0 e tr H He [|a l1] v l2 Heq; simpl in Heq; injection Heq as -> ->; [destruct (He v eq_refl)|]. eapply H; eauto. Qed.
Lemma relax_step : forall E factor t0 s s', step E s s' -> relax_inv factor t0 s -> relax_inv factor t0 s'.
Proof.
  intros E factor t0 s s' (K & objs & H) (G1 & G2 & G3).
  destruct H; try (split; [exact G1|split; [exact G2|exact G3]]);
    try (split; [exact G1|split; [exact G2|apply relax_ok_cons; [exact G3|discriminate]]]).
  - destruct e; try discriminate; (split; [exact G1|split; [exact G2|apply relax_ok_cons; [exact G3|discriminate]]]).
  - split; [exact G1|]. split; [reflexivity|]. apply relax_ok_cons; [exact G3|discriminate].
  - split; [exact G1|]. split; [reflexivity|]. intros [|a l1] x l2 Heq; simpl in Heq; injection Heq as Ha Hb.
    + rewrite <- Ha, <- Hb. unfold v, relaxed. rewrite G1, G2. reflexivity.
    + eapply G3. exact Hb.
  - destruct (pls_cases E sol s) as [[-> _]|[[_ [_ [-> _]]]|[_ [[_ [-> _]]|
        [cur [rst [_ [[_ [_ [ob ->]]]|[[_ [_ [_ [_ [ob ->]]]]]|[_ [_ [_ ->]]]]]]]]]]]];
      (split; [exact G1|split; [first [exact G2|reflexivity]|]]); repeat (apply relax_ok_cons; [|discriminate]); exact G3.
Qed.
Lemma relax_run : forall E s r s' new, run E s = (r, s') -> recorded s s' new ->
  exists t0 sols0, initial_filter s t0 sols0 /\ relax_ok (p_threshold_factor (o_params (s_o s'))) t0 new.
Proof.
  intros E s r s' new Hrun Hnew. destruct (run_steps E s r s' new Hrun Hnew) as (s1 & Hb & Ht & Hs).
  exists (mf_threshold (o_merit (s_o s1))), (df_solutions (o_df (s_o s1))). split.
  - destruct Hb as [->|(f & content & cp & G1 & G2 & ->)]; [left; auto|]. right. exists f, content, cp. auto.
  - assert (R : relax_inv (p_threshold_factor (o_params (s_o s1))) (mf_threshold (o_merit (s_o s1))) (ends s' new)).
    { refine (star_inv _ _ (relax_inv _ _) _ _ _ Hs _).
      - intros a b H1 H2. eapply relax_step; eauto.
      - split; [reflexivity|]. rewrite Ht. split; [reflexivity|]. intros [|? ?] ? ? Hx; discriminate. }
    destruct R as (R1 & _ & R3). simpl in R1. rewrite R1. exact R3.
Qed.
