(** * What a local search start was checked against (C29)

    Between the decision to search from a candidate and the start of that search no local
    solution is processed: the distance check still holds when the search starts. *)
From Coq Require Import ZArith NArith List Bool Arith Lia String Permutation.
From Verif Require Import F64 F64Order Base Builders Types Filters Runner Observer Env EnvSpec
  ScatterSearch Codec Checkpoint Oqnlp Spec SpecStage2 BasicP Wp Actions RunP SetP FrameP FilterP CountP EmitsP HoareP.
Import ListNotations.

Definition not_result (e : event) : Prop := match e with EvResult _ => False | _ => True end.
Definition not_search (e : event) : Prop := match e with EvSearch (Some _) _ => False | _ => True end.
(** candidate [i] was accepted and no solution was processed since *)
Definition pending (i : nat) (p : point) (tr : list event) : Prop :=
  exists obj o l3 l4, tr = l3 ++ EvDecide i p obj o true :: l4 /\ Forall not_result l3.
Definition good (tr : list event) : Prop := forall l1 l2 i p,
  tr = l1 ++ EvSearch (Some i) p :: l2 -> pending i p l2.

Lemma pending_cons : forall i p e tr, pending i p tr -> not_result e -> pending i p (e :: tr).
Proof. intros i p e tr (obj & o & l3 & l4 & -> & H) He. exists obj, o, (e :: l3), l4. split; auto. Qed.
Lemma pending_app : forall i p new tr, pending i p tr -> Forall not_result new -> pending i p (new ++ tr).
Proof.
  intros i p new tr H Hn. induction new; simpl; auto. apply pending_cons; [apply IHnew; eapply Forall_inv_tail; eauto|].
  eapply Forall_inv; eauto.
Qed.
Lemma good_cons : forall e tr, good tr -> (forall i p, e = EvSearch (Some i) p -> pending i p tr) -> good (e :: tr).
Proof.
  intros e tr H He [|a l1] l2 i p Heq; simpl in Heq; injection Heq as -> ->; [auto|]. eapply H; eauto.
Qed.
Lemma good_app : forall new tr, good tr -> Forall not_search new -> good (new ++ tr).
Proof.
  intros new tr H Hn. induction new as [|e new IH]; simpl; auto. apply good_cons; [apply IH; eapply Forall_inv_tail; eauto|].
  intros i p ->. destruct (Forall_inv Hn).
Qed.

Section Search.
Context (E : env) (par : bool).
Definition okay (s : st) : Prop := good (trace s).
Definition fine (s : st) : Prop := good (trace s) /\ o_parallel (s_o s) = par.
Definition waiting (cs : list (nat * point * f64)) (s : st) : Prop :=
  fine s /\ forall c, In c cs -> pending (fst (fst c)) (snd (fst c)) (trace s).
Definition calm (e : event) : Prop := not_search e /\ not_result e.
Notation hoare := (hoare okay).
Lemma fine_okay : forall s, fine s -> okay s. Proof. intros s H; apply H. Qed.
Lemma waiting_okay : forall cs s, waiting cs s -> okay s. Proof. intros cs s H; apply H. Qed.
Lemma waiting_fine : forall cs s, waiting cs s -> fine s. Proof. intros cs s H; apply H. Qed.
Lemma fine_stable : stable not_search o_parallel fine.
Proof.
  intros s s' new [H1 H2] Ht Hn Hf. split; [rewrite Ht; apply good_app; auto|congruence].
Qed.
Lemma waiting_stable : forall cs, stable calm o_parallel (waiting cs).
Proof.
  intros cs s s' new [H1 H2] Ht Hn Hf. split.
  - eapply fine_stable; eauto. eapply Forall_impl; [|exact Hn]. intros a Ha; apply Ha.
  - intros c Hc. rewrite Ht. apply pending_app; auto. eapply Forall_impl; [|exact Hn]. intros a Ha; apply Ha.
Qed.
Lemma f_calm : forall A (m : OM A), emits not_search m -> keeps o_parallel m -> hoare fine m (fun _ => fine).
Proof. intros. eapply h_stable; eauto using fine_stable, fine_okay. Qed.
Lemma w_calm : forall cs A (m : OM A), emits calm m -> keeps o_parallel m -> hoare (waiting cs) m (fun _ => waiting cs).
Proof. intros. eapply h_stable; eauto using waiting_stable, waiting_okay. Qed.

Ltac fc := apply f_calm; [parts|parts].
Ltac wc := apply w_calm; [parts|parts].
Ltac fs := eapply h_bind; [fc|intro].
Ltac ws := eapply h_bind; [wc|intro].

Lemma h_search : forall cs i p v, In (i, p, v) cs -> hoare (waiting cs) (emit [EvSearch (Some i) p]) (fun _ => waiting cs).
Proof.
  intros cs i p v Hin s [[H1 H2] H3].
  assert (G : waiting cs (snd (emit [EvSearch (Some i) p] s))).
  { split; [split; [|exact H2]|].
    - simpl. apply good_cons; auto. intros i' p' Hx. injection Hx as <- <-. apply (H3 (i, p, v) Hin).
    - intros c Hc. apply pending_cons; [apply H3; auto|exact I]. }
  split; [apply (waiting_okay cs); auto|]. intros a s' Hx. rewrite Hx in G. exact G.
Qed.
Lemma h_decide : forall i p v o go, hoare fine (emit [EvDecide i p v o go])
  (fun _ s => if go then waiting [(i, p, v)] s else fine s).
Proof.
  intros i p v o go s H.
  assert (G : fine (snd (emit [EvDecide i p v o go] s))).
  { destruct H as [H1 H2]. split; [|exact H2]. simpl. apply good_cons; auto. discriminate. }
  split; [apply G|]. intros a s' Hx. injection Hx as <- <-. destruct go; [|exact G]. split; [exact G|].
  intros c [<-|[]]. exists v, o, [], (trace s). split; [reflexivity|constructor].
Qed.
Lemma f_ret : forall A (a : A), hoare fine (ret a) (fun _ => fine).
Proof. intros. apply h_ret. auto using fine_okay. Qed.
Lemma w_end : forall cs A (m : OM A) Q, hoare fine m Q -> hoare (waiting cs) m Q.
Proof. intros. eapply h_weak; eauto using waiting_fine. Qed.

Lemma h_one_seq : forall objs i p u, hoare fine (process_one_seq E objs i p u) (fun _ => fine).
Proof.
  intros. unfold process_one_seq. do 2 fs.
  eapply h_bind with (Q := fun _ => fine). { unfold emit_eval. destruct objs; [apply f_ret|fc]. } intros _.
  fs. eapply h_bind with (Q := fun _ => fine). { destruct objs; [apply f_ret|fc]. } intros _.
  fs. cbv zeta. eapply h_bind; [apply h_decide|intro; cbv beta].
  eapply h_bind with (Q := fun _ => fine).
  - destruct (should_start_local a2 p a1).
    + ws. eapply h_bind; [apply (h_search [(i, p, a1)] i p a1); left; reflexivity|intro]. apply w_end. do 5 fs. apply f_ret.
    + fs. apply f_ret.
  - intros [u' [|]]; [apply f_ret|]. do 2 fs. apply f_ret.
Qed.
Lemma h_batch_seq : forall start res objs b u,
  hoare fine (process_batch_sequential E start res objs b u) (fun _ => fine).
Proof.
  intros start res objs b; induction b as [|[i p] b IH]; intros u; simpl; [apply f_ret|].
  destruct (res && (i <? start)); [apply IH|]. eapply h_bind; [apply h_one_seq|].
  intros [u' [|]]; [apply f_ret|apply IH].
Qed.
Lemma h_quicks : forall cs l u, hoare (waiting cs) (process_quicks E l u) (fun _ => waiting cs).
Proof.
  intros cs; induction l as [|[[i p] v] l IH]; intros u; simpl; [apply h_ret; eauto using waiting_okay|].
  eapply h_bind with (Q := fun _ => waiting cs); [|intro; apply IH]. unfold process_quick. do 5 ws. apply h_ret; eauto using waiting_okay.
Qed.
Lemma h_par_results : forall l u, hoare fine (process_par_results E l u) (fun _ => fine).
Proof.
  induction l as [|[[[i p] v] [x n]] l IH]; intros u; simpl; [apply f_ret|].
  eapply h_bind with (Q := fun _ => fine).
  - unfold process_par_result. do 8 fs. destruct a6; [apply f_ret|]. fs. apply f_ret.
  - intros [|]; [apply f_ret|apply IH].
Qed.
Lemma h_singles : forall l u, List.length l <= 1 -> hoare (waiting l) (process_singles E l u) (fun _ => fine).
Proof.
  intros [|[[i p] v] [|c l]] u Hl; simpl in *; [apply w_end, f_ret| |lia].
  eapply h_bind with (Q := fun _ => fine).
  - unfold process_single. do 3 ws. eapply h_bind; [eapply h_search; left; reflexivity|intro]. apply w_end.
    do 7 fs. destruct a9; [apply f_ret|]. fs. apply f_ret.
  - intros [|]; apply f_ret.
Qed.
Lemma e_emit_decides : forall (l : list (nat * point * f64)) o pass,
  hoare fine (emit (map (fun c => EvDecide (fst (fst c)) (snd (fst c)) (snd c) o (pass c)) l))
    (fun _ => waiting (filter pass l)).
Proof.
  intros l o pass s H.
  set (ev := fun c : nat * point * f64 => EvDecide (fst (fst c)) (snd (fst c)) (snd c) o (pass c)).
  assert (G : fine (snd (emit (map ev l) s))).
  { refine (fine_stable s _ (rev (map ev l)) H _ _ _); try reflexivity.
    apply Forall_rev, Forall_forall. intros e He. apply in_map_iff in He as (c & <- & _). exact I. }
  split; [apply G|]. intros a s' Hx. injection Hx as <- <-. split; [exact G|].
  intros c Hc. apply filter_In in Hc as [Hc Hp]. change (trace (snd (emit (map ev l) s))) with (rev (map ev l) ++ trace s).
  apply in_split in Hc as (l1 & l2 & ->). rewrite map_app, rev_app_distr. simpl. rewrite <- !app_assoc.
  exists (snd c), o, (rev (map ev l2)), (rev (map ev l1) ++ trace s). split.
  - simpl. unfold ev at 2. rewrite Hp. reflexivity.
  - apply Forall_rev, Forall_forall. intros e He. apply in_map_iff in He as (c' & <- & _). exact I.
Qed.
Lemma h_searches : forall cs l, incl l cs ->
  hoare (waiting cs) (emit (map (fun c => EvSearch (Some (fst (fst c))) (snd (fst c))) l)) (fun _ => waiting cs).
Proof.
  intros cs l Hi s H.
  set (ev := fun c : nat * point * f64 => EvSearch (Some (fst (fst c))) (snd (fst c))).
  assert (G : waiting cs (snd (emit (map ev l) s))).
  { change (snd (emit (map ev l) s)) with (mk_st (s_o s) (mk_world (w_disk (s_w s)) (w_tick (s_w s)) (rev (map ev l) ++ trace s))).
    revert Hi. induction l as [|c l IH] using rev_ind; intro Hi; [simpl; unfold trace; destruct s as [o [d t tr]]; exact H|].
    rewrite map_app, rev_app_distr. simpl.
    assert (Hl : incl l cs) by (intros x Hx; apply Hi; apply in_or_app; auto). specialize (IH Hl).
    destruct (h_search cs (fst (fst c)) (snd (fst c)) (snd c)) with
      (s := mk_st (s_o s) (mk_world (w_disk (s_w s)) (w_tick (s_w s)) (rev (map ev l) ++ trace s))) as [_ G]; auto.
    - destruct c as [[i p] v]. apply Hi. apply in_or_app; right; left; reflexivity.
    - apply (G tt). reflexivity. }
  split; [apply (waiting_okay cs); auto|]. intros a s' Hx. injection Hx as <- <-. exact G.
Qed.
Lemma h_batch_par : forall start res objs b u, par = true ->
  hoare fine (process_batch_parallel E start res objs b u) (fun _ => fine).
Proof.
  intros start res objs b u Hpar. unfold process_batch_parallel. set (fb := if res then _ else _). clearbody fb.
  destruct (match fb with [] => true | _ => false end); [apply f_ret|].
  eapply h_bind with (Q := fun _ => fine).
  { destruct objs; [apply f_ret|]. fc. } intros _.
  do 2 fs. eapply h_bind with (Q := fun _ => fine). { destruct objs; [apply f_ret|fc]. } intros _.
  fs. cbv zeta. rewrite partition_filter.
  eapply h_bind; [apply e_emit_decides|intro].
  eapply h_bind; [apply h_quicks|intro u'].
  eapply h_bind; [apply h_oqnlp; intros s; apply waiting_okay|intro o'].
  apply h_pre with (X := o_parallel o' = par). { intros s [[[_ H] _] ->]. exact H. } intro Ho. rewrite Ho, Hpar, andb_true_r.
  eapply h_weak with (P' := waiting _); [|intros s H; apply (proj1 H)|intros x s H; exact H].
  eapply h_bind with (Q := fun _ => fine); [|intro; apply f_ret].
  destruct (2 <=? _) eqn:Hl.
  - eapply h_bind; [apply h_searches, incl_refl|intro]. apply w_end. fs. apply h_par_results.
  - apply h_singles. apply Nat.leb_gt in Hl. lia.
Qed.
Lemma h_loop : forall size start res objs l u, (1 < size -> par = true) ->
  hoare fine (stage2_loop E size start res objs l u) (fun _ => fine).
Proof.
  intros size start res objs l u Hs; revert u; induction l as [|b l IH]; intros u; simpl; [apply f_ret|].
  fs. eapply h_bind with (Q := fun _ => fine).
  { destruct (o_max_time a); [|apply f_ret]. do 2 fs. apply f_ret. }
  intros [|]; [apply f_ret|]. fs.
  eapply h_bind with (Q := fun _ => fine).
  { destruct (1 <? size) eqn:Hx; [apply h_batch_par, Hs, Nat.ltb_lt; auto|apply h_batch_seq]. }
  intro u'. do 2 fs. match goal with |- HoareP.hoare _ _ (if ?x then _ else _) _ => destruct x end; [apply f_ret|apply IH].
Qed.
Lemma h_stage2 : forall res refs objs u, hoare fine (stage2_run E res refs objs u) (fun _ => fine).
Proof.
  intros. unfold stage2_run.
  eapply h_bind with (Q := fun _ => fine).
  { apply f_calm; [unfold begin_stage2; em|apply k_begin_stage2; auto]. } intros _.
  eapply h_bind; [apply h_oqnlp; intros s; apply fine_okay|intro o].
  apply h_pre with (X := o_parallel o = par). { intros s [[_ H] ->]. exact H. } intro Ho.
  eapply h_weak with (P' := fine); [|intros s H; apply (proj1 H)|intros x s H; exact H].
  eapply h_bind with (Q := fun _ => fine).
  { destruct res; [apply f_ret|]. do 2 fs. apply f_ret. }
  intro rs. cbv zeta. eapply h_bind with (Q := fun _ => fine).
  { destruct (_ =? 0); [apply h_panic, fine_okay|apply h_loop]. unfold batch_size. rewrite Ho.
    destruct par; simpl; auto; lia. }
  intro. fs. unfold final_set. fc.
Qed.
Lemma h_stage1 : hoare fine (stage1_run E) (fun _ => fine).
Proof. apply f_calm; [|]; unfold stage1_run, end_stage1, stage1_enter.
  - em; try parts; try side.
  - kp; parts.
Qed.
End Search.

Lemma good_run : forall E s r s' new, run E s = (r, s') -> recorded s s' new -> good new.
Proof.
  intros E s r s' new Hrun Hnew.
  pose proof (run_blank E s r s' new Hrun Hnew) as Hb. fold (ends s' new) in Hb.
  unfold run in Hb. unfold bind in Hb at 1.
  destruct (try_resume_from_checkpoint E (blank s)) as [[b|e|] s1] eqn:Ht.
  2,3: destruct (resume_fail E (blank s) _ _ Ht) as (d & _ & ->); [congruence|];
       injection Hb as _ _ _ _ <-; intros x1 x2 i p Hx; destruct x1; discriminate.
  apply resume_ok in Ht. destruct (start_begins _ _ _ _ Ht) as [_ Htr]. simpl in Htr.
  set (par := o_parallel (s_o s1)).
  assert (F : fine par s1). { split; [rewrite Htr; intros [|? ?] ? ? ? ?; discriminate|reflexivity]. }
  change new with (trace (ends s' new)). change (ends s' new) with (snd (r, ends s' new)). rewrite <- Hb. clear Hb.
  destruct b.
  - refine (proj1 (h_bind okay _ _ _ _ _ _ _ (h_oqnlp okay _ (fine_okay par)) _ s1 F)).
    intro o. eapply h_weak; [apply h_stage2|intros x H; apply (proj1 H)|intros x y H; exact H].
  - refine (proj1 (h_bind okay _ _ _ _ _ _ _ (h_stage1 E par) _ s1 F)).
    intros [[refs objs]|]; [apply h_stage2|]. unfold final_set. apply f_calm; [em|kp].
Qed.
