(** * What a crash costs when every checkpoint is kept (C103) *)
From Coq Require Import ZArith NArith List Bool Arith Lia String.
From Verif Require Import F64 Base Builders Types Filters Runner Observer Env EnvSpec ScatterSearch Codec Checkpoint
  Oqnlp Spec SpecStage1 SpecStage2 SpecObserver SpecSave SpecCheckpoint SpecTiming SpecCost SpecLoss CodecP CheckpointP
  Actions RunP CountP FrameP FilterP HoareP SaveP Stage2P SeqP SeqP2 SeqP3 SeqP4 TargetP ResumeP CostP FinishP BatchSaveP BatchLossP.
From Verif Require LossP.
Import ListNotations.
Local Open Scope monad_scope.

(** ** All files after a run *)
Section Files.
Context (E : env) (c : cp_config) (d0 : disk).
(** the content of a file according to the record *)
Fixpoint tops (l : list event) (g : fname) : option bytes :=
  match l with
  | [] => content d0 g
  | EvSave f cp :: l => if bytes_eqb f g then Some (enc_checkpoint cp) else tops l g
  | _ :: l => tops l g
  end.
Definition now (s : st) : fname -> option bytes := content (w_disk (s_w s)).
Definition as_told (s : st) (l : list event) : Prop := forall g, now s g = tops l g.
Definition named (e : event) : Prop := match e with EvSave f cp => f = file_name c (cp_iteration cp) | _ => True end.
Definition good (s : st) : Prop := o_cp (s_o s) = Some c /\ as_told s (trace s) /\ Forall named (trace s).
Definition torn : Prop := exists t n, e_io E t = IoShort n.
Definition okay (s : st) : Prop := torn \/ (as_told s (trace s) \/ exists f cp l, trace s = EvSave f cp :: l /\ as_told s l) /\ Forall named (trace s).
Notation hold m := (HoareP.hoare okay good m (fun _ => good)).
Lemma good_okay s : good s -> okay s. Proof. intros (_ & H & N). right. split; [left; exact H|exact N]. Qed.
Lemma d_bind A B (m : OM A) (k : A -> OM B) : hold m -> (forall a, hold (k a)) -> hold (bind m k).
Proof. intros H1 H2. eapply HoareP.h_bind; [exact H1|exact H2]. Qed.
Lemma d_ret A (a : A) : hold (ret a). Proof. apply HoareP.h_ret. auto using good_okay. Qed.
Lemma d_panic A : hold (@panic st oq_error A). Proof. apply HoareP.h_panic. apply good_okay. Qed.
Lemma d_fail A e : hold (@fail st oq_error A e). Proof. apply HoareP.h_fail. apply good_okay. Qed.
Lemma d_same A (m : OM A) : (forall s, good s -> good (snd (m s))) -> hold m.
Proof. intros H s Hs. split; [apply good_okay; auto|]. intros a s' Hx. specialize (H s Hs). rewrite Hx in H. exact H. Qed.
Lemma d_oqnlp : hold the_oqnlp. Proof. apply d_same. intros s H. exact H. Qed.
Lemma d_upd f : (forall o, o_cp (f o) = o_cp o) -> hold (upd f).
Proof. intros H. apply d_same. intros s [H1 H2]. split; [cbn; rewrite H; exact H1|exact H2]. Qed.
Lemma d_obs f : hold (obs f). Proof. apply d_upd. intros o. reflexivity. Qed.
Lemma d_ticked : hold tick. Proof. apply d_same. intros s H. exact H. Qed.
Lemma d_unwrap A (o : option A) : hold (unwrap o). Proof. destruct o; [apply d_ret|apply d_panic]. Qed.
Lemma d_result A (r : outcome oq_error A) : hold (of_result r). Proof. apply d_same. intros s H. exact H. Qed.
Lemma d_solver A (r : outcome ls_error A) : hold (of_solver r). Proof. destruct r; [apply d_ret|apply d_fail|apply d_panic]. Qed.
Lemma tops_app l t g : Forall (fun e => match e with EvSave _ _ => False | _ => True end) l -> tops (l ++ t) g = tops t g.
Proof. intros H. induction H as [|e l He _ IH]; [reflexivity|]. destruct e; try exact IH. destruct He. Qed.
Lemma d_emit l : Forall (fun e => match e with EvSave _ _ => False | _ => True end) l -> hold (emit l).
Proof.
  intros H. apply d_same. intros s (H1 & H2 & H3). split; [exact H1|]. split.
  - intro g. change (now s g = tops (rev l ++ trace s) g). rewrite tops_app; [exact (H2 g)|]. apply Forall_rev. exact H.
  - change (Forall named (rev l ++ trace s)). apply Forall_app. split; [|exact H3]. apply Forall_rev. eapply Forall_impl; [|exact H]. intros []; simpl; tauto.
Qed.
Lemma noted_map A (f : A -> event) l : (forall a, match f a with EvSave _ _ => False | _ => True end) ->
  Forall (fun e => match e with EvSave _ _ => False | _ => True end) (map f l).
Proof. intros H. rewrite Forall_map. apply Forall_forall. intros a _. exact (H a). Qed.
Ltac da1 :=
  match goal with
  | |- HoareP.hoare _ _ (bind _ _) _ => apply d_bind; [|intro]
  | |- HoareP.hoare _ _ (ret _) _ => apply d_ret
  | |- HoareP.hoare _ _ panic _ => apply d_panic
  | |- HoareP.hoare _ _ (fail _) _ => apply d_fail
  | |- HoareP.hoare _ _ the_oqnlp _ => apply d_oqnlp
  | |- HoareP.hoare _ _ (upd _) _ => apply d_upd; reflexivity
  | |- HoareP.hoare _ _ (obs _) _ => apply d_obs
  | |- HoareP.hoare _ _ (emit (map _ _)) _ => apply d_emit, noted_map; intro; exact I
  | |- HoareP.hoare _ _ (emit _) _ => apply d_emit; constructor; [exact I|first [apply Forall_nil | apply noted_map; intro; exact I]]
  | |- HoareP.hoare _ _ tick _ => apply d_ticked
  | |- HoareP.hoare _ _ (unwrap _) _ => apply d_unwrap
  | |- HoareP.hoare _ _ (of_result _) _ => apply d_result
  | |- HoareP.hoare _ _ (of_solver _) _ => apply d_solver
  | |- HoareP.hoare _ _ (let '(_, _) := ?x in _) _ => destruct x
  | |- HoareP.hoare _ _ (if ?b then _ else _) _ => destruct b
  | |- HoareP.hoare _ _ (match ?x with _ => _ end) _ => destruct x
  end.
Ltac da := repeat da1.
Lemma d_callback i : hold (callback E i).
Proof. unfold callback. da. Qed.
Lemma d_callback_at i : hold (callback_at E i).
Proof. unfold callback_at. da. apply d_callback. Qed.
Lemma save_effect cp i d r d' : Checkpoint.save_checkpoint E c cp i d = (r, d') ->
  (exists f, r = Ok f) /\ (forall g, content d' g = if bytes_eqb (file_name c i) g then Some (enc_checkpoint cp) else content d g) \/
  (forall f, r <> Ok f) /\ (torn \/ d_files d' = d_files d).
Proof.
  intro H. unfold save_checkpoint, fs_write, next_io, bind in H. destruct (e_io E (d_tick d)) as [| |n] eqn:Hio; cbn in H.
  - left. injection H as <- <-. split; [eauto|]. intro g. unfold content. cbn [d_files]. apply lookup_put.
  - right. injection H as <- <-. split; [discriminate|right; reflexivity].
  - right. injection H as <- <-. split; [discriminate|left; exists (d_tick d), n; exact Hio].
Qed.
Lemma d_save_now : hold (save_now E c).
Proof.
  unfold save_now. apply HoareP.h_bind with (Q := fun cp s => good s /\ cp_iteration cp = o_iteration (s_o s)).
  { intros s Hs. unfold create_checkpoint, bind, tick, the_oqnlp, get, ret. cbn [fst snd]. split; [apply good_okay; exact Hs|].
    intros a s' Hx. injection Hx as <- <-. split; [exact Hs|reflexivity]. }
  intro cp. apply HoareP.h_bind with (Q := fun o s => good s /\ cp_iteration cp = o_iteration o).
  { intros s [Hs Hit]. split; [apply good_okay; exact Hs|]. intros a s' Hx. injection Hx as <- <-. split; assumption. }
  intros o s [(H1 & H2 & H3) Hit]. set (s1 := fun d => mk_st (s_o s) (mk_world d (w_tick (s_w s)) (EvSave (file_name c (o_iteration o)) cp :: w_trace (s_w s)))).
  assert (Q : (emit [EvSave (file_name c (o_iteration o)) cp] ;;; on_disk (save_checkpoint E c cp (o_iteration o)) ;;; ret tt) s =
    let '(r, d) := save_checkpoint E c cp (o_iteration o) (w_disk (s_w s)) in
    (match r with Ok _ => Ok tt | Err e => Err (CheckpointError e) | Panic => Panic end, s1 d)).
  { unfold bind at 1. unfold emit, modify. cbv beta iota. unfold bind, on_disk. cbv beta. cbn [w_disk s_w].
    destruct (save_checkpoint E c cp (o_iteration o) (w_disk (s_w s))) as [[f|e|] d]; reflexivity. }
  rewrite Q. clear Q.
  destruct (save_checkpoint E c cp (o_iteration o) (w_disk (s_w s))) as [r d] eqn:Hs. apply save_effect in Hs as [[[f ->] L]|[Hr L]].
  - assert (G : good (s1 d)).
    { split; [exact H1|]. split; [|constructor; [cbn; rewrite Hit; reflexivity|exact H3]]. intro g. change (content d g = if bytes_eqb (file_name c (o_iteration o)) g then Some (enc_checkpoint cp) else tops (trace s) g).
      rewrite L. destruct (bytes_eqb _ _); [reflexivity|exact (H2 g)]. }
    cbn [fst snd]. split; [apply good_okay; exact G|]. intros a s' Hx. injection Hx as _ <-. exact G.
  - assert (G : okay (s1 d)).
    { destruct L as [L|L]; [left; exact L|right]. split; [right|constructor; [cbn; rewrite Hit; reflexivity|exact H3]]. exists (file_name c (o_iteration o)), cp, (trace s). split; [reflexivity|]. intro g. unfold now, content. cbn [w_disk s_w s1]. rewrite L. exact (H2 g). }
    destruct r as [f|e|]; [destruct (Hr f eq_refl)| |]; cbn [fst snd]; (split; [exact G|discriminate]).
Qed.
Lemma with_cp A (g : oqnlp -> OM A) :
  (forall o, o_cp o = Some c -> hold (g o)) -> hold (bind the_oqnlp g).
Proof. intros H s Hs. exact (H (s_o s) (proj1 Hs) s Hs). Qed.
Lemma d_maybe_save : hold (maybe_save_checkpoint E).
Proof.
  unfold maybe_save_checkpoint. apply with_cp. intros o ->. destruct (cc_save_frequency c); [apply d_panic|].
  destruct (_ =? 0); [apply d_save_now|apply d_ret].
Qed.
Lemma d_final_save : hold (maybe_save_final_checkpoint E).
Proof. unfold maybe_save_final_checkpoint. apply with_cp. intros o ->. apply d_save_now. Qed.
Lemma d_process x : hold (process_local_solution E x).
Proof. unfold process_local_solution, set_solutions, set_threshold, add_to_filter. da. Qed.
Lemma d_begin i u : hold (begin_iteration E i u).
Proof. unfold begin_iteration. da. Qed.
Lemma d_obs_iteration i u : hold (obs_iteration i u).
Proof. unfold obs_iteration. da. Qed.
Lemma d_obs_search a n : hold (obs_search a n).
Proof. unfold obs_search. da. Qed.
Lemma d_count u : hold (count_unchanged u).
Proof. unfold count_unchanged, adjust_threshold, set_threshold. da. Qed.
Lemma d_one objs i p u : hold (process_one_seq E objs i p u).
Proof.
  unfold process_one_seq, emit_eval, set_threshold. da;
    auto using d_begin, d_obs_iteration, d_process, d_obs_search, d_count, d_callback_at, d_maybe_save.
Qed.
Lemma d_seq start res objs b : forall u, hold (process_batch_sequential E start res objs b u).
Proof.
  induction b as [|[i p] b IH]; intros u; cbn [process_batch_sequential]; [apply d_ret|].
  destruct (res && (i <? start)); [apply IH|]. da; auto using d_one.
Qed.
Lemma d_quicks l : forall u, hold (process_quicks E l u).
Proof.
  induction l as [|[[i p] v] l IH]; intros u; cbn [process_quicks]; [apply d_ret|]. apply d_bind; [|intro; apply IH].
  unfold process_quick. da; auto using d_begin, d_obs_iteration, d_count, d_callback_at, d_maybe_save.
Qed.
Lemma d_par_results l : forall u, hold (process_par_results E l u).
Proof.
  induction l as [|[[[i p] v] [x n]] l IH]; intros u; cbn [process_par_results]; [apply d_ret|]. apply d_bind; [|intro; destruct a; [apply d_ret|apply IH]].
  unfold process_par_result, set_threshold. da; auto using d_begin, d_obs_iteration, d_process, d_obs_search, d_callback_at, d_maybe_save.
Qed.
Lemma d_singles l : forall u, hold (process_singles E l u).
Proof.
  induction l as [|[[i p] v] l IH]; intros u; cbn [process_singles]; [apply d_ret|]. apply d_bind; [|intro; destruct a; [apply d_ret|apply IH]].
  unfold process_single, set_threshold. da; auto using d_begin, d_obs_iteration, d_process, d_obs_search, d_callback, d_maybe_save.
Qed.
Lemma d_par start res objs b u : hold (process_batch_parallel E start res objs b u).
Proof.
  unfold process_batch_parallel. da; auto using d_quicks, d_par_results, d_singles.
Qed.
Lemma d_loop size start res objs bs : forall u, hold (stage2_loop E size start res objs bs u).
Proof.
  induction bs as [|b bs IH]; intros u; cbn [stage2_loop]; [apply d_ret|]. da; auto using d_par, d_seq.
Qed.
Lemma d_stage2 res refs objs u : hold (stage2_run E res refs objs u).
Proof.
  unfold stage2_run, begin_stage2, final_set. da; auto using d_loop, d_final_save.
Qed.
Lemma d_stage1 : hold (stage1_run E).
Proof.
  unfold stage1_run, end_stage1, stage1_enter, set_threshold. da; auto using d_callback, d_process.
Qed.
Lemma d_rest b : hold (run_rest E b).
Proof.
  unfold run_rest, final_set. destruct b; da; auto using d_stage1, d_stage2.
Qed.
Lemma files_after s r s' new : run E s = (r, s') -> recorded s s' new -> new <> [] -> o_cp (s_o s') = Some c -> d0 = w_disk (s_w s) ->
  (torn \/ (as_told s' new \/ exists f cp l, new = EvSave f cp :: l /\ as_told s' l) /\ Forall named new) /\
  (forall set, r = Ok set -> as_told s' new /\ Forall named new).
Proof.
  intros Hrun Hnew Hne Hc Hold. destruct (HoareP.run_cases E s r s' new Hrun Hnew) as [(-> & _)|(b & s1 & Hst & Htr & Hr & Hcfg)]; [congruence|].
  assert (G : good s1).
  { split; [destruct Hcfg as (_ & _ & _ & _ & _ & _ & _ & _ & <- & _); exact Hc|]. split; [|rewrite Htr; constructor]. intro g. unfold now, content. rewrite Htr. cbn [tops]. rewrite Hold.
    destruct Hst as [d Hd _|c' d cp _ _ _ _ Hd]; cbn; rewrite Hd; reflexivity. }
  destruct (d_rest b s1 G) as [O O']. rewrite Hr in O, O'. split; [exact O|]. intros set ->. exact (proj2 (O' set _ eq_refl)).
Qed.
End Files.

(** ** The next process *)
Lemma tops_cases d0 l g : (exists a cp b, l = a ++ EvSave g cp :: b /\ tops d0 l g = Some (enc_checkpoint cp)) \/ tops d0 l g = content d0 g.
Proof.
  induction l as [|e l IH]; [right; reflexivity|]. assert (H : (exists a cp b, e :: l = a ++ EvSave g cp :: b /\ tops d0 l g = Some (enc_checkpoint cp)) \/ tops d0 l g = content d0 g).
  { destruct IH as [(a & cp & b & -> & H)|H]; [left; exists (e :: a), cp, b; auto|right; exact H]. }
  destruct e; try exact H. cbn [tops]. destruct (bytes_eqb f g) eqn:B; [|exact H]. apply bytes_eqb_eq in B. subst. left. eexists [], _, l. split; reflexivity.
Qed.
Lemma tops_kept d0 l g : present d0 g -> tops d0 l g <> None.
Proof. intro H. induction l as [|e l IH]; [exact H|]. destruct e; try exact IH. cbn [tops]. destruct (bytes_eqb f g); [discriminate|exact IH]. Qed.
Lemma tops_saved d0 l f cp : In (EvSave f cp) l -> tops d0 l f <> None.
Proof.
  induction l as [|e l IH]; [intros []|]. intros [->|H]; [cbn [tops]; rewrite bytes_eqb_refl; discriminate|].
  destruct e; try exact (IH H). cbn [tops]. destruct (bytes_eqb f0 f); [discriminate|exact (IH H)].
Qed.
Lemma next_resumes_all E c o s1 : o_cp o = Some c -> cc_auto_resume c = true -> cc_keep_all c = true -> io_works E -> lists_all E -> string_utf8 (cc_name c) ->
  (exists f i, present (w_disk (s_w s1)) f /\ stands_for (cc_name c) f i /\ (0 < i)%N) ->
  exists g, latest_is c (w_disk (s_w s1)) g /\
    forall cp, checkpoint_ok cp -> content (w_disk (s_w s1)) g = Some (enc_checkpoint cp) -> resumes_from E (next_process s1 o) cp.
Proof.
  intros Hc Ha Hk Hio Hl Hu Hex. set (d := w_disk (s_w s1)) in *.
  assert (X : fst (checkpoint_exists E c d) = Ok true) by (destruct (exists_spec E c d Hio Hl Hu) as [[_ X] _]; rewrite Hk in X; exact (X Hex)).
  assert (D : d_files (snd (checkpoint_exists E c d)) = d_files d).
  { unfold checkpoint_exists. rewrite Hk. destruct (find_latest_spec E c d Hio Hl Hu) as [(f & -> & _)|(-> & _)]; reflexivity. }
  pose proof (load_spec E c (snd (checkpoint_exists E c d)) Hio Hl Hu) as S. rewrite Hk in S. unfold latest_is, present, content in S. rewrite D in S.
  destruct S as [(f & Hf & S)|(Hno & _)].
  - exists f. split; [exact Hf|]. intros cp Hok Hcp. exists c. split; [exact Hc|]. split; [exact Ha|]. split; [exact X|].
    change (w_disk (s_w (next_process s1 o))) with d. rewrite S. unfold content in Hcp. rewrite Hcp. unfold decoded. rewrite (decode_encode cp Hok). reflexivity.
  - exfalso. destruct Hex as (f & i & P & St & Z). rewrite (Hno f i P St) in Z. discriminate Z.
Qed.
Lemma resumes_same E s cp cp' : resumes_from E s cp -> resumes_from E s cp' -> cp = cp'.
Proof. intros (c & H1 & _ & _ & H2) (c' & H1' & _ & _ & H2'). rewrite H1 in H1'. injection H1' as <-. rewrite H2 in H2'. injection H2' as <-. reflexivity. Qed.
Theorem c103_keep_all : forall E E2 s r s1 new j c c2 o2, no_torn_write E -> io_works E2 -> lists_all E2 ->
  run E s = (r, s1) -> recorded s s1 new ->
  o_cp (s_o s1) = Some c -> cc_keep_all c = true -> string_utf8 (cc_name c) -> 0 < cc_save_frequency c -> directory_in_order E s c ->
  (forall f cp, In (EvSave f cp) new -> checkpoint_ok cp) ->
  In (EvIteration j) new -> max_batch (s_o s1) <= j -> cc_save_frequency c + 2 * (max_batch (s_o s1) - 1) < j ->
  o_cp o2 = Some c2 -> cc_name c2 = cc_name c -> cc_keep_all c2 = true -> cc_auto_resume c2 = true ->
  exists cp, resumes_from E2 (next_process s1 o2) cp /\ j <= cp_iteration cp + cc_save_frequency c + 2 * (max_batch (s_o s1) - 1) /\
    Nat.min (p_iterations (cp_params cp)) (List.length (cp_reference_set cp)) = work_bound s1.
Proof.
  intros E E2 s r s1 new j c c2 o2 Htorn Hio Hl Hrun Hnew Hc Hk Hu Hf Hdir Hfit Hin Hjm Hj Hc2 Hnm Hk2 Ha2.
  assert (Hne : new <> []) by (intros ->; destruct Hin).
  destruct (run_near E s r s1 new c Hrun Hnew Hc Hf) as (fresh & start & Hnr & Hfr).
  set (n := Nat.max 1 (max_batch (s_o s1))) in *.
  assert (Hn : n - 1 = max_batch (s_o s1) - 1 /\ n <= j) by (unfold n; lia). destruct Hn as [Hn1 Hn2].
  assert (Name : forall cp, checkpoint_ok cp -> stands_for (cc_name c) (file_name c (cp_iteration cp)) (N.of_nat (cp_iteration cp))) by (intros cp0 X; apply generated; [exact Hk|exact (proj1 (proj2 X))]).
  set (d0 := w_disk (s_w s)) in *. set (d1 := w_disk (s_w s1)).
  destruct (files_after E c d0 s r s1 new Hrun Hnew Hne Hc eq_refl) as [[(t0 & n0 & X)|[Hfa Hnamed]] _]; [destruct (Htorn _ _ X)|].
  assert (Hdisk : exists x t, new = x ++ t /\ (forall g, content d1 g = tops d0 t g) /\ near c start n fresh t /\ In j (begun t)).
  { assert (Hb : In j (begun new)) by (apply iter_begun; exact Hin).
    destruct Hfa as [G|(f & cp & l & Hl' & G)].
    - exists [], new. split; [reflexivity|]. split; [exact G|]. split; [destruct new; apply Hnr|exact Hb].
    - exists [EvSave f cp], l. split; [exact Hl'|]. split; [exact G|]. rewrite Hl' in Hnr, Hb. split; [destruct l; apply Hnr|exact Hb]. }
  destruct Hdisk as (x & t & Hx & Hnow & Hnear & Hjt). specialize (Hnear j Hjt).
  assert (St : forall f cp, In (EvSave f cp) t -> stands_for (cc_name c) f (N.of_nat (cp_iteration cp))).
  { intros f cp H. assert (H' : In (EvSave f cp) new) by (rewrite Hx; apply in_or_app; right; exact H).
    rewrite Forall_forall in Hnamed. rewrite (Hnamed _ H'). apply generated; [exact Hk|]. exact (proj1 (proj2 (Hfit _ _ H'))). }
  assert (Low : exists f m, present d1 f /\ stands_for (cc_name c) f (N.of_nat m) /\ j <= m + cc_save_frequency c + 2 * (n - 1)).
  { destruct (newest_save t) as [cp|] eqn:Ht.
    - destruct (newest_in _ _ Ht) as (a & f & b & Hab). assert (Hi : In (EvSave f cp) t) by (rewrite Hab; apply in_or_app; right; left; reflexivity).
      exists f, (cp_iteration cp). split; [|split; [apply St; exact Hi|exact Hnear]]. unfold present. rewrite Hnow. exact (tops_saved d0 t f cp Hi).
    - destruct fresh; [lia|]. destruct (Hfr eq_refl) as (cp & Hres & ->).
      destruct Hdir as [[Hno _]|(cp0 & R0 & Ok0 & C0 & M0)]; [destruct (Hno _ Hres)|]. pose proof (Name _ Ok0) as S0. set (f0 := file_name c (cp_iteration cp0)) in *. rewrite (resumes_same _ _ _ _ Hres R0) in *.
      exists f0, (cp_iteration cp0). split; [|split; [exact S0|lia]]. unfold present. rewrite Hnow. apply tops_kept. unfold present. fold d0 in C0. rewrite C0. discriminate. }
  destruct Low as (f & m & Pf & Sf & Hm).
  destruct (next_resumes_all E2 c2 o2 s1 Hc2 Ha2 Hk2 Hio Hl) as (g & (k & Pg & Sg & Zg & Mg) & Hg); [rewrite Hnm; exact Hu|exists f, (N.of_nat m); rewrite Hnm; repeat split; [exact Pf|exact Sf|lia]|].
  fold d1 in Pg, Mg, Hg. rewrite Hnm in Sg, Mg. pose proof (Mg f _ Pf Sf) as Hmk.
  destruct (tops_cases d0 t g) as [(a & cp & b & Hab & Hcp)|Hold].
  - assert (Hi : In (EvSave g cp) t) by (rewrite Hab; apply in_or_app; right; left; reflexivity).
    assert (Hi' : In (EvSave g cp) new) by (rewrite Hx; apply in_or_app; right; exact Hi).
    pose proof (stands_fun _ _ _ _ Hu Sg (St _ _ Hi)) as ->. exists cp. split; [apply Hg; [exact (Hfit _ _ Hi')|rewrite Hnow; exact Hcp]|].
    split; [lia|]. rewrite Hab, app_assoc in Hx. exact (LossP.saved_bound E s r s1 new (x ++ a) g cp b Hrun Hnew Hx).
  - assert (Pd : present d0 g) by (unfold present in *; rewrite Hnow, Hold in Pg; exact Pg).
    destruct Hdir as [[_ Hno]|(cp0 & R0 & Ok0 & C0 & M0)].
    { rewrite (Hno g k Pd Sg) in Zg. discriminate Zg. }
    pose proof (Name _ Ok0) as S0. set (f0 := file_name c (cp_iteration cp0)) in *.
    assert (P0 : present d1 f0) by (unfold present; rewrite Hnow; apply tops_kept; unfold present; fold d0 in C0; rewrite C0; discriminate).
    pose proof (Mg _ _ P0 S0) as Hk0. destruct (M0 g k Pd Sg) as [->|Hlt]; [|lia].
    pose proof (stands_fun _ _ _ _ Hu Sg S0) as ->. exists cp0. split; [apply Hg; [exact Ok0|rewrite Hnow, Hold; exact C0]|].
    split; [lia|]. exact (LossP.resumed_bound E s r s1 new cp0 Hrun Hnew Hne R0).
Qed.
Theorem c103_keep_all_cost : forall E E2 s r s1 new j c c2 o2 r2 s2 new2, env_ok E2 -> no_torn_write E -> io_works E2 -> lists_all E2 ->
  run E s = (r, s1) -> recorded s s1 new ->
  o_cp (s_o s1) = Some c -> cc_keep_all c = true -> string_utf8 (cc_name c) -> 0 < cc_save_frequency c -> directory_in_order E s c ->
  (forall f cp, In (EvSave f cp) new -> checkpoint_ok cp) ->
  In (EvIteration j) new -> max_batch (s_o s1) <= j -> cc_save_frequency c + 2 * (max_batch (s_o s1) - 1) < j ->
  o_cp o2 = Some c2 -> cc_name c2 = cc_name c -> cc_keep_all c2 = true -> cc_auto_resume c2 = true ->
  run E2 (next_process s1 o2) = (r2, s2) -> recorded (next_process s1 o2) s2 new2 ->
  List.length (objective_calls new2) <= work_bound s1 - j + cc_save_frequency c + 2 * (max_batch (s_o s1) - 1) /\
  List.length (search_starts new2) <= work_bound s1 - j + cc_save_frequency c + 2 * (max_batch (s_o s1) - 1).
Proof.
  intros E E2 s r s1 new j c c2 o2 r2 s2 new2 Hok2 Htorn Hio Hl Hrun Hnew Hc Hk Hu Hf Hdir Hfit Hin Hjm Hj Hc2 Hnm Hk2 Ha2 Hrun2 Hnew2.
  destruct (c103_keep_all E E2 s r s1 new j c c2 o2) as (cp & Hres & Hle & Hw); try assumption.
  destruct (c98_resumed E2 _ _ _ _ cp Hok2 Hrun2 Hnew2 Hres) as [B1 B2]. rewrite Hw in B1, B2. lia.
Qed.

(** ** After a run that has finished (C100) *)
(** the next process resumes, from no earlier an iteration than the last one of the run *)
Lemma kept_next E E2 s set s1 new c c2 o2 : io_works E2 -> lists_all E2 ->
  run E s = (Ok set, s1) -> recorded s s1 new -> (exists f cp, In (EvSave f cp) new) ->
  (forall f cp, In (EvSave f cp) new -> checkpoint_ok cp) ->
  o_cp (s_o s1) = Some c -> cc_keep_all c = true -> string_utf8 (cc_name c) -> directory_in_order E s c -> 0 < o_iteration (s_o s1) ->
  o_cp o2 = Some c2 -> cc_name c2 = cc_name c -> cc_keep_all c2 = true -> cc_auto_resume c2 = true ->
  exists cp, resumes_from E2 (next_process s1 o2) cp /\ o_iteration (s_o s1) <= cp_iteration cp /\
    content (w_disk (s_w s1)) (file_name c (cp_iteration cp)) = Some (enc_checkpoint cp) /\ checkpoint_ok cp /\
    (resumes_from E s cp \/ exists f, In (EvSave f cp) new) /\
    Nat.min (p_iterations (cp_params cp)) (List.length (cp_reference_set cp)) = work_bound s1.
Proof.
  intros Hio Hl Hrun Hnew (fx & cpx & Hinx) Hfit Hc Hk Hu Hdir Hit Hc2 Hnm Hk2 Ha2.
  assert (Hne : new <> []) by (intros ->; destruct Hinx).
  assert (Name : forall cp, checkpoint_ok cp -> stands_for (cc_name c) (file_name c (cp_iteration cp)) (N.of_nat (cp_iteration cp))) by (intros cp0 X; apply generated; [exact Hk|exact (proj1 (proj2 X))]).
  set (d0 := w_disk (s_w s)) in *. set (d1 := w_disk (s_w s1)).
  destruct (proj2 (files_after E c d0 s _ s1 new Hrun Hnew Hne Hc eq_refl) set eq_refl) as [Hnow Hnamed]. change (forall g, content d1 g = tops d0 new g) in Hnow.
  destruct (c100_saved E s set s1 new c Hrun Hnew Hc) as [H|(cpf & l & Heq & Hag & _ & Lf)]; [exfalso; eapply H; exact Hinx|].
  assert (Hif : In (EvSave (file_name c (cp_iteration cpf)) cpf) new) by (rewrite Heq; left; reflexivity).
  assert (Hitf : o_iteration (s_o s1) = cp_iteration cpf) by (destruct Hag as (_ & A & _); exact A).
  pose proof (Name _ (Hfit _ _ Hif)) as Sf. assert (Pf : present d1 (file_name c (cp_iteration cpf))) by (unfold present, content, d1; rewrite Lf; discriminate).
  destruct (next_resumes_all E2 c2 o2 s1 Hc2 Ha2 Hk2 Hio Hl) as (g & (k & Pg & Sg & Zg & Mg) & Hg); [rewrite Hnm; exact Hu|exists (file_name c (cp_iteration cpf)), (N.of_nat (cp_iteration cpf)); rewrite Hnm; repeat split; [exact Pf|exact Sf|lia]|].
  fold d1 in Pg, Mg, Hg. rewrite Hnm in Sg, Mg. pose proof (Mg _ _ Pf Sf) as Hmk.
  destruct (tops_cases d0 new g) as [(a & cp & b & Hab & Hcp)|Hold].
  - assert (Hi : In (EvSave g cp) new) by (rewrite Hab; apply in_or_app; right; left; reflexivity).
    assert (Hgn : g = file_name c (cp_iteration cp)) by (rewrite Forall_forall in Hnamed; exact (Hnamed _ Hi)).
    pose proof (Name _ (Hfit _ _ Hi)) as Sc. rewrite <- Hgn in Sc. pose proof (stands_fun _ _ _ _ Hu Sg Sc) as ->. rewrite <- Hnow in Hcp.
    exists cp. split; [exact (Hg cp (Hfit _ _ Hi) Hcp)|]. split; [lia|]. split; [rewrite <- Hgn; exact Hcp|]. split; [exact (Hfit _ _ Hi)|]. split; [right; eauto|].
    exact (LossP.saved_bound E s _ s1 new a g cp b Hrun Hnew Hab).
  - assert (Pd : present d0 g) by (unfold present in *; rewrite Hnow, Hold in Pg; exact Pg).
    destruct Hdir as [[_ Hno]|(cp0 & R0 & Ok0 & C0 & M0)].
    { rewrite (Hno g k Pd Sg) in Zg. discriminate Zg. }
    pose proof (Name _ Ok0) as S0. set (f0 := file_name c (cp_iteration cp0)) in *.
    assert (P0 : present d1 f0) by (unfold present; rewrite Hnow; apply tops_kept; unfold present; fold d0 in C0; rewrite C0; discriminate).
    pose proof (Mg _ _ P0 S0) as Hk0. destruct (M0 g k Pd Sg) as [->|Hlt]; [|lia].
    pose proof (stands_fun _ _ _ _ Hu Sg S0) as ->. assert (C1 : content d1 f0 = Some (enc_checkpoint cp0)) by (rewrite Hnow, Hold; exact C0).
    exists cp0. split; [exact (Hg cp0 Ok0 C1)|]. split; [lia|]. split; [exact C1|]. split; [exact Ok0|]. split; [left; exact R0|].
    exact (LossP.resumed_bound E s _ s1 new cp0 Hrun Hnew Hne R0).
Qed.
Theorem c100_kept : forall E E2 s set s1 new c c2 o2 r2 s2 new2, env_ok E2 -> io_works E2 -> lists_all E2 ->
  run E s = (Ok set, s1) -> recorded s s1 new -> (exists f cp, In (EvSave f cp) new) ->
  (forall f cp, In (EvSave f cp) new -> checkpoint_ok cp) ->
  o_cp (s_o s1) = Some c -> cc_keep_all c = true -> string_utf8 (cc_name c) -> directory_in_order E s c -> 0 < o_iteration (s_o s1) ->
  o_cp o2 = Some c2 -> cc_name c2 = cc_name c -> cc_keep_all c2 = true -> cc_auto_resume c2 = true ->
  run E2 (next_process s1 o2) = (r2, s2) -> recorded (next_process s1 o2) s2 new2 ->
  List.length (objective_calls new2) <= work_bound s1 - o_iteration (s_o s1) /\
  List.length (search_starts new2) <= work_bound s1 - o_iteration (s_o s1).
Proof.
  intros E E2 s set s1 new c c2 o2 r2 s2 new2 Hok2 Hio Hl Hrun Hnew Hex Hfit Hc Hk Hu Hdir Hit Hc2 Hnm Hk2 Ha2 Hrun2 Hnew2.
  destruct (kept_next E E2 s set s1 new c c2 o2 Hio Hl Hrun Hnew Hex Hfit Hc Hk Hu Hdir Hit Hc2 Hnm Hk2 Ha2) as (cp & Hres & Hle & _ & _ & _ & Hw).
  destruct (c98_resumed E2 _ _ _ _ cp Hok2 Hrun2 Hnew2 Hres) as [B1 B2]. rewrite Hw in B1, B2. lia.
Qed.
Lemma in_first k (l : list nat) i : In i (firstn k l) -> In i l.
Proof. intro H. rewrite <- (firstn_skipn k l). apply in_or_app. left. exact H. Qed.
(** in sequential mode the last iteration is the greatest *)
Lemma seq_last E s set s1 new c : env_ok E -> callbacks_keep_settings E -> run E s = (Ok set, s1) -> recorded s s1 new -> o_parallel (s_o s1) = false ->
  o_cp (s_o s1) = Some c -> forall f0 cpf l, new = EvSave f0 cpf :: l ->
  (forall cp, resumes_from E s cp -> cp_iteration cp <= cp_iteration cpf) /\ (forall f cp, In (EvSave f cp) new -> cp_iteration cp <= cp_iteration cpf).
Proof.
  intros Hok Hcb Hrun Hnew Hpar Hc f0 cpf l Heq.
  assert (Top : forall k start n it0 i, In i (rev (firstn k (seq start n))) -> i <= hd it0 (rev (firstn k (seq start n)))).
  { intros k start n it0 i. assert (Hf : firstn k (seq start n) = seq start (Nat.min k n)).
    { clear. revert start n. induction k as [|k IH]; intros start [|n]; simpl; try reflexivity. rewrite IH. reflexivity. }
    rewrite Hf. destruct (Nat.min k n) as [|m]; [intros []|]. rewrite seq_S, rev_app_distr. simpl. intros [<-|Hi]; [lia|]. apply in_rev in Hi. apply in_seq in Hi. lia. }
  assert (Fin : forall start it0 pre lr, stage2_record E (s_o s1) it0 (seq start (work_bound s1 - start)) s1 true lr -> Forall SeqP3.early pre -> new = lr ++ pre ->
    (forall f cp, In (EvSave f cp) new -> cp_iteration cp <= cp_iteration cpf) /\ (start = it0 -> start <= cp_iteration cpf)).
  { intros start it0 pre lr Hs Hp Hn. inversion Hs as [k e lx fin Hsh He1 He2 Hk Hfr Hb Hl|]; subst lr.
    rewrite Hc in Hfr. destruct Hfr as (cp' & -> & Hi). rewrite Heq in Hn. injection Hn as _ <- Hn. split.
    - intros f cp Hin. rewrite Heq in Hin. destruct Hin as [X|Hin]; [injection X as _ ->; lia|]. rewrite Hn in Hin. apply in_app_or in Hin as [Hin|Hin].
      2: { exfalso. rewrite Forall_forall in Hp. pose proof (Hp _ Hin) as X. cbv in X. tauto. }
      rewrite Hi. apply Top. assert (Hx : In (cp_iteration cp) (indices f_saved lx)) by (apply in_indices; exists (EvSave f cp); split; [exact Hin|reflexivity]).
      destruct e; [rewrite (proj2 (shape_whole _ _ _ _ _ Hsh eq_refl)) in Hx|rewrite (proj2 (shape_hit _ _ _ _ Hsh)) in Hx|congruence]; apply filter_In in Hx as [Hx _]; [exact Hx|].
      destruct (rev (firstn k (seq start (work_bound s1 - start)))); [destruct Hx|right; exact Hx].
    - intros <-. rewrite Hi. destruct (rev (firstn k (seq start (work_bound s1 - start)))) as [|i t] eqn:Hr; simpl; [lia|].
      assert (Hin : In i (rev (firstn k (seq start (work_bound s1 - start))))) by (rewrite Hr; left; reflexivity). apply in_rev in Hin. apply (in_first k) in Hin. apply in_seq in Hin. lia. }
  destruct (run_seq E Hok Hcb s _ s1 new Hrun Hnew Hpar) as (b & H & Hb). specialize (Hb eq_refl).
  destruct H as [b pre H1 H2|b l0 pre H1 H0 H2|b l0 cp0 H1 H2]; subst b.
  - exfalso. rewrite Heq in H1. inversion H1 as [|? ? X]. cbv in X. tauto.
  - destruct (Fin 0 (o_iteration (s_o s)) pre l0) as [G _]; [rewrite Nat.sub_0_r; exact H2|exact H1|reflexivity|]. split; [|exact G]. intros cp Hres. destruct (H0 _ Hres).
  - destruct (Fin (cp_iteration cp0) (cp_iteration cp0) [] l0) as [G1 G2]; [exact H2|constructor|rewrite app_nil_r; reflexivity|]. split; [|exact G1].
    intros cp Hres. rewrite (resumes_same _ _ _ _ Hres H1). apply G2. reflexivity.
Qed.
Lemma same_bytes (x : option bytes) b b' (dec : bytes -> option checkpoint) cp cp' : x = Some b -> x = Some b' -> dec b = Some cp -> dec b' = Some cp' -> cp = cp'.
Proof. congruence. Qed.
Theorem c100_kept_seq : forall E E2 s set s1 new c c2 o2 set2 s2 new2, env_ok E -> callbacks_keep_settings E -> io_works E2 -> lists_all E2 ->
  run E s = (Ok set, s1) -> recorded s s1 new -> (exists f cp, In (EvSave f cp) new) ->
  (forall f cp, In (EvSave f cp) new -> checkpoint_ok cp) -> o_parallel (s_o s1) = false ->
  o_cp (s_o s1) = Some c -> cc_keep_all c = true -> string_utf8 (cc_name c) -> directory_in_order E s c -> 0 < o_iteration (s_o s1) ->
  o_cp o2 = Some c2 -> cc_name c2 = cc_name c -> cc_keep_all c2 = true -> cc_auto_resume c2 = true ->
  run E2 (next_process s1 o2) = (Ok set2, s2) -> recorded (next_process s1 o2) s2 new2 ->
  tolerances_ok (s_o s1) -> numeric_set set -> (forall x, In (EvResult x) new2 -> number (ls_obj x)) -> not_worse set2 set.
Proof.
  intros E E2 s set s1 new c c2 o2 set2 s2 new2 Hok Hcb Hio Hl Hrun Hnew Hex Hfit Hpar Hc Hk Hu Hdir Hit Hc2 Hnm Hk2 Ha2 Hrun2 Hnew2 Htol Hnum Hx.
  destruct (kept_next E E2 s set s1 new c c2 o2 Hio Hl Hrun Hnew Hex Hfit Hc Hk Hu Hdir Hit Hc2 Hnm Hk2 Ha2) as (cp & Hres & Hle & Hco & Hokc & Hfrom & _).
  destruct Hex as (fx & cpx & Hinx).
  destruct (c100_saved E s set s1 new c Hrun Hnew Hc) as [H|(cpf & l & Heq & Hag & Hset & Lf)]; [exfalso; eapply H; exact Hinx|].
  destruct (seq_last E s set s1 new c Hok Hcb Hrun Hnew Hpar Hc _ _ _ Heq) as [G1 G2].
  destruct Hag as (A1 & A2 & A3 & A4 & A5 & A6 & A7 & A8 & A9 & A10 & A11 & A12 & A13 & A14).
  assert (Hi : cp_iteration cp = cp_iteration cpf) by (destruct Hfrom as [Hr|[f Hf]]; [specialize (G1 _ Hr)|specialize (G2 _ _ Hf)]; lia).
  assert (Hcp : cp = cpf).
  { rewrite Hi in Hco. pose proof (decode_encode cp Hokc) as D1.
    assert (D2 : decode_checkpoint (enc_checkpoint cpf) = Some cpf) by (apply decode_encode; eapply Hfit; rewrite Heq; left; reflexivity).
    exact (same_bytes _ _ _ _ _ _ Hco Lf D1 D2). }
  subst cpf. destruct Htol as (T1 & T2 & T3).
  refine (resumed_no_worse E2 _ set2 s2 new2 cp set Hrun2 Hnew2 Hres _ _ _ Hset Hnum Hx); congruence.
Qed.
