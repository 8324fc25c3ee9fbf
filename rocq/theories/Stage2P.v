(** * Remaining lemmas about Stage 2 (C29 - C37, C62) *)
From Coq Require Import ZArith NArith List Bool Arith Lia Permutation String.
From Verif Require Import F64 F64Order F64Alg F64Real Base Builders Types Filters Runner Observer Env EnvSpec
  ScatterSearch Codec Checkpoint Oqnlp Spec SpecStage2 BasicP SolverP Wp Actions RunP FrameP FilterP CountP
  HoareP SearchP SetP WaitP ClockFreeP Demo Demo2.
Import ListNotations.

(** ** C29 *)
Lemma c29_decide : forall E s r s' new, run E s = (r, s') -> recorded s s' new ->
  exists t0 sols0, initial_filter s t0 sols0 /\ forall l1 l2 i p obj o b, new = l1 ++ EvDecide i p obj o b :: l2 ->
    (b = true <-> fle obj (threshold_after t0 l2) = true /\
       forall x, In x sols0 \/ result_in l2 x ->
         flt (fmul (fp_distance_factor (df_params (o_df (s_o s)))) (fp_distance_factor (df_params (o_df (s_o s)))))
             (dist2 p (ls_point x)) = true).
Proof.
  intros E s r s' new Hr Hn. destruct (c29_run E s r s' new Hr Hn) as (t0 & sols0 & H1 & H2).
  exists t0, sols0. split; [exact H1|]. intros l1 l2 i p obj o b Hx. exact (fi_decide _ _ _ _ _ H2 l1 l2 i p obj o b Hx).
Qed.
Lemma c29_search : forall E s r s' new l1 l2 i p, run E s = (r, s') -> recorded s s' new ->
  new = l1 ++ EvSearch (Some i) p :: l2 ->
  exists obj o l3 l4, l2 = l3 ++ EvDecide i p obj o true :: l4 /\ forall x, ~ result_in l3 x.
Proof.
  intros E s r s' new l1 l2 i p Hr Hn Hx. destruct (good_run E s r s' new Hr Hn l1 l2 i p Hx) as (obj & o & l3 & l4 & H1 & H2).
  exists obj, o, l3, l4. split; [exact H1|]. intros x Hy. rewrite Forall_forall in H2. exact (H2 _ Hy).
Qed.
Lemma in_indices : forall f l i, In i (indices f l) <-> exists e, In e l /\ f e = Some i.
Proof.
  intros f l i. unfold indices. rewrite in_flat_map. split; intros (e & H1 & H2); exists e; (split; [exact H1|]).
  - destruct (f e) as [j|]; [|destruct H2]. destruct H2 as [->|[]]. reflexivity.
  - rewrite H2. left; auto.
Qed.
Lemma nodup_once : forall f l1 l2 e1 e2 i, NoDup (indices f (l1 ++ e1 :: l2)) -> f e1 = Some i -> f e2 = Some i ->
  In e2 (l1 ++ e1 :: l2) -> e2 = e1.
Proof.
  intros f l1 l2 e1 e2 i H F1 F2 Hin. rewrite indices_app in H.
  assert (G : indices f (e1 :: l2) = i :: indices f l2) by (unfold indices; simpl; rewrite F1; reflexivity).
  rewrite G in H. apply NoDup_remove_2 in H. apply in_app_iff in Hin as [Hin|[<-|Hin]]; auto; exfalso; apply H;
    apply in_app_iff; [left|right]; apply in_indices; eauto.
Qed.
Lemma c29_rejected : forall E s r s' new i p obj o, env_ok E -> run E s = (r, s') -> recorded s s' new ->
  In (EvDecide i p obj o false) new -> ~ In i (searched new).
Proof.
  intros E s r s' new i p obj o He Hr Hn Hd Hs. apply in_indices in Hs as (e & He1 & He2).
  destruct e as [| | |[j|] q| | | | | | | | | |]; try discriminate. injection He2 as ->.
  apply in_split in He1 as (l1 & l2 & Hx). destruct (c29_search E s r s' new l1 l2 i q Hr Hn Hx) as (obj' & o' & l3 & l4 & Hy & _).
  destruct (c31_run E s r s' new He Hr Hn) as [(_ & _ & [Hnd _] & _) _].
  assert (Hz : new = (l1 ++ EvSearch (Some i) q :: l3) ++ EvDecide i q obj' o' true :: l4).
  { rewrite Hx, Hy, <- app_assoc. reflexivity. }
  unfold decided in Hnd. rewrite Hz in Hnd, Hd.
  pose proof (nodup_once _ _ _ _ _ i Hnd eq_refl (eq_refl : _ (EvDecide i p obj o false) = _) Hd). discriminate.
Qed.

(** ** C30, C31: which point and value a candidate has *)
Lemma acts_decide : forall E K objs s s', acts E K objs s s' -> forall i p obj o b,
  In (EvDecide i p obj o b) (trace s') -> In (EvDecide i p obj o b) (trace s) \/
    (K (Some i) p /\ cand_objective E objs i p = Ok obj).
Proof.
  intros E K objs s s' H. induction H as [s|s s1 s' H H0 IH]; intros i p obj o b Hin; [auto|].
  destruct (IH _ _ _ _ _ Hin) as [G|G]; [|auto]. clear IH H0 Hin.
  destruct H; try (left; exact G); try (destruct G as [G|G]; [discriminate|left; exact G]).
  - destruct G as [G|G]; [subst e; discriminate|left; exact G].
  - destruct G as [G|G]; [|left; exact G]. injection G as <- <- <- _ _. right. auto.
  - revert G. destruct (pls_cases E sol s) as [[-> _]|[[_ [_ [-> _]]]|[_ [[_ [-> _]]|
    [cur [rest [_ [[_ [_ [ob ->]]]|[[_ [_ [_ [_ [ob ->]]]]]|[_ [_ [_ ->]]]]]]]]]]]]; intro G; simpl in G;
      repeat (destruct G as [G|G]; [discriminate|]); auto.
Qed.
Lemma c30_run : forall E s r s' new, run E s = (r, s') -> recorded s s' new ->
  exists order objs, (forall sr, try_resume_from_checkpoint E s = (Ok true, sr) -> objs = None) /\
    (env_ok E -> Permutation order (reference_set s')) /\
    (objs = None -> order = reference_set s') /\
    (forall vs, objs = Some vs -> exists s0 pts sf best, stage1_init E (s_o s) (w_tick (s_w s)) = Ok s0 /\
        ss_run E s0 = (Ok (pts, best), sf) /\ reference_set s' = map fst pts /\ vs = map snd pts /\
        exists seed, order = e_shuffle E (e_seed_from E seed) (reference_set s')) /\
    forall i p obj o b, In (EvDecide i p obj o b) new -> nth_error order i = Some p /\ cand_objective E objs i p = Ok obj.
Proof.
  intros E s r s' new Hrun Hnew.
  pose proof (run_blank E s r s' new Hrun Hnew) as Hb. fold (ends s' new) in Hb.
  destruct (run_acts E (blank s) r (ends s' new) Hb) as [Hsh _].
  change (reference_set s') with (reference_set (ends s' new)).
  assert (Hnth : forall n (l : list point) i p, nth_error (firstn n l) i = Some p -> nth_error l i = Some p).
  { induction n as [|n IH]; intros [|x l] [|i] p H; simpl in *; try discriminate; auto. }
  assert (Hnone : forall K s1, trace s1 = [] -> (forall i p, ~ K (Some i) p) -> acts E K None s1 (ends s' new) ->
    forall i p obj o b, ~ In (EvDecide i p obj o b) new).
  { intros K s1 Ht HK Ha i p obj o b Hd. change new with (trace (ends s' new)) in Hd.
    destruct (acts_decide _ _ _ _ _ Ha _ _ _ _ _ Hd) as [G|[G _]]; [rewrite Ht in G; auto|]. exact (HK i p G). }
  destruct Hsh as [d Hd Hs _ | s1 Hs1 Ha | s1 s2 refs objs Hs1 H1 Ha1 Ha2 | s1 refs Hs1 Href Ha].
  - exists (reference_set (ends s' new)), None. repeat (split; [auto; discriminate|]).
    assert (Hn : new = []) by (apply (f_equal trace) in Hs; exact Hs). rewrite Hn. intros ? ? ? ? ? [].
  - destruct (start_begins _ _ _ _ Hs1) as [_ Ht].
    exists (reference_set (ends s' new)), None. repeat (split; [auto; discriminate|]).
    intros i p obj o b Hd. exfalso. revert Hd. apply (Hnone (stage1_best E s1) s1 Ht); auto. intros ? ? [Hx _]. discriminate.
  - destruct (start_begins _ _ _ _ Hs1) as [_ Ht].
    destruct H1 as (s0 & pts & best & sf & G1 & G2 & G3 & G4 & G5).
    assert (Hr : o_ref (s_o (ends s' new)) = Some refs).
    { rewrite <- G5. eapply acts_ref; [|exact Ha2]. intros p (i & rs & Hx & _). discriminate. }
    destruct (add_u64 E (p_seed (o_params (s_o s2))) (N.of_nat (o_iteration (s_o s2)))) as [seed|] eqn:Hseed.
    + exists (e_shuffle E (e_seed_from E seed) refs), (Some objs). unfold reference_set. rewrite Hr.
      split; [|split; [intro He; apply eo_shuffle; auto|split; [discriminate|split]]].
      * intros sr Hz. exfalso. apply resume_ok in Hz. inversion Hz as [|c d cp Z1 Z2 Z3]; subst.
        inversion Hs1 as [d' _ Y1|]; subst. simpl in Y1. rewrite (Y1 c Z1 Z2) in Z3. discriminate.
      * intros vs Hv. injection Hv as <-. exists s0, pts, sf, best. repeat split; auto.
        { inversion Hs1; subst; exact G1. }
        eauto.
      * intros i p obj o b Hd. destruct (acts_decide _ _ _ _ _ Ha2 i p obj o b Hd) as [G|[(i' & rs & Hi & _ & (sd & K1 & K2) & K3) K4]].
        { destruct (acts_decide _ _ _ _ _ Ha1 i p obj o b G) as [G'|[(Hx & _) _]]; [rewrite Ht in G'; destruct G'|discriminate]. }
        injection Hi as <-. rewrite Hseed in K1. injection K1 as <-. rewrite K2 in K3. apply Hnth in K3. auto.
    + exists refs, None. unfold reference_set. rewrite Hr. repeat (split; [auto; discriminate|]).
      intros i p obj o b Hd. exfalso. destruct (acts_decide _ _ _ _ _ Ha2 i p obj o b Hd) as [G|[(i' & rs & Hi & _ & (sd & K1 & K2) & K3) K4]]; [|congruence].
      destruct (acts_decide _ _ _ _ _ Ha1 i p obj o b G) as [G'|[(Hx & _) _]]; [rewrite Ht in G'; destruct G'|discriminate].
  - destruct (start_begins _ _ _ _ Hs1) as [_ Ht].
    assert (Hr : o_ref (s_o (ends s' new)) = Some refs).
    { rewrite <- Href. eapply acts_ref; [|exact Ha]. intros p (i & rs & Hx & _). discriminate. }
    exists refs, None. unfold reference_set. rewrite Hr. repeat (split; [auto; discriminate|]).
    intros i p obj o b Hd. destruct (acts_decide _ _ _ _ _ Ha i p obj o b Hd) as [G|[(i' & rs & Hi & _ & K1 & K3) K4]]; [rewrite Ht in G; destruct G|].
    injection Hi as <-. rewrite K1 in K3. apply Hnth in K3. auto.
Qed.

(** ** C35 *)
Lemma relaxed_ge : forall factor t, wf factor = true -> wf t = true -> flt f0 factor = true -> is_nan t = false ->
  t <> Inf true -> fle t (relaxed factor t) = true.
Proof.
  intros factor t Hf Ht Hpos Hn Hi. unfold relaxed.
  set (d := fmul factor (fadd f1 (fabs t))).
  assert (W1 : wf (fadd f1 (fabs t)) = true) by (apply fadd_wf; [reflexivity|apply fabs_wf; auto]).
  assert (Wd : wf d = true) by (apply fmul_wf; auto).
  assert (N1 : nonneg (fadd f1 (fabs t))) by (apply fadd_nonneg; [reflexivity|apply fabs_nonneg]).
  assert (Nd : nonneg d) by (apply fmul_nonneg; [apply flt_pos_nonneg; auto|exact N1]).
  assert (G1 : flt f0 (fadd f1 (fabs t)) = true).
  { apply flt_le_trans with f1; [reflexivity|]. apply fadd_ge; [reflexivity|apply fabs_wf; auto|reflexivity| |].
    - apply nonneg_fle; [apply fabs_nonneg|destruct t; auto].
    - apply fadd_not_nan; [reflexivity|destruct t; auto|reflexivity|apply fabs_wf; auto]. }
  assert (Dn : is_nan d = false).
  { unfold d. destruct (is_finite factor) eqn:F1.
    - destruct (is_finite (fadd f1 (fabs t))) eqn:F2; [apply fmul_finite_not_nan; auto|].
      destruct (fadd f1 (fabs t)) as [b|b|b|b m e]; try discriminate. destruct factor as [c|c|c|c m e]; try discriminate; reflexivity.
    - destruct factor as [c|c|c|c m e]; try discriminate.
      destruct (fadd f1 (fabs t)) as [b|b|b|b m e]; try discriminate; reflexivity. }
  apply fadd_ge; auto; [apply nonneg_fle; auto|].
  destruct (is_finite t) eqn:Ft; [apply fadd_not_nan; auto|].
  destruct t as [b|b|b|b m e]; try discriminate. destruct b; [congruence|].
  destruct d as [c|c|c|c m e]; try discriminate; try reflexivity. simpl in Nd. subst. reflexivity.
Qed.
Lemma relaxed_lowers : forall factor t, wf factor = true -> wf t = true -> flt f0 factor = true -> is_nan t = false ->
  flt (relaxed factor t) t = false.
Proof.
  intros factor t Hf Ht Hpos Hn.
  assert (C : t = Inf true \/ t <> Inf true) by (destruct t as [b|[|]|b|b m e]; auto; right; discriminate).
  destruct C as [->|C].
  - destruct (relaxed factor (Inf true)) as [[|]|[|]|[|]|[|] m e]; reflexivity.
  - apply fle_not_flt. apply relaxed_ge; auto.
Qed.
Lemma c35_adjust : forall s r s', adjust_threshold s = (r, s') ->
  let factor := p_threshold_factor (o_params (s_o s)) in
  let t := mf_threshold (o_merit (s_o s)) in
  let t' := mf_threshold (o_merit (s_o s')) in
  wf factor = true -> wf t = true -> flt f0 factor = true -> is_nan t = false ->
  flt t' t = false /\ (is_finite t = true -> is_nan t' = false) /\
  (t <> Inf true -> forall v, mf_check (o_merit (s_o s)) v = true -> mf_check (o_merit (s_o s')) v = true).
Proof.
  intros s r s' H factor t t' Hf Ht Hpos Hn. injection H as _ <-. unfold t' in *. simpl. fold factor t.
  split; [apply relaxed_lowers; auto|]. split.
  - intro Fi. eapply fle_nan_r. apply relaxed_ge; auto. destruct t; discriminate.
  - intros Hi v Hv. unfold mf_check in *. simpl. fold factor t. eapply fle_trans; [exact Hv|]. apply relaxed_ge; auto.
Qed.
Lemma c30_resumed : forall E s r s' new s1 i p obj o b, run E s = (r, s') -> recorded s s' new ->
  try_resume_from_checkpoint E s = (Ok true, s1) -> In (EvDecide i p obj o b) new ->
  pb_objective (e_problem E) p = inl obj /\ nth_error (reference_set s') i = Some p.
Proof.
  intros E s r s' new s1 i p obj o b Hr Hn Hres Hin.
  destruct (c30_run E s r s' new Hr Hn) as (order & objs & H1 & _ & H2 & _ & H3).
  rewrite (H1 s1 Hres) in *. destruct (H3 _ _ _ _ _ Hin) as [H4 H5]. rewrite (H2 eq_refl) in H4. split; [|exact H4].
  unfold cand_objective in H5. destruct (pb_objective (e_problem E) p); congruence.
Qed.
Lemma c31_points : forall E s r s' new, run E s = (r, s') -> recorded s s' new -> env_ok E ->
  exists order, Permutation order (reference_set s') /\
    forall i p obj o b, In (EvDecide i p obj o b) new -> nth_error order i = Some p.
Proof.
  intros E s r s' new Hr Hn He. destruct (c30_run E s r s' new Hr Hn) as (order & objs & _ & H1 & _ & _ & H3).
  exists order. split; [auto|]. intros i p obj o b Hin. exact (proj1 (H3 _ _ _ _ _ Hin)).
Qed.
Lemma once_length : forall n l, once_below n l -> List.length l <= n.
Proof.
  intros n l [H1 H2]. rewrite <- (seq_length n 0). apply NoDup_incl_length; [exact H1|].
  intros i Hi. apply in_seq. specialize (H2 i Hi). lia.
Qed.
Lemma c31_bound : forall E s r s' new, env_ok E -> run E s = (r, s') -> recorded s s' new ->
  once_below (work_bound s') (begun new) /\ once_below (work_bound s') (evaluated new) /\
  once_below (work_bound s') (decided new) /\ once_below (work_bound s') (searched new) /\
  List.length (searched new) <= work_bound s' /\ List.length (stage1_searches new) <= 1.
Proof.
  intros E s r s' new He Hr Hn. destruct (c31_run E s r s' new He Hr Hn) as [(H1 & H2 & H3 & H4) H5].
  repeat (split; [first [apply H1|apply H2|apply H3|apply H4|apply once_length; exact H4]|]). exact H5.
Qed.

(** ** C33 *)
Lemma c33_no_limit : forall E c s r s' r' t', o_max_time (s_o s) = None ->
  run E s = (r, s') -> run (with_clock c E) s = (r', t') ->
  r' = r /\ s_o t' = s_o s' /\ map fst (d_files (w_disk (s_w t'))) = map fst (d_files (w_disk (s_w s'))).
Proof.
  intros E c s r s' r' t' Hm H1 H2. destruct (c_run E c s r s' r' t' Hm H1 H2) as (G1 & G2 & _ & _ & _ & G3). auto.
Qed.

(** ** C32, C36: scanning a record *)
Lemma again_recorded : forall E o, recorded (state_of E o) (again_state E o) (again_record E o).
Proof.
  intros E o. unfold recorded, again_record. destruct (run E (state_of E o)) as [r s'] eqn:Hr.
  assert (Hs : again_state E o = s') by (unfold again_state; rewrite Hr; reflexivity). rewrite Hs.
  destruct (run_trace E _ _ _ Hr) as [new Hn]. unfold trace in Hn. rewrite Hn.
  rewrite app_length, Nat.add_sub, firstn_app, Nat.sub_diag, firstn_all. simpl. rewrite app_nil_r. reflexivity.
Qed.
Fixpoint settled (l : list event) : bool :=
  match l with
  | [] => false
  | EvSolutionSet _ :: _ => true
  | EvDecide _ _ _ _ false :: _ => false
  | _ :: r => settled r
  end.
Fixpoint stale (l : list event) : bool :=
  match l with
  | [] => false
  | EvDecide _ _ _ o _ :: r => (negb (o_unchanged o =? 0) && settled r) || stale r
  | _ :: r => stale r
  end.
Lemma settled_split : forall l, settled l = true -> exists seg set l2, l = seg ++ EvSolutionSet set :: l2 /\ rejections seg = 0.
Proof.
  induction l as [|e l IH]; intro H; [discriminate|].
  destruct e as [| |? ? ? ? [|]| | |s| | | | | | | |]; simpl in H; try discriminate H;
    try (destruct (IH H) as (seg & set & l2 & -> & Hr); eexists (_ :: seg), set, l2; split; [reflexivity|exact Hr]).
  exists [], s, l. auto.
Qed.
Lemma stale_split : forall l, stale l = true -> exists l1 i q obj o b seg set l2,
  l = l1 ++ EvDecide i q obj o b :: seg ++ EvSolutionSet set :: l2 /\ rejections seg = 0 /\ o_unchanged o <> 0.
Proof.
  induction l as [|e l IH]; intro H; [discriminate|].
  assert (G : stale l = true -> exists l1 i q obj o b seg set l2,
    e :: l = l1 ++ EvDecide i q obj o b :: seg ++ EvSolutionSet set :: l2 /\ rejections seg = 0 /\ o_unchanged o <> 0).
  { intro Hs. destruct (IH Hs) as (l1 & i & q & obj & o & b & seg & set & l2 & -> & Hr & Hu).
    exists (e :: l1), i, q, obj, o, b, seg, set, l2. auto. }
  destruct e as [| |i q obj o b| | | | | | | | | | |]; try (apply G; exact H). simpl in H. apply orb_true_iff in H as [H|H]; [|auto].
  apply andb_true_iff in H as [H1 H2]. apply negb_true_iff, Nat.eqb_neq in H1.
  destruct (settled_split l H2) as (seg & set & l2 & -> & Hr). exists [], i, q, obj, o, b, seg, set, l2. auto.
Qed.
