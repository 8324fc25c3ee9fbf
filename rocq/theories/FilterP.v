(** * Which candidates start a local search (C29) *)
From Coq Require Import ZArith NArith List Bool Arith Lia String.
From Verif Require Import F64 F64Order F64Alg F64Real Base Builders Types Filters Runner Observer Env EnvSpec
  ScatterSearch Codec Checkpoint Oqnlp Spec SpecStage2 BasicP Wp Actions RunP SetP FrameP.
Import ListNotations.

Section Filter.
Context (t0 : f64) (sols0 : list lsol) (fp : filter_params).
Definition passes (l : list event) (p : point) (obj : f64) : Prop :=
  fle obj (threshold_after t0 l) = true /\
  forall x, In x sols0 \/ result_in l x ->
    flt (fmul (fp_distance_factor fp) (fp_distance_factor fp)) (dist2 p (ls_point x)) = true.
Definition decide_ok (tr : list event) : Prop := forall l1 l2 iter p obj o b,
  tr = l1 ++ EvDecide iter p obj o b :: l2 -> (b = true <-> passes l2 p obj).
Definition search_ok (tr : list event) : Prop := forall l1 l2 iter p,
  tr = l1 ++ EvSearch (Some iter) p :: l2 -> exists obj o, In (EvDecide iter p obj o true) l2.
Record filter_inv (o : oqnlp) (tr : list event) : Prop := {
  fi_thr : mf_threshold (o_merit o) = threshold_after t0 tr;
  fi_sols : forall x, In x (df_solutions (o_df o)) <-> In x sols0 \/ result_in tr x;
  fi_params : df_params (o_df o) = fp;
  fi_decide : decide_ok tr;
  fi_search : search_ok tr }.

(** the check made for a candidate is the one of the specification *)
Lemma decide_iff : forall o tr p obj, filter_inv o tr ->
  (should_start_local o p obj = true <-> passes tr p obj).
Proof.
  intros o tr p obj [H1 H2 H3 _ _]. unfold should_start_local, passes, mf_check, df_check.
  rewrite andb_true_iff, forallb_forall, H1, H3. split; intros [A B]; (split; [exact A|]).
  - intros x Hx. apply H2 in Hx. apply (B x Hx).
  - intros x Hx. apply H2 in Hx. apply (B x Hx).
Qed.

Definition plain (e : event) : bool :=
  match e with
  | EvDecide _ _ _ _ _ | EvSearch (Some _) _ | EvThreshold _ | EvRelax _ | EvResult _ => false
  | _ => true
  end.
Lemma decide_cons : forall e tr, decide_ok tr ->
  (forall iter p obj o b, e = EvDecide iter p obj o b -> (b = true <-> passes tr p obj)) -> decide_ok (e :: tr).
Proof.
  intros e tr H He [|a l1] l2 iter p obj o b Heq; simpl in Heq; injection Heq as -> ->; [eapply He; reflexivity|].
  eapply H; reflexivity.
Qed.
Lemma search_cons : forall e tr, search_ok tr ->
  (forall iter p, e = EvSearch (Some iter) p -> exists obj o, In (EvDecide iter p obj o true) tr) -> search_ok (e :: tr).
Proof.
  intros e tr H He [|a l1] l2 iter p Heq; simpl in Heq; injection Heq as -> ->; [eapply He; reflexivity|].
  eapply H; reflexivity.
Qed.
Lemma inv_plain : forall o tr e, filter_inv o tr -> plain e = true -> filter_inv o (e :: tr).
Proof.
  intros o tr e [H1 H2 H3 H4 H5] He. constructor; auto.
  - destruct e; try discriminate He; simpl; auto.
  - intro x. rewrite H2. unfold result_in. simpl. intuition. subst e; discriminate.
  - apply decide_cons; auto. intros; subst e; discriminate.
  - apply search_cons; auto. intros; subst e; discriminate.
Qed.
Lemma inv_thr : forall o tr v e, filter_inv o tr -> e = EvThreshold v \/ e = EvRelax v ->
  filter_inv (set_o_merit (mf_update (o_merit o) v) o) (e :: tr).
Proof.
  intros o tr v e [H1 H2 H3 H4 H5] [-> | ->]; (constructor;
  [ reflexivity
  | intro x; simpl; rewrite H2; unfold result_in; simpl; intuition discriminate
  | exact H3
  | apply decide_cons; auto; discriminate
  | apply search_cons; auto; discriminate ]).
Qed.
(** only the merit threshold and the distance filter matter *)
Lemma inv_ext : forall o o' tr, filter_inv o tr -> o_merit o' = o_merit o -> o_df o' = o_df o -> filter_inv o' tr.
Proof. intros o o' tr [H1 H2 H3 H4 H5] A B. constructor; rewrite ?A, ?B; auto. Qed.
(** the result event comes first, the solution is added to the filter at the end *)
Lemma inv_filtered : forall o tr sol, 
  mf_threshold (o_merit o) = threshold_after t0 tr -> df_params (o_df o) = fp -> decide_ok tr -> search_ok tr ->
  In (EvResult sol) tr ->
  (forall x, In x (df_solutions (o_df o)) \/ x = sol <-> In x sols0 \/ result_in tr x) ->
  filter_inv (set_o_df (df_add (o_df o) sol) o) tr.
Proof.
  intros o tr sol H1 H2 H3 H4 H5 H6. constructor; auto.
  intro x. rewrite <- H6. simpl. rewrite in_app_iff. simpl. intuition.
Qed.
Lemma pls_inv : forall E sol s, filter_inv (s_o s) (trace s) ->
  let s' := snd (process_local_solution E sol s) in filter_inv (s_o s') (trace s').
Proof.
  intros E sol s Hi s'. pose proof (pls_cases E sol s) as Hc. cbv zeta in Hc. fold s' in Hc.
  pose proof Hi as [H1 H2 H3 H4 H5].
  destruct Hc as [(Hs & _)|[(_ & _ & Hs & _)|[_ [(_ & Hs & _)|(cur & rest & _ &
    [(_ & _ & ob & Hs)|[(_ & _ & _ & _ & ob & Hs)|(_ & _ & _ & Hs)]])]]]]; [rewrite Hs; exact Hi|..];
  rewrite Hs; unfold changed, noted, trace; cbn [s_o s_w w_trace w_disk w_tick];
  (apply inv_filtered; [ reflexivity || exact H1 | exact H3 |
     repeat (apply decide_cons; [|intros; discriminate]); exact H4 |
     repeat (apply search_cons; [|intros; discriminate]); exact H5 |
     simpl; auto |
     intro x; cbn [o_df set_o_set set_o_merit set_o_observer]; rewrite H2; unfold result_in; simpl; split;
       [intros [[A|A]| ->]; tauto | intros [A|A]; [tauto|];
        repeat (destruct A as [A|A]; [try discriminate; injection A as <-; tauto|]); tauto] ]).
Qed.
Lemma act_inv : forall E K objs s s', act E K objs s s' ->
  filter_inv (s_o s) (trace s) -> filter_inv (s_o s') (trace s').
Proof.
  intros E K objs s s' H Hi; destruct H; unfold noted, changed, with_disk, trace; cbn [s_o s_w w_trace];
    change (w_trace (s_w s)) with (trace s);
    try (apply inv_thr; auto; fail);
    try (apply inv_plain; auto; fail);
    try (eapply inv_ext; [exact Hi|reflexivity|reflexivity]; fail).
  - apply inv_plain; auto. destruct e; try discriminate; auto.
  - pose proof Hi as [H1 H2 H3 H4 H5]. constructor; auto.
    + intro x. rewrite H2. unfold result_in. simpl. intuition discriminate.
    + apply decide_cons; auto. intros i q v o b Heq. injection Heq as <- <- <- <- <-. apply decide_iff; auto.
    + apply search_cons; auto. discriminate.
  - pose proof Hi as [H1 H2 H3 H4 H5]. constructor; auto.
    + intro x. rewrite H2. unfold result_in. simpl. intuition discriminate.
    + apply decide_cons; auto. discriminate.
    + apply search_cons; auto. intros i q Heq. injection Heq as <- <-. eauto.
  - apply pls_inv. exact Hi.
Qed.
Lemma acts_inv : forall E K objs s s', acts E K objs s s' ->
  filter_inv (s_o s) (trace s) -> filter_inv (s_o s') (trace s').
Proof. intros E K objs s s' H. apply (star_inv _ _ (fun s => filter_inv (s_o s) (trace s)) (fun a b Hi Ha => act_inv E K objs a b Ha Hi) _ _ H). Qed.
Lemma inv_start : forall o, mf_threshold (o_merit o) = t0 -> df_solutions (o_df o) = sols0 -> df_params (o_df o) = fp ->
  filter_inv o [].
Proof.
  intros o H1 H2 H3. constructor; auto.
  - intro x. rewrite H2. unfold result_in. simpl. intuition.
  - intros [|? ?] ? ? ? ? ? ? Heq; discriminate.
  - intros [|? ?] ? ? ? Heq; discriminate.
Qed.
End Filter.

(** ** A run seen as steps from an empty record *)
Definition step (E : env) (s s' : st) : Prop := exists K objs, act E K objs s s'.
Lemma acts_steps : forall E K objs s s', acts E K objs s s' -> star (step E) s s'.
Proof. intros E K objs s s' H; induction H; [constructor|]. econstructor; [|eassumption]. exists K, objs. auto. Qed.
(** the optimizer a run works with: its own state, or that restored from a checkpoint file *)
Definition begins (s : st) (o : oqnlp) : Prop :=
  o = s_o s \/ exists f content cp, In (f, content) (d_files (w_disk (s_w s))) /\
    decode_checkpoint content = Some cp /\ o = restored cp (s_o s).
Definition ends (s' : st) (new : list event) : st :=
  mk_st (s_o s') (mk_world (w_disk (s_w s')) (w_tick (s_w s')) new).
Lemma start_begins : forall E s b s1, run_start E s b s1 -> begins s (s_o s1) /\ trace s1 = trace s.
Proof.
  intros E s [|] s1 H.
  - split; [|inversion H; reflexivity]. right. apply (run_start_file E s s1 H).
  - split; [|inversion H; reflexivity]. left. apply (run_start_fresh E s s1 H).
Qed.
Lemma run_steps : forall E s r s' new, run E s = (r, s') -> recorded s s' new ->
  exists s1, begins s (s_o s1) /\ trace s1 = [] /\ star (step E) s1 (ends s' new).
Proof.
  intros E s r s' new Hrun Hnew.
  pose proof (run_blank E s r s' new Hrun Hnew) as Hb. fold (ends s' new) in Hb.
  destruct (run_acts E (blank s) r (ends s' new) Hb) as [Hsh _].
  destruct Hsh as [d Hd Hs _ | s1 Hs1 Ha | s1 s2 refs objs Hs1 _ Ha1 Ha2 | s1 refs Hs1 _ Ha].
  - exists (with_disk d (blank s)). split; [left; auto|]. split; auto. rewrite Hs. constructor.
  - destruct (start_begins _ _ _ _ Hs1). exists s1. eauto using acts_steps.
  - destruct (start_begins _ _ _ _ Hs1). exists s1. split; [auto|split;[auto|]]. eapply star_trans; eauto using acts_steps.
  - destruct (start_begins _ _ _ _ Hs1). exists s1. eauto using acts_steps.
Qed.

Lemma c29_run : forall E s r s' new, run E s = (r, s') -> recorded s s' new ->
  exists t0 sols0, initial_filter s t0 sols0 /\
    filter_inv t0 sols0 (df_params (o_df (s_o s))) (s_o s') new.
Proof.
  intros E s r s' new Hrun Hnew. destruct (run_steps E s r s' new Hrun Hnew) as (s1 & Hb & Ht & Hs).
  exists (mf_threshold (o_merit (s_o s1))), (df_solutions (o_df (s_o s1))).
  assert (Hp : df_params (o_df (s_o s1)) = df_params (o_df (s_o s))).
  { destruct Hb as [->|(f & content & cp & _ & _ & ->)]; reflexivity. }
  split.
  - destruct Hb as [->|(f & content & cp & G1 & G2 & ->)]; [left; auto|]. right. exists f, content, cp. auto.
  - change (s_o s') with (s_o (ends s' new)). change new with (trace (ends s' new)).
    refine (star_inv _ _ (fun s2 => filter_inv _ _ _ (s_o s2) (trace s2)) _ _ _ Hs _).
    + intros a b Hi (K & objs & Ha). eapply act_inv; eauto.
    + rewrite Ht. apply inv_start; auto.
Qed.
