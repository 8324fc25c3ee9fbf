(** * Sessions (C63, C66) *)
From Coq Require Import ZArith NArith List Bool Arith Lia String Ascii Permutation.
From Verif Require Import F64 Base Builders Types Filters Runner Observer Env EnvSpec
  ScatterSearch Codec Checkpoint Oqnlp Spec SpecStage1 SpecStage2 SpecObserver SpecCheckpoint SpecPanic SpecSession
  BasicP Wp Actions RunP SetP FrameP CheckpointP ResumeP NoPanicP.
Import ListNotations.

(** ** Calls that only read the directory *)
Definition no_saves (l : list event) : Prop := forall f cp, ~ In (EvSave f cp) l.
Definition calm (s s' : st) : Prop :=
  d_files (w_disk (s_w s')) = d_files (w_disk (s_w s)) /\
  exists new, w_trace (s_w s') = new ++ w_trace (s_w s) /\ no_saves new.
Lemma calm_refl s : calm s s.
Proof. split; [reflexivity|]. exists []. split; [reflexivity|intros f cp []]. Qed.
Lemma calm_trans a b c : calm a b -> calm b c -> calm a c.
Proof.
  intros [H1 (n1 & T1 & N1)] [H2 (n2 & T2 & N2)]. split; [congruence|]. exists (n2 ++ n1).
  split; [rewrite T2, T1, app_assoc; reflexivity|]. intros f cp I. apply in_app_or in I as [I|I]; [eapply N2|eapply N1]; eauto.
Qed.
Lemma calm_fit s s' : calm s s' -> saves_fit s' -> saves_fit s.
Proof. intros [_ (n & T & _)] F f cp I. apply (F f cp). rewrite T. apply in_or_app; auto. Qed.
Lemma calm_hold s s' C : calm s s' -> checkpoints_hold C s -> checkpoints_hold C s'.
Proof. intros [H _] K f b cp I. rewrite H in I. eapply K; eauto. Qed.
Lemma calm_disk s s' C : calm s s' -> (saves_fit s -> checkpoints_hold C s) -> saves_fit s' -> checkpoints_hold C s'.
Proof. intros H K F. eapply calm_hold; eauto using calm_fit. Qed.
Lemma calm_on_disk A (m : DM A) s : reads m -> calm s (snd (on_disk m s)).
Proof.
  intros R. unfold on_disk. pose proof (R (w_disk (s_w s))) as H. destruct (m (w_disk (s_w s))) as [[x|x|] d]; simpl in *;
    (split; [exact H|exists []; split; [reflexivity|intros f cp []]]).
Qed.
Lemma calm_expand E refs a b s : calm s (snd (expand_reference_set E refs a b s)).
Proof.
  unfold expand_reference_set. destruct (b <=? a); [apply calm_refl|].
  unfold bind, the_oqnlp, get, ret, tick, unwrap, bind, panic, fail. cbn [s_o s_w].
  destruct (add_u64 E (o_seed (s_o s)) (N.of_nat (List.length refs))); [|split; [reflexivity|exists []; split; [reflexivity|intros f cp []]]].
  unfold ret. match goal with |- context [ss_new ?x ?y ?z] => destruct (ss_new x y z) as [s0|e|] end;
    try (split; [reflexivity|exists []; split; [reflexivity|intros f cp []]]).
  unfold run_ss. match goal with |- context [diversify_reference_set ?x ?y ?z ?w] => destruct (diversify_reference_set x y z w) as [[x1|e1|] s2] end;
    unfold bind, emit, modify, ret, fail, panic; cbn; (split; [reflexivity|]); eexists; (split; [reflexivity|]);
    intros f cp I; apply in_rev in I || idtac; apply in_map_iff in I as (y & I & _); discriminate.
Qed.
Lemma reads_path E f : reads (load_from_path E f).
Proof.
  unfold load_from_path. apply reads_bind; [apply reads_get|intro d]. destruct (lookup f (d_files d)); [|apply reads_fail].
  apply reads_bind; [apply reads_next|intros [| |]]; try apply reads_fail. destruct (decode_checkpoint _); [apply reads_ret|apply reads_fail].
Qed.
(** an optimizer that is the old one, or restored from a file of the directory *)
Definition from_file (s : st) (f : checkpoint -> checkpoint -> Prop) (o : oqnlp) : Prop :=
  o = s_o s \/ exists n b cp cp', In (n, b) (d_files (w_disk (s_w s))) /\ decode_checkpoint b = Some cp /\ f cp cp' /\
    o = restored cp' (s_o s).
Lemma on_disk_fst A (m : DM A) s a : fst (on_disk m s) = Ok a -> fst (m (w_disk (s_w s))) = Ok a.
Proof. unfold on_disk. destruct (m (w_disk (s_w s))) as [[x|x|] d]; simpl; congruence. Qed.
Lemma on_disk_world A (m : DM A) s : w_disk (s_w (snd (on_disk m s))) = snd (m (w_disk (s_w s))).
Proof. unfold on_disk. destruct (m (w_disk (s_w s))) as [[x|x|] d]; reflexivity. Qed.
Lemma try_effect E s r s' : try_resume_from_checkpoint E s = (r, s') -> calm s s' /\ from_file s eq (s_o s').
Proof.
  intros H. destruct r as [b|e|].
  - pose proof (resume_ok _ _ _ _ H) as R. destruct b.
    + destruct (run_start_file E s s' R) as (n & b & cp & H1 & H2 & H3). inversion R; subst.
      split; [split; [assumption|exists []; split; [reflexivity|intros f c0 []]]|]. right. exists n, b, cp, cp. auto.
    + inversion R; subst. split; [split; [assumption|exists []; split; [reflexivity|intros f c0 []]]|]. left. reflexivity.
  - destruct (resume_fail E s _ _ H) as (d & Hd & ->); [discriminate|].
    split; [split; [assumption|exists []; split; [reflexivity|intros f c0 []]]|]. left. reflexivity.
  - destruct (resume_fail E s _ _ H) as (d & Hd & ->); [discriminate|].
    split; [split; [assumption|exists []; split; [reflexivity|intros f c0 []]]|]. left. reflexivity.
Qed.
Definition changed_to (np : params) (cp cp' : checkpoint) : Prop := exists refs, cp' = cp_with np refs cp.
Lemma modified_effect E np s r s' : resume_with_modified_params E np s = (r, s') -> calm s s' /\ from_file s (changed_to np) (s_o s').
Proof.
  unfold resume_with_modified_params. intros H. unfold bind at 1 in H. unfold the_oqnlp, bind, get, ret in H.
  destruct (o_cp (s_o s)) as [c|] eqn:Hc; [|injection H as <- <-; split; [apply calm_refl|left; reflexivity]].
  pose proof (calm_on_disk _ (checkpoint_exists E c) s (reads_exists E c)) as K1.
  destruct (on_disk (checkpoint_exists E c) s) as [ex sa] eqn:H1. simpl in K1. pose proof (on_disk_o _ _ _ _ _ H1) as O1.
  destruct ex as [[|]|e|]; try (injection H as <- <-; split; [exact K1|left; congruence]).
  pose proof (calm_on_disk _ (load_latest E c) sa (reads_load_latest E c)) as K2.
  destruct (on_disk (load_latest E c) sa) as [cpr sb] eqn:H2. simpl in K2. pose proof (on_disk_o _ _ _ _ _ H2) as O2.
  pose proof (calm_trans _ _ _ K1 K2) as K12.
  destruct cpr as [cp|e|]; try (injection H as <- <-; split; [exact K12|left; congruence]).
  assert (F : exists n b, In (n, b) (d_files (w_disk (s_w s))) /\ decode_checkpoint b = Some cp).
  { assert (L : fst (load_latest E c (w_disk (s_w sa))) = Ok cp) by (apply on_disk_fst; rewrite H2; reflexivity).
    destruct (load_latest E c (w_disk (s_w sa))) as [x d2] eqn:El. simpl in L. subst x.
    apply load_latest_file in El as (n & b & I1 & I2). exists n, b. destruct K1 as [K1 _]. rewrite K1 in I1. auto. }
  destruct F as (n & b & F1 & F2). cbv zeta in H.
  assert (G : forall rr sc, calm sb sc -> s_o sc = s_o sb ->
      (match rr with Ok refs => bind (restore_from_checkpoint (cp_with np refs cp)) (fun _ => ret true) sc
      | Err e => (Err e, sc) | Panic => (Panic, sc) end = (r, s')) -> calm s s' /\ from_file s (changed_to np) (s_o s')).
  { intros rr sc K3 O3 Hx. pose proof (calm_trans _ _ _ K12 K3) as K. destruct rr as [refs|e|];
      try (injection Hx as <- <-; split; [exact K|left; congruence]).
    unfold bind, restore_from_checkpoint, upd, modify, ret in Hx. cbn in Hx. injection Hx as <- <-. split; [exact K|].
    right. exists n, b, cp, (cp_with np refs cp). split; [exact F1|]. split; [exact F2|]. split; [exists refs; reflexivity|].
    simpl. congruence. }
  destruct (p_population (cp_params cp) <? p_population np).
  - pose proof (calm_expand E (cp_reference_set cp) (p_population (cp_params cp)) (p_population np) sb) as K3.
    destruct (expand_reference_set E (cp_reference_set cp) (p_population (cp_params cp)) (p_population np) sb) as [rr sc] eqn:He.
    simpl in K3. apply (G rr sc K3 (expand_o _ _ _ _ _ _ _ He)). destruct rr; exact H.
  - apply (G (Ok (cp_reference_set cp)) sb (calm_refl sb) eq_refl). exact H.
Qed.
Lemma file_effect E f np s r s' : resume_from_checkpoint_with_params E f np s = (r, s') -> calm s s' /\ from_file s (changed_to np) (s_o s').
Proof.
  unfold resume_from_checkpoint_with_params. intros H. unfold bind at 1 in H. unfold the_oqnlp, bind, get, ret in H.
  destruct (o_cp (s_o s)) as [c|] eqn:Hc; [|injection H as <- <-; split; [apply calm_refl|left; reflexivity]].
  pose proof (calm_on_disk _ (load_from_path E f) s (reads_path E f)) as K1.
  destruct (on_disk (load_from_path E f) s) as [cpr sa] eqn:H1. simpl in K1. pose proof (on_disk_o _ _ _ _ _ H1) as O1.
  destruct cpr as [cp|e|]; try (injection H as <- <-; split; [exact K1|left; congruence]).
  assert (L : fst (load_from_path E f (w_disk (s_w s))) = Ok cp) by (apply on_disk_fst; rewrite H1; reflexivity).
  destruct (load_from_path E f (w_disk (s_w s))) as [x d2] eqn:El. simpl in L. subst x.
  apply load_path_file in El as (b & I1 & I2).
  unfold restore_from_checkpoint, upd, modify in H. cbn in H. injection H as <- <-. split; [exact K1|].
  right. exists f, b, cp, (cp_with np (cp_reference_set cp) cp). repeat split; auto; [eexists; reflexivity|]. simpl. congruence.
Qed.
Lemma checkpointing_effect E c s r s' : with_checkpointing E c s = (r, s') ->
  calm s s' /\ (s_o s' = s_o s \/ s_o s' = set_o_cp (Some c) (s_o s)).
Proof.
  unfold with_checkpointing, manager_new, on_disk, bind, next_io, upd, modify, ret, fail. simpl.
  destruct (e_io E (d_tick (w_disk (s_w s)))); simpl; intros H; injection H as <- <-;
    (split; [split; [reflexivity|exists []; split; [reflexivity|intros f cp []]]|]); auto.
Qed.
Lemma cleanup_effect E c n s r s' : on_disk (cleanup E c n) s = (r, s') ->
  s_o s' = s_o s /\ w_trace (s_w s') = w_trace (s_w s) /\
  forall x, In x (d_files (w_disk (s_w s'))) -> In x (d_files (w_disk (s_w s))).
Proof.
  intros H. split; [eapply on_disk_o; eauto|]. 
  assert (Hs : w_trace (s_w s') = w_trace (s_w s)).
  { unfold on_disk in H. destruct (cleanup E c n (w_disk (s_w s))) as [[x|x|] d]; injection H as <- <-; reflexivity. }
  split; [exact Hs|]. intros x. replace (w_disk (s_w s')) with (snd (cleanup E c n (w_disk (s_w s)))).
  2:{ rewrite <- on_disk_world, H. reflexivity. }
  generalize (w_disk (s_w s)). clear. intros d.
  set (sub := fun A (m : DM A) => forall d x, In x (d_files (snd (m d))) -> In x (d_files d)).
  assert (Sb : forall A B (m : DM A) (k : A -> DM B), sub A m -> (forall a, sub B (k a)) -> sub B (bind m k)).
  { intros A B m k H1 H2 d0 x0. unfold bind. specialize (H1 d0). destruct (m d0) as [[a|e|] d1]; simpl in *; auto.
    intros I. apply H1. eapply H2; eauto. }
  assert (Sr : forall A (a : A), sub A (ret a)) by (intros A a d0 x0 I; exact I).
  assert (Sf : forall A e, sub A (fail e)) by (intros A e d0 x0 I; exact I).
  assert (Sn : sub io (next_io E)) by (intros d0 x0 I; exact I).
  assert (Sm : forall f, sub unit (fs_remove E f)).
  { intros f. unfold fs_remove. apply Sb; [exact Sn|]. intros [| |]; try apply Sf.
    intros d0 x0 I. simpl in I. unfold remove_file in I. apply filter_In in I. apply I. }
  revert d x. change (sub unit (cleanup E c n)). unfold cleanup. destruct (_ || _); [apply Sr|].
  apply Sb.
  { unfold fs_read_dir. apply Sb; [exact Sn|]. intros [| |]; try apply Sf. apply Sb; [|intros; apply Sr]. intros d0 x0 I; exact I. }
  intros l. apply Sb; [intros d0 x0 I; exact I|]. intros l'.
  generalize (skipn n (sort_desc l')). intros q. induction q as [|e q IH]; simpl; [apply Sr|]. apply Sb; [apply Sm|]. intros _; exact IH.
Qed.

(** ** C63: no panic in a session *)
Lemma J_env E E' p M o : e_problem E = e_problem E' -> J E p M o -> J E' p M o.
Proof. unfold J, sane_set, sane_points. intros ->. auto. Qed.
Section NoPanic.
Context (P : problem) (M : nat) (Hbounds : Forall finite_bound (pb_bounds P)).
Let dims (l : solset) : Prop := Forall (fun s => List.length (ls_point s) = List.length (pb_bounds P)) l.
Definition tame_cp (cp : checkpoint) : Prop :=
  cp_batch cp <> Some 0 /\ good_params M (cp_params cp) /\
  (forall l, cp_solution_set cp = Some l -> l <> [] /\ dims l) /\ cp_iteration cp <= M.
Lemma tame_snapshot E p o cp : e_problem E = P -> good_params M p -> J E p M o -> snapshot o cp -> tame_cp cp.
Proof.
  intros HP Gp (J1 & J2 & J3 & J4 & J5 & J6 & J7 & J8) (S1 & S2 & S3 & S4 & _ & _ & _ & _ & _ & _ & S5 & _).
  unfold tame_cp, dims. rewrite S1, S2, S4, S5, <- HP, J4. auto.
Qed.
Lemma tame_restore E p o cp : e_problem E = P -> J E p M o -> tame_cp cp ->
  good_params M (cp_params cp) /\ J E (cp_params cp) M (restored cp o).
Proof.
  intros HP (J1 & J2 & J3 & J4 & J5 & J6 & J7 & J8) (C1 & C2 & C3 & C4). split; [exact C2|].
  split; [exact C1|]. split; [exact J2|]. split; [exact J3|]. split; [reflexivity|].
  split; [intros l Hl; rewrite HP; apply C3; exact Hl|]. auto.
Qed.
Definition tame_st (s : st) : Prop :=
  exists E p, e_problem E = P /\ good_params M p /\ J E p M (s_o s) /\ (saves_fit s -> checkpoints_hold tame_cp s).
Lemma tame_from s (f : checkpoint -> checkpoint -> Prop) s' :
  (forall cp cp', tame_cp cp -> f cp cp' -> tame_cp cp') -> tame_st s -> calm s s' -> from_file s f (s_o s') -> saves_fit s' -> tame_st s'.
Proof.
  intros Hf (E & p & HP & Gp & HJ & HD) Hc Hfile Fit.
  pose proof (calm_disk _ _ _ Hc HD) as HD'.
  destruct Hfile as [Ho|(n & b & cp & cp' & I1 & I2 & I3 & Ho)].
  - exists E, p. rewrite Ho. auto.
  - pose proof (Hf _ _ (HD (calm_fit _ _ Hc Fit) n b cp I1 I2) I3) as T.
    destruct (tame_restore E p (s_o s) cp' HP HJ T) as [G1 G2]. exists E, (cp_params cp'). rewrite Ho. auto.
Qed.
Lemma tame_change np cp cp' : good_params M np -> tame_cp cp -> changed_to np cp cp' -> tame_cp cp'.
Proof. intros G (C1 & C2 & C3 & C4) [refs ->]. split; [exact C1|]. split; [exact G|]. split; [exact C3|exact C4]. Qed.
Lemma points_dims b : forall l i, check_points b i l = Ok tt -> Forall (fun p => List.length p = List.length b) l.
Proof.
  induction l as [|x l IH]; intros i; simpl; [constructor|]. destruct (List.length x =? List.length b) eqn:H1; [|discriminate].
  destruct (within_bounds b x) as [[|]|]; try discriminate. intros H. apply Nat.eqb_eq in H1. constructor; eauto.
Qed.
Lemma tame_fresh E p o : oq_new p = Ok o -> good_params M p -> J E p M o.
Proof.
  intros H (G1 & G2 & G3 & G4). unfold oq_new in H. repeat match type of H with (if ?b then _ else _) = _ => destruct b; [discriminate|] end.
  destruct (df_new _) as [df|v]; [|discriminate]. inversion H; subst. 
  split; [discriminate|]. split; [discriminate|]. split; [discriminate|]. split; [reflexivity|].
  split; [intros l Hl; discriminate Hl|]. split; [exact G1|]. split; [intros l Hl; discriminate Hl|]. simpl. lia.
Qed.
(** a step that leaves the directory and the trace alone *)
Lemma tame_setting s o : (forall E p, e_problem E = P -> J E p M (s_o s) -> J E p M o) -> tame_st s -> tame_st (mk_st o (s_w s)).
Proof. intros H (E & p & HP & Gp & HJ & HD). exists E, p. split; [exact HP|]. split; [exact Gp|]. split; [exact (H E p HP HJ)|exact HD]. Qed.
Lemma tame_files s s' : s_o s' = s_o s -> w_trace (s_w s') = w_trace (s_w s) ->
  (forall f b cp, In (f, b) (d_files (w_disk (s_w s'))) -> decode_checkpoint b = Some cp -> exists g, In (g, b) (d_files (w_disk (s_w s)))) ->
  tame_st s -> tame_st s'.
Proof.
  intros H1 H2 H3 (E & p & HP & Gp & HJ & HD). exists E, p. rewrite H1. split; [exact HP|]. split; [exact Gp|]. split; [exact HJ|].
  intros F f b cp I1 I2. destruct (H3 f b cp I1 I2) as [g I3]. eapply HD; eauto. intros f' cp' I4. apply (F f' cp'). congruence.
Qed.
Lemma tame_step E c s s' : does E c s s' -> tame P M (E, c) -> saves_fit s' -> tame_st s -> tame_st s'.
Proof.
  intros D [T1 T2] Fit HT. simpl in T1, T2. destruct D as [p o s H|ob s|t s|n s|b s|t s|b s|a r s|l o s H|c s r s' H|s r s' H|s r s' H|np s r s' H|f np s r s' H|c n s r s' H|f b s H|f s]; simpl in T2.
  - destruct HT as (E0 & p0 & HP & _ & _ & HD). exists E0, p. split; [exact HP|]. split; [exact T2|]. split; [|exact HD].
    simpl. apply tame_fresh; assumption.
  - apply tame_setting; [|exact HT]. intros E0 p HP (J1 & J2 & J3 & J4 & J5). split; [exact J1|]. split; [exact J2|].
    split; [|split; [exact J4|exact J5]]. unfold callback_frequency. simpl. destruct (ob_callback ob) eqn:Cb; [|discriminate].
    intros X. inversion X as [X']. apply T2; [discriminate|exact X'].
  - apply tame_setting; [|exact HT]. intros E0 p HP HJ. exact HJ.
  - apply tame_setting; [|exact HT]. intros E0 p HP (J1 & J2). split; [simpl; congruence|exact J2].
  - apply tame_setting; [|exact HT]. intros E0 p HP HJ. exact HJ.
  - apply tame_setting; [|exact HT]. intros E0 p HP HJ. exact HJ.
  - apply tame_setting; [|exact HT]. intros E0 p HP HJ. exact HJ.
  - apply tame_setting; [|exact HT]. intros E0 p HP HJ. exact HJ.
  - unfold with_points in H. destruct (check_points (pb_bounds (e_problem E)) 0 l) as [[]|e|] eqn:Hp; try discriminate.
    inversion H; subst. apply points_dims in Hp. destruct T1 as [HP' _].
    apply tame_setting; [|exact HT]. intros E0 p HP (J1 & J2 & J3 & J4 & J5 & J6 & J7 & J8).
    split; [exact J1|]. split; [exact J2|]. split; [exact J3|]. split; [exact J4|]. split; [exact J5|]. split; [exact J6|].
    split; [|exact J8]. intros l' Hl'. simpl in Hl'. inversion Hl'; subst. rewrite HP, <- HP'. exact Hp.
  - apply checkpointing_effect in H as [Hc Ho]. destruct HT as (E0 & p & HP & Gp & HJ & HD). exists E0, p.
    split; [exact HP|]. split; [exact Gp|]. split; [|exact (calm_disk _ _ _ Hc HD)]. destruct Ho as [->| ->]; [exact HJ|].
    destruct HJ as (J1 & J2 & J3). split; [exact J1|]. split; [|exact J3]. intros c' Hc'. simpl in Hc'. congruence.
  - destruct T1 as (HP' & HE & Hcb & Hdim). destruct HT as (E0 & p & HP & Gp & HJ & HD).
    assert (Fit0 : saves_fit s).
    { apply run_trace in H as [new Ht]. intros f cp I'. apply (Fit f cp). unfold trace in Ht. rewrite Ht. apply in_or_app; auto. }
    pose proof (run_keeps E M tame_cp s HE Hcb Hdim) as K. rewrite HP' in K. specialize (K Hbounds).
    specialize (K (fun p o cp => tame_snapshot E p o cp HP') (fun p o cp => tame_restore E p o cp HP')).
    rewrite H in K. assert (X : exists p', good_params M p' /\ JS E p' M tame_cp s').
    { assert (Y : exists p', good_params M p' /\ JS E p' M tame_cp s).
      { exists p. split; [exact Gp|]. split; [|exact HD]. eapply J_env; [|exact HJ]. congruence. }
      destruct r; [apply K; auto|apply K; auto|destruct (K Y Fit0)]. }
    destruct X as (p' & G' & J' & D'). exists E, p'. auto.
  - apply try_effect in H as [H1 H2]. eapply tame_from; eauto. intros cp cp' K <-. exact K.
  - apply modified_effect in H as [H1 H2]. eapply tame_from; eauto. intros cp cp' K. apply tame_change; assumption.
  - apply file_effect in H as [H1 H2]. eapply tame_from; eauto. intros cp cp' K. apply tame_change; assumption.
  - apply cleanup_effect in H as (H1 & H2 & H3). eapply tame_files; eauto.
  - eapply (tame_files s); [reflexivity|reflexivity| |exact HT]. simpl. intros f' b' cp I1 I2.
    unfold put_file in I1. apply in_app_or in I1 as [I1|[I1|[]]]; [|inversion I1; subst; congruence].
    unfold remove_file in I1. apply filter_In in I1 as [I1 _]. eauto.
  - eapply (tame_files s); [reflexivity|reflexivity| |exact HT]. simpl. intros f' b' cp I1 I2.
    unfold remove_file in I1. apply filter_In in I1 as [I1 _]. eauto.
Qed.
End NoPanic.
Lemma does_trace E c s s' : does E c s s' -> exists new, w_trace (s_w s') = new ++ w_trace (s_w s).
Proof.
  intros D. destruct D as [p o s H|ob s|t s|n s|b s|t s|b s|a r s|l o s H|c s r s' H|s r s' H|s r s' H|np s r s' H|f np s r s' H|c n s r s' H|f b s H|f s];
    try (exists []; reflexivity).
  - apply checkpointing_effect in H as [[_ (new & H & _)] _]. eauto.
  - apply run_trace in H. exact H.
  - apply try_effect in H as [[_ (new & H & _)] _]. eauto.
  - apply modified_effect in H as [[_ (new & H & _)] _]. eauto.
  - apply file_effect in H as [[_ (new & H & _)] _]. eauto.
  - apply cleanup_effect in H as (_ & H & _). exists []. exact H.
Qed.
Lemma does_fit E c s s' : does E c s s' -> saves_fit s' -> saves_fit s.
Proof. intros D F f cp I'. destruct (does_trace _ _ _ _ D) as [new Ht]. apply (F f cp). rewrite Ht. apply in_or_app; auto. Qed.
Theorem session_safe : forall P M p l s0 s E, Forall finite_bound (pb_bounds P) ->
  begins p s0 -> good_params M p -> session l s0 s -> Forall (tame P M) l -> saves_fit s ->
  tame_env P E -> fst (run E s) <> Panic.
Proof.
  intros P M p l s0 s E Hb (B1 & B2 & B3) Gp Hs Hl Fit TE.
  assert (X : tame_st P M s).
  { destruct TE as [TE _]. rename E into Ez. induction Hs as [s|l E c s s1 s2 Hs IH D].
    - exists Ez, p. split; [exact TE|]. split; [exact Gp|]. split; [apply tame_fresh; assumption|].
      intros _ f b cp I1 I2. destruct (B3 f b cp I1 I2).
    - inversion Hl; subst. eapply tame_step; eauto. apply IH; auto. eapply does_fit; eauto. }
  destruct X as (E0 & p0 & HP & G0 & HJ & HD). destruct TE as (HP' & HE & Hcb & Hdim).
  pose proof (run_keeps E M (tame_cp P M) s HE Hcb Hdim) as K. rewrite HP' in K. specialize (K Hb).
  specialize (K (fun p o cp => tame_snapshot P M E p o cp HP') (fun p o cp => tame_restore P M E p o cp HP')).
  destruct (run E s) as [[r|e|] s'] eqn:R; try discriminate. exfalso. apply K; [|exact Fit].
  exists p0. split; [exact G0|]. split; [|exact HD]. eapply J_env; [|exact HJ]. congruence.
Qed.

(** ** C66: the stored set *)
Section Stored.
Context (d : f64).
Definition nice (a r : f64) (set : solset) : Prop := set <> [] /\ close_to_first a r set /\ pairwise_separated d set.
Definition good (o : oqnlp) : Prop :=
  p_distance_factor (o_params o) = d /\ forall set, o_set o = Some set -> nice (o_abs_tol o) (o_rel_tol o) set.
Definition good_cp (cp : checkpoint) : Prop :=
  p_distance_factor (cp_params cp) = d /\ forall set, cp_solution_set cp = Some set -> nice (cp_abs_tol cp) (cp_rel_tol cp) set.
Lemma good_snapshot o cp : good o -> snapshot o cp -> good_cp cp.
Proof. intros [G1 G2] (S1 & _ & _ & S4 & _ & _ & _ & _ & _ & _ & _ & _ & S5 & S6). unfold good_cp. rewrite S1, S4, S5, S6. auto. Qed.
Lemma good_restore o cp : good_cp cp -> good (restored cp o).
Proof. intros H. exact H. Qed.
Lemma good_config o o' : same_config o o' -> o_set o' = o_set o -> good o -> good o'.
Proof.
  intros H Hs [G1 G2]. destruct H as (H1 & _ & _ & _ & _ & _ & _ & _ & _ & _ & H11 & H12 & _). unfold good.
  rewrite H1, H11, H12, Hs. auto.
Qed.
Lemma good_transition E o sol set : good o -> transition E o sol set -> nice (o_abs_tol o) (o_rel_tol o) set.
Proof.
  intros [G1 G2] T. split; [destruct T; discriminate|]. split.
  - eapply close_step; eauto. intros x Hx. apply G2. exact Hx.
  - rewrite <- G1. eapply (sep_step E o sol); eauto. intros x Hx. unfold sep_of. rewrite G1. apply G2. exact Hx.
Qed.
(** the state: the optimizer, the checkpoints handed to the disk, the files *)
Definition good_st (s : st) : Prop :=
  good (s_o s) /\ (forall f cp, In (EvSave f cp) (w_trace (s_w s)) -> good_cp cp) /\ (saves_fit s -> checkpoints_hold good_cp s).
Lemma pls_saves E sol s f cp : In (EvSave f cp) (trace (snd (process_local_solution E sol s))) -> In (EvSave f cp) (trace s).
Proof.
  destruct (pls_cases E sol s) as [[-> _]|[[_ [_ [-> _]]]|[Ha [[Hn [-> _]]|
    [cur [rest [Hs [[Hb [_ [ob ->]]]|[[H1 [H2 [H3 [_ [ob ->]]]]]|[_ [_ [_ ->]]]]]]]]]]]];
  cbv [changed noted trace s_o s_w w_trace w_disk w_tick]; simpl; intros I'; auto; repeat (destruct I' as [I'|I']; [discriminate|]); auto.
Qed.
Lemma pls_disk E sol s : w_disk (s_w (snd (process_local_solution E sol s))) = w_disk (s_w s).
Proof.
  destruct (pls_cases E sol s) as [[-> _]|[[_ [_ [-> _]]]|[Ha [[Hn [-> _]]|
    [cur [rest [Hs [[Hb [_ [ob ->]]]|[[H1 [H2 [H3 [_ [ob ->]]]]]|[_ [_ [_ ->]]]]]]]]]]]]; reflexivity.
Qed.
Lemma fit_back s new l : w_trace (s_w s) = new ++ l -> saves_fit s -> forall f cp, In (EvSave f cp) l -> checkpoint_ok cp.
Proof. intros H F f cp I'. apply (F f cp). rewrite H. apply in_or_app; auto. Qed.
Lemma good_act E K objs s s' : act E K objs s s' -> good_st s -> good_st s'.
Proof.
  intros A (G1 & G2 & G3). pose proof (act_config _ _ _ _ _ A) as Hc. pose proof (act_trace _ _ _ _ _ A) as [new Ht].
  assert (G1' : good (s_o s')).
  { destruct (act_set _ _ _ _ _ A) as (nw & _ & [[H _]|(sol & it & p & set & _ & _ & _ & H & _ & _ & _ & T)]).
    - eapply good_config; eauto.
    - pose proof (good_transition _ _ _ _ G1 T) as N. destruct G1 as [D _].
      destruct Hc as (H1 & _ & _ & _ & _ & _ & _ & _ & _ & _ & H11 & H12 & _). unfold good. rewrite H1, H11, H12.
      split; [exact D|]. intros x Hx. rewrite H in Hx. inversion Hx; subst. exact N. }
  assert (Fit0 : saves_fit s' -> saves_fit s) by (intros F f cp I'; eapply (fit_back s' new); eauto).
  split; [exact G1'|].
  destruct A; try (split; [exact G2|intros F; exact (G3 (Fit0 F))]);
    try (split; [intros f cp [I'|I']; [discriminate I'|eapply G2; exact I']|intros F; exact (G3 (Fit0 F))]).
  - split; [intros f cp [I'|I']; [subst e; discriminate|eapply G2; exact I']|intros F; exact (G3 (Fit0 F))].
  - split; [intros f cp I'; eapply G2; eapply pls_saves; exact I'|]. intros F f b cp I'. rewrite pls_disk in I'. apply (G3 (Fit0 F) f b cp I').
  - split; [|intros F; exact (G3 (Fit0 F))]. intros f0 cp0 [I'|I']; [|eapply G2; exact I']. inversion I'; subst. eapply good_snapshot; eauto.
  - split; [exact G2|]. intros F f b cp0 I' Dec. simpl in I'. pose proof (G3 (Fit0 F)) as K0. subst d0.
    destruct (save_files E c cp i (w_disk (s_w s))) as [Sf|[k Sf]]; rewrite Sf in I'; [apply (K0 f b cp0 I' Dec)|].
    unfold put_file in I'. apply in_app_or in I' as [I'|[I'|[]]].
    + unfold remove_file in I'. apply filter_In in I' as [I' _]. apply (K0 f b cp0 I' Dec).
    + inversion I'; subst. destruct (torn cp k (F _ _ H)) as [T|T]; rewrite T in Dec; inversion Dec; subst. eapply G2; eauto.
  - split; [exact G2|]. intros F f b cp I'. simpl in I'. rewrite H in I'. apply (G3 (Fit0 F) f b cp I').
Qed.
Lemma good_acts E K objs s s' : acts E K objs s s' -> good_st s -> good_st s'.
Proof. intros A. induction A as [s|s s1 s' H _ IH]; auto. intros G. apply IH. eapply good_act; eauto. Qed.
Lemma good_from s (f : checkpoint -> checkpoint -> Prop) s' :
  (forall cp cp', good_cp cp -> f cp cp' -> good_cp cp') -> good_st s -> calm s s' -> from_file s f (s_o s') -> saves_fit s' -> good_st s'.
Proof.
  intros Hf (G1 & G2 & G3) Hc Hfile Fit. split; [|split].
  - destruct Hfile as [->|(n & b & cp & cp' & I1 & I2 & I3 & ->)]; [exact G1|]. apply good_restore.
    eapply Hf; [|exact I3]. eapply (G3 (calm_fit _ _ Hc Fit)); eauto.
  - intros g cp I'. destruct Hc as [_ (new & Ht & Hn)]. rewrite Ht in I'. apply in_app_or in I' as [I'|I']; [destruct (Hn _ _ I')|eauto].
  - exact (calm_disk _ _ _ Hc G3).
Qed.
Lemma good_start E s b s1 : run_start E s b s1 -> saves_fit s1 -> good_st s -> good_st s1.
Proof.
  intros R F G. assert (X : calm s s1).
  { inversion R; subst; (split; [assumption|exists []; split; [reflexivity|intros ? ? []]]). }
  apply (good_from s eq s1); auto; [intros cp cp' K <-; exact K|]. destruct b.
  - destruct (run_start_file _ _ _ R) as (n & c & cp & H1 & H2 & H3). right. exists n, c, cp, cp. auto.
  - left. eapply run_start_fresh; eauto.
Qed.
Lemma good_run E s r s' : run E s = (r, s') -> saves_fit s' -> good_st s -> good_st s'.
Proof.
  intros H F G. destruct (run_acts E s r s' H) as [Hsh _].
  assert (Back : forall K objs a b, acts E K objs a b -> saves_fit b -> saves_fit a).
  { intros K objs a b A Fb f cp I'. destruct (acts_trace _ _ _ _ _ A) as [new Ht]. eapply (fit_back b new); eauto. }
  destruct Hsh as [dd Hd -> _ | s1 Hs1 Ha | s1 s2 refs objs Hs1 _ Ha1 Ha2 | s1 refs Hs1 _ Ha].
  - destruct G as (G1 & G2 & G3). split; [exact G1|]. split; [exact G2|]. intros F' f b cp I'. simpl in I'. rewrite Hd in I'. apply (G3 F' f b cp I').
  - eapply good_acts; [eassumption|]. eapply good_start; eauto.
  - eapply good_acts; [eassumption|]. eapply good_acts; [eassumption|]. eapply good_start; eauto.
  - eapply good_acts; [eassumption|]. eapply good_start; eauto.
Qed.
Lemma good_change np cp cp' : p_distance_factor np = d -> good_cp cp -> changed_to np cp cp' -> good_cp cp'.
Proof. intros H [G1 G2] [refs ->]. split; [exact H|exact G2]. Qed.
Lemma good_files s s' : s_o s' = s_o s -> w_trace (s_w s') = w_trace (s_w s) ->
  (forall f b cp, In (f, b) (d_files (w_disk (s_w s'))) -> decode_checkpoint b = Some cp -> exists g, In (g, b) (d_files (w_disk (s_w s)))) ->
  good_st s -> good_st s'.
Proof.
  intros H1 H2 H3 (G1 & G2 & G3). split; [rewrite H1; exact G1|]. split; [rewrite H2; exact G2|].
  intros F f b cp I1 I2. destruct (H3 f b cp I1 I2) as [g I3]. eapply G3; eauto. intros f' cp' I4. apply (F f' cp'). congruence.
Qed.
Lemma good_fresh p o : oq_new p = Ok o -> p_distance_factor p = d -> good o.
Proof.
  intros H Hd. unfold oq_new in H. repeat match type of H with (if ?b then _ else _) = _ => destruct b; [discriminate|] end.
  destruct (df_new _) as [df|v]; [|discriminate]. inversion H; subst. split; [exact Hd|]. intros set Hs. discriminate Hs.
Qed.
Lemma good_step E c s s' : does E c s s' -> steady d (E, c) -> saves_fit s' -> good_st s -> good_st s'.
Proof.
  intros D T2 Fit G. unfold steady in T2. destruct D as [p o s H|ob s|t s|n s|b s|t s|b s|a r s|l o s H|c s r s' H|s r s' H|s r s' H|np s r s' H|f np s r s' H|c n s r s' H|f b s H|f s];
    simpl in T2; try exact G.
  - destruct G as [_ G]. split; [eapply good_fresh; eauto|exact G].
  - destruct G as [[G1 G2] G]. split; [|exact G]. split; [exact G1|]. intros set Hs. exfalso.
    unfold has_set in T2. change (o_set (s_o s) = Some set) in Hs. rewrite Hs in T2. discriminate.
  - unfold with_points in H. destruct (check_points (pb_bounds (e_problem E)) 0 l) as [[]|e|] eqn:Hp; try discriminate.
    inversion H; subst. exact G.
  - apply checkpointing_effect in H as [Hc Ho]. destruct G as (G1 & G2 & G3). split; [destruct Ho as [->| ->]; exact G1|].
    split; [|exact (calm_disk _ _ _ Hc G3)]. intros g cp I'. destruct Hc as [_ (new & Ht & Hn)]. rewrite Ht in I'.
    apply in_app_or in I' as [I'|I']; [destruct (Hn _ _ I')|eauto].
  - eapply good_run; eauto.
  - apply try_effect in H as [H1 H2]. eapply good_from; eauto. intros cp cp' K <-. exact K.
  - apply modified_effect in H as [H1 H2]. eapply good_from; eauto. intros cp cp' K. apply good_change; assumption.
  - apply file_effect in H as [H1 H2]. eapply good_from; eauto. intros cp cp' K. apply good_change; assumption.
  - apply cleanup_effect in H as (H1 & H2 & H3). eapply good_files; eauto.
  - eapply (good_files s); [reflexivity|reflexivity| |exact G]. simpl. intros f' b' cp I1 I2.
    unfold put_file in I1. apply in_app_or in I1 as [I1|[I1|[]]]; [|inversion I1; subst; congruence].
    unfold remove_file in I1. apply filter_In in I1 as [I1 _]. eauto.
  - eapply (good_files s); [reflexivity|reflexivity| |exact G]. simpl. intros f' b' cp I1 I2.
    unfold remove_file in I1. apply filter_In in I1 as [I1 _]. eauto.
Qed.
End Stored.
Theorem session_sets : forall d p l s0 s, begins p s0 -> p_distance_factor p = d -> session l s0 s ->
  Forall (steady d) l -> saves_fit s -> good_st d s.
Proof.
  intros d p l s0 s (B1 & B2 & B3) Hd Hs Hl Fit. induction Hs as [s|l E c s s1 s2 Hs IH D].
  - split; [eapply good_fresh; eauto|]. split; [rewrite B2; intros f cp []|]. intros _ f b cp I1 I2. destruct (B3 f b cp I1 I2).
  - inversion Hl; subst. eapply good_step; eauto. apply IH; auto. eapply does_fit; eauto.
Qed.
