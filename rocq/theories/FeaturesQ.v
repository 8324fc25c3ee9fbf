(** * Executions of two builds side by side *)
From Coq Require Import ZArith NArith List Bool Arith Lia String.
From Verif Require Import F64 Base Builders Types Filters Runner Observer Env EnvSpec
  ScatterSearch Codec Checkpoint Oqnlp Features SpecFeatures SimP.
Import ListNotations.
Local Open Scope monad_scope.

(** [o] with other values in the fields that depend on features *)
Definition repl (bt : option nat) (par : bool) (cp : option cp_config) (it : nat) (rf : option (list point))
    (un : nat) (sd : N) (o : oqnlp) : oqnlp :=
  mk_oq (o_params o) (o_merit o) (o_df o) (o_solver_type o) (o_solver_config o) (o_set o) (o_max_time o) bt par
        (o_target o) (o_exclude o) cp it rf un sd (o_observer o) (o_custom o) (o_abs_tol o) (o_rel_tol o).
Section Builds.
Context (F F' : features) (E : env) (P : params) (z : bool) (C : bytes -> bytes -> Prop).
Context (Hray : f_rayon F = true -> f_rayon F' = true)
        (Hck : f_checkpointing F = true -> f_checkpointing F' = true).
Definition vo (o o' : oqnlp) : Prop :=
  exists bt par cp it rf un sd, o' = repl bt par cp it rf un sd o /\
    (f_checkpointing F <> f_checkpointing F' -> o_params o = P) /\ (f_checkpointing F <> f_checkpointing F' -> cp = None) /\
    (f_rayon F = f_rayon F' -> bt = o_batch o /\ par = o_parallel o) /\
    (f_rayon F <> f_rayon F' -> par = false) /\
    (f_checkpointing F = f_checkpointing F' -> cp = o_cp o /\ it = o_iteration o /\ rf = o_ref o /\ un = o_unchanged o /\ sd = o_seed o) /\
    (z = true -> f_checkpointing F <> f_checkpointing F' -> it = 0).
Definition alikes (s t : st) : Prop :=
  vo (s_o s) (s_o t) /\ (d_tick (w_disk (s_w t)) = d_tick (w_disk (s_w s)) /\ alike_files C (w_disk (s_w s)) (w_disk (s_w t))) /\ w_tick (s_w t) = w_tick (s_w s) /\
  Forall2 alike_event (w_trace (s_w s)) (w_trace (s_w t)).
Notation R := alikes.
Notation sim := (sim R).
Lemma vo_alike : forall o o', vo o o' -> alike o o'.
Proof. intros o o' (bt & par & cp & it & rf & un & sd & -> & _). unfold alike, repl. cbn. tauto. Qed.
Lemma event_refl : forall e, alike_event e e.
Proof. clear. intros []; cbn; auto; unfold alike, alike_checkpoint; tauto. Qed.
Lemma events_refl : forall l, Forall2 alike_event l l.
Proof. clear. induction l; constructor; auto using event_refl. Qed.

Lemma b_oqnlp : sim vo the_oqnlp the_oqnlp.
Proof. intros s t H. split; [|exact H]. exact (proj1 H). Qed.
Definition blind (f : oqnlp -> oqnlp) : Prop :=
  (forall bt par cp it rf un sd o, f (repl bt par cp it rf un sd o) = repl bt par cp it rf un sd (f o)) /\
  forall o, o_params (f o) = o_params o /\ o_batch (f o) = o_batch o /\ o_parallel (f o) = o_parallel o /\ o_cp (f o) = o_cp o /\
    o_iteration (f o) = o_iteration o /\ o_ref (f o) = o_ref o /\ o_unchanged (f o) = o_unchanged o /\ o_seed (f o) = o_seed o.
Lemma b_upd : forall f, blind f -> sim eq (upd f) (upd f).
Proof.
  intros f [Hf Hk]. apply sim_modify. intros s t (H1 & H2 & H3 & H4). unfold R. cbn. split; [|auto].
  destruct H1 as (bt & par & cp & it & rf & un & sd & He & G). exists bt, par, cp, it, rf, un, sd. rewrite He, Hf. split; [reflexivity|].
  destruct (Hk (s_o s)) as (-> & -> & -> & -> & -> & -> & -> & ->). exact G.
Qed.
Lemma blind_obs : forall f, blind (fun o => set_o_observer (option_map f (o_observer o)) o).
Proof. intro f. split; [reflexivity|]. intro o. cbn. tauto. Qed.
Lemma b_obs : forall f, sim eq (obs f) (obs f).
Proof. intro f. apply b_upd, blind_obs. Qed.
Lemma b_emits : forall l l', Forall2 alike_event l l' -> sim eq (emit l) (emit l').
Proof.
  intros l l' Hl. apply sim_modify. intros s t (H1 & H2 & H3 & H4). unfold R. cbn. split; [exact H1|]. split; [exact H2|]. split; [exact H3|].
  apply Forall2_app; [|exact H4]. clear -Hl. induction Hl; cbn; [constructor|]. apply Forall2_app; [exact IHHl|]. constructor; auto.
Qed.
Lemma b_emit : forall l, sim eq (emit l) (emit l).
Proof. intros l. apply b_emits, events_refl. Qed.
Lemma b_tick : sim eq tick tick.
Proof. intros s t (H1 & H2 & H3 & H4). unfold tick, R. cbn. rewrite H3. auto. Qed.
Lemma b_of_solver : forall A (r : outcome ls_error A), sim eq (of_solver r) (of_solver r).
Proof. intros A []; [apply sim_ret|apply sim_fail|apply sim_panic]; auto. Qed.

Ltac red_o := cbn [repl o_params o_merit o_df o_solver_type o_solver_config o_set o_max_time o_batch o_parallel o_target
  o_exclude o_cp o_iteration o_ref o_unchanged o_seed o_observer o_custom o_abs_tol o_rel_tol] in *.
Ltac blind_tac := split; [reflexivity|intro; cbn; tauto].
Ltac bs1 :=
  match goal with
  | |- SimP.sim _ _ (bind the_oqnlp _) _ => eapply sim_bind; [apply b_oqnlp|]; let o := fresh "o" in
      intros o ? (? & ? & ? & ? & ? & ? & ? & -> & ? & ? & ? & ? & ? & ?);
      repeat match goal with |- context [target_reached E (repl ?a ?b ?c ?d ?e ?f ?g ?o)] => change (target_reached E (repl a b c d e f g o)) with (target_reached E o) end; red_o
  | |- SimP.sim _ _ (bind _ _) _ => eapply sim_bind with (V := eq); [|intros ? ? <-]
  | |- SimP.sim _ _ (ret _) _ => apply sim_ret; auto
  | |- SimP.sim _ _ (fail _) _ => apply sim_fail
  | |- SimP.sim _ _ panic _ => apply sim_panic
  | |- SimP.sim _ _ (upd _) _ => apply b_upd; blind_tac
  | |- SimP.sim _ _ (obs _) _ => apply b_obs
  | |- SimP.sim _ _ (emit _) _ => apply b_emit
  | |- SimP.sim _ _ tick _ => apply b_tick
  | |- SimP.sim _ _ (of_solver _) _ => apply b_of_solver
  | |- SimP.sim _ _ (unwrap _) _ => apply sim_unwrap
  | |- SimP.sim _ _ (of_result _) _ => apply sim_of_result; apply vrel_eq
  | |- SimP.sim _ _ (let _ := _ in _) _ => cbv zeta
  | |- SimP.sim _ _ (let '(_, _) := ?x in _) _ => destruct x
  | |- SimP.sim _ _ (if ?b then _ else _) _ => destruct b
  | |- SimP.sim _ _ (match ?x with _ => _ end) _ => destruct x
  end.
Ltac bs := repeat bs1.
Ltac getvo := eapply sim_bind; [apply b_oqnlp|]; let o := fresh "o" in
  intros o ? (bt & par & cp & it & rf & un & sd & -> & G1 & G2 & G3 & G4 & G5 & G6); red_o.
Lemma b_process : forall sol, sim eq (process_local_solution E sol) (process_local_solution E sol).
Proof. intro sol. unfold process_local_solution, set_solutions, set_threshold, add_to_filter. bs. Qed.
Lemma b_callback : forall i, sim eq (callback E i) (callback E i).
Proof. intro i. unfold callback. bs. Qed.
Lemma b_callback_at : forall i, sim eq (callback_at E i) (callback_at E i).
Proof. intro i. unfold callback_at. bs. apply b_callback. Qed.
Lemma b_obs_iteration : forall i u, sim eq (obs_iteration i u) (obs_iteration i u).
Proof. intros. unfold obs_iteration. bs. Qed.
Lemma b_obs_search : forall a n, sim eq (obs_search a n) (obs_search a n).
Proof. intros. unfold obs_search. bs. Qed.
Lemma b_count : forall u, sim eq (count_unchanged u) (count_unchanged u).
Proof. intros. unfold count_unchanged, adjust_threshold. bs. Qed.
Lemma b_threshold : forall v, sim eq (set_threshold v) (set_threshold v).
Proof. intros. unfold set_threshold. bs. Qed.
Lemma b_final : sim eq final_set final_set.
Proof. unfold final_set. bs. Qed.
Lemma b_begin2 : sim eq begin_stage2 begin_stage2.
Proof. unfold begin_stage2. bs. Qed.
Lemma b_end1 : sim eq (end_stage1 E) (end_stage1 E).
Proof. unfold end_stage1, stage1_enter. bs1; [bs|]. bs1; [apply b_callback|bs]. Qed.

(** ** Files *)
Definition drel (d d' : disk) : Prop := d_tick d' = d_tick d /\ alike_files C d d'.
Notation dsim := (SimP.sim (E := cp_error) drel).
Lemma q_on_disk : forall A B (V : A -> B -> Prop) m m', dsim V m m' -> sim V (on_disk m) (on_disk m').
Proof.
  intros A B V m m' H s t (H1 & H2 & H3 & H4). destruct (H _ _ H2) as [K1 K2]. unfold on_disk.
  destruct (m (w_disk (s_w s))) as [[a|e|] d], (m' (w_disk (s_w t))) as [[b|e'|] d']; cbn in *; try contradiction; subst;
    (split; [auto|]); unfold R; cbn; auto.
Qed.
Lemma d_next : dsim eq (next_io E) (next_io E).
Proof. intros d d' (H1 & H2). unfold next_io. cbn. rewrite H1. split; [reflexivity|]. split; [reflexivity|exact H2]. Qed.
Lemma d_change : forall f g, (forall l l', Forall2 (fun x x' => fst x' = fst x /\ C (snd x) (snd x')) l l' ->
  Forall2 (fun x x' => fst x' = fst x /\ C (snd x) (snd x')) (f l) (g l')) -> dsim eq (set_files f) (set_files g).
Proof. intros f g H. apply sim_modify. intros d d' (H1 & H2). split; [exact H1|]. apply H. exact H2. Qed.
Lemma remove_alike : forall n l l', Forall2 (fun x x' => fst x' = fst x /\ C (snd x) (snd x')) l l' ->
  Forall2 (fun x x' : fname * bytes => fst x' = fst x /\ C (snd x) (snd x')) (remove_file n l) (remove_file n l').
Proof.
  intros n l l' H. unfold remove_file. induction H as [|[k v] [k' v'] l l' [H1 H2] H IH]; cbn [filter]; [constructor|]. cbn [fst snd] in *. subst k'. destruct (negb _); auto.
Qed.
Lemma d_put : forall n c c', C c c' -> dsim eq (set_files (put_file n c)) (set_files (put_file n c')).
Proof.
  intros n c c' Hc. apply d_change. intros l l' H. unfold put_file. apply Forall2_app; [apply remove_alike; exact H|]. repeat constructor. exact Hc.
Qed.
Lemma d_write : forall n c c', (forall k, C (firstn k c) (firstn k c')) -> dsim eq (fs_write E n c) (fs_write E n c').
Proof.
  intros n c c' H. unfold fs_write. eapply sim_bind; [apply d_next|]. intros r ? <-. destruct r.
  - specialize (H (Nat.max (List.length c) (List.length c'))). rewrite !firstn_all2 in H by lia. apply d_put; exact H.
  - apply sim_fail.
  - eapply sim_bind; [apply d_put; apply H|]. intros ? ? _. apply sim_fail.
Qed.
Context (Hw : f_checkpointing F = true -> forall cp cp' k, alike_checkpoint cp cp' ->
  C (firstn k (b_enc_checkpoint F cp)) (firstn k (b_enc_checkpoint F' cp'))).

(** ** Saving *)
Lemma q_create : f_checkpointing F = f_checkpointing F' -> sim alike_checkpoint (create_checkpoint E) (create_checkpoint E).
Proof.
  intro Hs. unfold create_checkpoint. eapply sim_bind; [apply b_tick|]. intros t ? <-. getvo. destruct (G5 Hs) as (-> & -> & -> & -> & ->).
  apply sim_ret. unfold alike_checkpoint. cbn. tauto.
Qed.
Lemma q_save_now : f_checkpointing F = f_checkpointing F' -> f_checkpointing F = true -> forall c,
  sim eq (b_save_now F E c) (b_save_now F' E c).
Proof.
  intros Hs Ht c. unfold b_save_now. eapply sim_bind; [apply q_create; auto|]. intros ck ck' Hcp. getvo. destruct (G5 Hs) as (-> & -> & -> & -> & ->).
  eapply sim_bind; [apply b_emits; constructor; [cbn; auto|constructor]|]. intros ? ? _.
  eapply sim_bind with (V := fun _ _ => True); [|intros ? ? _; apply sim_ret; reflexivity].
  apply q_on_disk. unfold b_save_checkpoint. eapply sim_bind; [apply d_write; auto|]. intros ? ? _. apply sim_ret. exact I.
Qed.
Lemma same_ck : f_checkpointing F' = false -> f_checkpointing F = false.
Proof. clear -Hck. destruct (f_checkpointing F); auto. intros H. rewrite Hck in H; auto. Qed.
Lemma b_save : sim eq (b_maybe_save F E) (b_maybe_save F' E).
Proof.
  unfold b_maybe_save. pose proof same_ck as K. pose proof q_save_now as W. destruct (f_checkpointing F') eqn:C'; [|rewrite K by auto; bs].
  destruct (f_checkpointing F) eqn:C0.
  - getvo. destruct G5 as (-> & -> & _); [congruence|]. bs. apply W; auto.
  - intros s t H. pose proof H as ((bt & par & cp & it & rf & un & sd & He & G1 & G2 & _) & _).
    unfold bind, the_oqnlp, get, ret. cbn. rewrite He. cbn. rewrite G2 by congruence. cbn. auto.
Qed.
Lemma b_save_final : sim eq (b_maybe_save_final F E) (b_maybe_save_final F' E).
Proof.
  unfold b_maybe_save_final. pose proof same_ck as K. pose proof q_save_now as W. destruct (f_checkpointing F') eqn:C'; [|rewrite K by auto; bs].
  destruct (f_checkpointing F) eqn:C0.
  - getvo. destruct G5 as (-> & -> & _); [congruence|]. bs. apply W; auto.
  - intros s t H. pose proof H as ((bt & par & cp & it & rf & un & sd & He & G1 & G2 & _) & _).
    unfold bind, the_oqnlp, get, ret. cbn. rewrite He. cbn. rewrite G2 by congruence. cbn. auto.
Qed.

(** ** Resuming *)
Definition reads (c c' : bytes) : Prop :=
  match b_decode F c, b_decode F' c' with
  | None, None => True
  | Some cp, Some cp' => alike_checkpoint cp cp' /\ (f_rayon F = f_rayon F' -> cp' = cp) /\ (f_rayon F <> f_rayon F' -> cp_parallel cp' = false)
  | _, _ => False
  end.
Context (Hr : f_checkpointing F = true -> forall c c', C c c' -> reads c c').
Lemma lookup_alike : forall n l l', Forall2 (fun x x' : fname * bytes => fst x' = fst x /\ C (snd x) (snd x')) l l' ->
  match lookup n l, lookup n l' with Some c, Some c' => C c c' | None, None => True | _, _ => False end.
Proof.
  intros n l l' H. induction H as [|[k v] [k' v'] l l' [H1 H2] H IH]; cbn; [exact I|]. cbn in H1, H2. subst. destruct (bytes_eqb k n); auto.
Qed.
Lemma names_alike : forall l l', Forall2 (fun x x' : fname * bytes => fst x' = fst x /\ C (snd x) (snd x')) l l' ->
  map (fun kv : fname * bytes => string_of_list_ascii (fst kv)) l' = map (fun kv : fname * bytes => string_of_list_ascii (fst kv)) l.
Proof. intros l l' H. induction H as [|x x' l l' [H1 H2] H IH]; cbn [map]; [auto|]. rewrite H1, IH. reflexivity. Qed.
Lemma d_read_dir : dsim eq (fs_read_dir E) (fs_read_dir E).
Proof.
  unfold fs_read_dir. eapply sim_bind; [apply d_next|]. intros r ? <-. destruct r; try apply sim_fail.
  eapply sim_bind; [apply sim_get|]. intros d d' (H1 & H2). apply sim_ret. rewrite H1. 
  do 2 f_equal. symmetry. exact (names_alike _ _ H2).
Qed.
Lemma d_find : forall c, dsim eq (find_latest E c) (find_latest E c).
Proof.
  intro c. unfold find_latest. eapply sim_bind; [apply d_read_dir|]. intros l ? <-. eapply sim_bind; [apply sim_of_result, vrel_eq|].
  intros r ? <-. destruct r; [apply sim_ret; auto|apply sim_fail].
Qed.
Lemma d_exists : forall c, dsim eq (checkpoint_exists E c) (checkpoint_exists E c).
Proof.
  intro c. unfold checkpoint_exists. destruct (cc_keep_all c).
  - intros d d' H. destruct (d_find c d d' H) as [K1 K2]. destruct (find_latest E c d) as [[f|e|] d1], (find_latest E c d') as [[f'|e'|] d1']; cbn in *; try contradiction; auto.
  - eapply sim_bind; [apply sim_get|]. intros d d' (H1 & H2). apply sim_ret. pose proof (lookup_alike (file_name c 0) _ _ H2) as L.
    destruct (lookup _ (d_files d)), (lookup _ (d_files d')); try contradiction; reflexivity.
Qed.
Definition both_read (cp cp' : checkpoint) : Prop :=
  alike_checkpoint cp cp' /\ (f_rayon F = f_rayon F' -> cp' = cp) /\ (f_rayon F <> f_rayon F' -> cp_parallel cp' = false).
Lemma d_load : f_checkpointing F = true -> forall c, dsim both_read (b_load_latest F E c) (b_load_latest F' E c).
Proof.
  intros Ht c. unfold b_load_latest. eapply sim_bind with (V := eq).
  - destruct (cc_keep_all c); [apply d_find|apply sim_ret; auto].
  - intros f ? <-. unfold b_load_from_path. eapply sim_bind; [apply sim_get|]. intros d d' (H1 & H2).
    pose proof (lookup_alike f _ _ H2) as L. destruct (lookup _ (d_files d)), (lookup _ (d_files d')); try contradiction; [|apply sim_fail].
    eapply sim_bind; [apply d_next|]. intros r ? <-. destruct r; try apply sim_fail.
    specialize (Hr Ht _ _ L). unfold reads in Hr. destruct (b_decode F b), (b_decode F' b0); try contradiction; [apply sim_ret; exact Hr|apply sim_fail].
Qed.
Lemma q_restore : f_checkpointing F = f_checkpointing F' -> forall cp cp', both_read cp cp' ->
  sim eq (upd (b_restored F cp)) (upd (b_restored F' cp')).
Proof.
  clear Hw Hr. intros Hs cp cp' (K1 & K2 & K3). apply sim_modify. intros s t (H1 & H2). split; [|exact H2]. clear H2. cbn.
  destruct H1 as (bt & par & cpc & it & rf & un & sd & -> & G1 & G2 & G3 & G4 & G5 & G6). destruct (G5 Hs) as (-> & -> & -> & -> & ->).
  unfold alike_checkpoint in K1. decompose [and] K1. clear K1. set (o := s_o s) in *. clearbody o.
  destruct (f_rayon F) eqn:R1; destruct (f_rayon F') eqn:R2.
  - rewrite (K2 eq_refl). unfold b_restored. rewrite R1, R2. do 7 eexists. split; [unfold restored, repl; red_o; reflexivity|].
    rewrite Hs. cbn. intuition congruence.
  - discriminate (Hray eq_refl).
  - unfold b_restored. rewrite R1, R2. do 7 eexists. split; [unfold restored, repl, set_o_batch, set_o_parallel; red_o; f_equal; eauto; congruence|].
    rewrite Hs, R1, R2. cbn. intuition congruence.
  - rewrite (K2 eq_refl). destruct (G3 eq_refl) as [-> ->]. unfold b_restored. rewrite R1, R2. do 7 eexists.
    split; [unfold restored, repl, set_o_batch, set_o_parallel; red_o; reflexivity|].
    rewrite Hs. cbn. intuition congruence.
Qed.
Lemma b_resume : sim (fun a b => a = b /\ (f_checkpointing F <> f_checkpointing F' -> a = false)) (b_try_resume F E) (b_try_resume F' E).
Proof.
  clear Hw.
  pose proof same_ck as K. pose proof d_load as DL. pose proof q_restore as QR.
  unfold b_try_resume. destruct (f_checkpointing F') eqn:C'.
  - destruct (f_checkpointing F) eqn:C0.
    + getvo. destruct G5 as (-> & -> & _); [congruence|]. destruct (o_cp o) as [c|]; [|apply sim_ret; auto].
      destruct (cc_auto_resume c); [|apply sim_ret; auto]. eapply sim_bind; [apply q_on_disk, d_exists|]. intros ex ? <-.
      destruct ex; [|apply sim_ret; auto]. eapply sim_bind; [apply q_on_disk, DL; auto|]. intros cp cp' Hcp.
      eapply sim_bind; [apply QR; auto|]. intros ? ? _. apply sim_ret. split; [reflexivity|congruence].
    + intros s t H. pose proof H as ((bt & par & cp & it & rf & un & sd & He & G1 & G2 & _) & _).
      unfold bind, the_oqnlp, get, ret. cbn. rewrite He. cbn. rewrite G2 by congruence. cbn. auto.
  - rewrite K by auto. apply sim_ret. auto.
Qed.

(** ** Scatter search *)
Definition srel (s t : ss) : Prop := exists par, t = ss_set_parallel par s /\
  (f_rayon F = f_rayon F' -> par = ss_parallel s) /\ (f_rayon F <> f_rayon F' -> par = false).
Notation ssim := (SimP.sim (E := ss_error) srel).
Lemma s_mod : forall f, (forall par s, f (ss_set_parallel par s) = ss_set_parallel par (f s)) ->
  (forall s, ss_parallel (f s) = ss_parallel s) -> ssim eq (modify f) (modify f).
Proof.
  intros f H H'. apply sim_modify. intros s t (par & -> & H1 & H2). exists par. split; [apply H|]. rewrite H'. auto.
Qed.
Ltac ss1 :=
  match goal with
  | |- SimP.sim _ _ (bind get _) _ => eapply sim_bind; [apply sim_get|]; intros ? ? (? & -> & ? & ?);
      cbn [ss_params ss_ref ss_objs ss_lower ss_upper ss_rng ss_parallel ss_observer ss_custom ss_ctx ss_log ss_set_parallel] in *
  | |- SimP.sim _ _ (bind _ _) _ => eapply sim_bind with (V := eq); [|intros ? ? <-]
  | |- SimP.sim _ _ (ret _) _ => apply sim_ret; auto
  | |- SimP.sim _ _ (fail _) _ => apply sim_fail
  | |- SimP.sim _ _ panic _ => apply sim_panic
  | |- SimP.sim _ _ (modify _) _ => apply s_mod; reflexivity
  | |- SimP.sim _ _ (ss_obs _) _ => apply s_mod; reflexivity
  | |- SimP.sim _ _ (unwrap _) _ => apply sim_unwrap
  | |- SimP.sim _ _ (of_result _) _ => apply sim_of_result; apply vrel_eq
  | |- SimP.sim _ _ (let _ := _ in _) _ => cbv zeta
  | |- SimP.sim _ _ (let '(_, _) := ?x in _) _ => destruct x
  | |- SimP.sim _ _ (if ?b then _ else _) _ => destruct b
  | |- SimP.sim _ _ (match ?x with _ => _ end) _ => destruct x
  end.
Ltac sst := repeat ss1.
Lemma s_callback : ssim eq (ss_callback E) (ss_callback E).
Proof. unfold ss_callback. sst. Qed.
Lemma s_stratified : forall n, ssim eq (generate_stratified_samples E n) (generate_stratified_samples E n).
Proof. intro n. unfold generate_stratified_samples. sst. Qed.
Lemma s_refill : forall pop cs fuel a l, ssim eq (refill E pop cs fuel a l) (refill E pop cs fuel a l).
Proof.
  intros pop cs. induction fuel as [|fuel IH]; intros a l; simpl; [sst|]. destruct (_ <? _); [|sst].
  eapply sim_bind; [apply s_stratified|]. intros ? ? <-. apply IH.
Qed.
(** what the two builds do with their switches comes to the same *)
Definition switches (par par' : bool) : Prop :=
  (f_rayon F = f_rayon F' -> par' = par) /\ (f_rayon F <> f_rayon F' -> par' = false).
Lemma switch_if : forall A (a b c d : A) par par', switches par par' -> b = d ->
  (if f_rayon F then if par then a else b else d) = (if f_rayon F' then if par' then a else b else d).
Proof.
  intros A a b c d par par' [H1 H2] ->. destruct (f_rayon F) eqn:H; destruct (f_rayon F') eqn:H'; auto.
  - rewrite H1 by congruence. auto.
  - discriminate (Hray eq_refl).
  - rewrite H2 by congruence. auto.
Qed.
Lemma e_min : forall par par' t p refs, switches par par' -> b_min_distance F par t p refs = b_min_distance F' par' t p refs.
Proof. intros. unfold b_min_distance, min_distance. apply switch_if; auto. exact f0. Qed.
Lemma e_argmax : forall par par' t ds, switches par par' -> b_argmax F par t ds = b_argmax F' par' t ds.
Proof.
  intros par par' t ds H. unfold b_argmax, argmax.
  pose proof (switch_if _ (option_map fst (tree_reduce_with (pick_max cmp_snd) t (enumerate ds))) _ None _ par par' H (eq_refl (option_map fst (max_by cmp_snd (enumerate ds))))) as K.
  destruct (f_rayon F), (f_rayon F'), par, par'; exact K.
Qed.
Lemma e_greedy : forall par par' ctx n refs cands ds, switches par par' ->
  b_greedy F E ctx par n refs cands ds = b_greedy F' E ctx par' n refs cands ds.
Proof.
  intros par par' ctx n refs cands ds H. revert refs cands ds. induction n as [|n IH]; intros refs cands ds; [reflexivity|].
  cbn [b_greedy]. rewrite (e_argmax par par') by auto. destruct (b_argmax F' _ _ _) as [i|]; [|reflexivity].
  destruct (swap_remove i cands) as [[? ?]|]; [|reflexivity]. destruct (swap_remove i ds) as [[? ?]|]; [|reflexivity]. apply IH.
Qed.
Lemma s_diversify : forall refs cs, ssim eq (b_diversify F E refs cs) (b_diversify F' E refs cs).
Proof.
  intros. unfold b_diversify. eapply sim_bind; [apply sim_get|]. intros s ? (par & -> & H1 & H2).
  cbn [ss_params ss_ref ss_objs ss_lower ss_upper ss_rng ss_parallel ss_observer ss_custom ss_ctx ss_log ss_set_parallel] in *.
  cbv zeta. eapply sim_bind; [apply s_stratified|]. intros c ? <-.
  eapply sim_bind with (V := eq).
  - destruct (match cs with [] => true | _ => false end); [sst|]. eapply sim_bind; [apply s_refill|]. intros [c1 n] ? <-. sst.
  - intros c2 ? <-. assert (Hs : switches (ss_parallel s) par) by (split; auto).
    rewrite (e_greedy (ss_parallel s) par) by auto.
    rewrite (map_ext _ (fun ic => b_min_distance F' par (e_sched E [ss_ctx s; 0; fst ic]) (snd ic) refs)); [sst|].
    intro ic. apply e_min; auto.
Qed.
Lemma s_init : ssim eq (b_initialize F E) (b_initialize F' E).
Proof.
  unfold b_initialize. eapply sim_bind; [apply sim_get|]. intros s ? (par & -> & H1 & H2).
  cbn [ss_params ss_ref ss_objs ss_lower ss_upper ss_rng ss_parallel ss_observer ss_custom ss_ctx ss_log ss_set_parallel] in *.
  cbv zeta. eapply sim_bind; [apply s_diversify|]. intros refs ? <-.
  match goal with |- SimP.sim _ _ (let '(_, _) := ?x in _) (let '(_, _) := ?y in _) => assert (K : x = y) end.
  { destruct (f_rayon F) eqn:H; destruct (f_rayon F') eqn:H'; auto.
    - rewrite H1 by congruence. auto.
    - discriminate (Hray eq_refl).
    - rewrite H2 by congruence. auto. }
  rewrite K. sst.
Qed.
Lemma s_trials : ssim eq (generate_trial_points E) (generate_trial_points E).
Proof. unfold generate_trial_points. sst. Qed.
Lemma e_threshold : forall s par, switches (ss_parallel s) par -> b_dist_threshold F E s = b_dist_threshold F' E (ss_set_parallel par s).
Proof.
  intros s par H. unfold b_dist_threshold. cbn [ss_ref ss_parallel ss_ctx ss_set_parallel]. cbv zeta. destruct (_ <? 2); [reflexivity|].
  destruct (all_some _) as [ds|]; [|reflexivity]. do 3 f_equal. apply switch_if; auto. exact f0.
Qed.
Lemma s_update : forall l, ssim eq (b_update F E l) (b_update F' E l).
Proof.
  intro l. unfold b_update. destruct (match l with [] => true | _ => false end); [sst|].
  eapply sim_bind; [apply sim_get|]. intros s ? (par & -> & H1 & H2). cbv zeta.
  rewrite <- (e_threshold s par) by (split; auto).
  cbn [ss_params ss_ref ss_objs ss_lower ss_upper ss_rng ss_parallel ss_observer ss_custom ss_ctx ss_log ss_set_parallel] in *. sst.
Qed.
Lemma s_best : ssim eq (b_best_solution F E) (b_best_solution F' E).
Proof.
  unfold b_best_solution. eapply sim_bind; [apply sim_get|]. intros s ? (par & -> & H1 & H2). cbv zeta.
  cbn [ss_params ss_ref ss_objs ss_lower ss_upper ss_rng ss_parallel ss_observer ss_custom ss_ctx ss_log ss_set_parallel] in *.
  rewrite (switch_if _ _ _ None _ (ss_parallel s) par) by (auto; split; auto). sst.
Qed.
Lemma s_run : ssim eq (b_ss_run F E) (b_ss_run F' E).
Proof.
  unfold b_ss_run. eapply sim_bind; [apply s_init|intros ? ? _]. ss1; [sst|]. ss1; [apply s_callback|]. ss1. ss1; [sst|]. ss1; [apply s_callback|].
  eapply sim_bind; [apply s_trials|intros tr ? <-]. eapply sim_bind; [apply s_update|intros ? ? _]. ss1. ss1; [sst|]. ss1; [apply s_callback|].
  eapply sim_bind; [apply s_best|intros ? ? <-]. sst.
Qed.
Lemma q_stage1_init : forall o o' t, vo o o' -> vrel srel (b_stage1_init F E o t) (b_stage1_init F' E o' t).
Proof.
  intros o o' t (bt & par & cp & it & rf & un & sd & -> & G1 & G2 & G3 & G4 & _). unfold b_stage1_init. red_o.
  change (observes1 (repl bt par cp it rf un sd o)) with (observes1 o).
  destruct (ss_new E (o_params o) t) as [s0|e|]; cbn; auto.
  assert (K : srel (if f_rayon F then ss_set_parallel (o_parallel o) s0 else s0) (if f_rayon F' then ss_set_parallel par s0 else s0)).
  { destruct (f_rayon F) eqn:H; destruct (f_rayon F') eqn:H'.
    - destruct G3 as [_ ->]; auto. exists (o_parallel o). cbn. split; [reflexivity|]. split; auto. congruence.
    - discriminate (Hray eq_refl).
    - rewrite G4 by congruence. exists false. split; [reflexivity|]. split; [congruence|auto].
    - exists (ss_parallel s0). destruct s0. cbn. split; [reflexivity|]. split; auto. congruence. }
  destruct K as (par' & -> & K1 & K2). exists par'. set (s1 := if f_rayon F then _ else _) in *. clearbody s1.
  destruct (o_custom o), (observes1 o); cbn; auto.
Qed.
Lemma sim_ref : forall refs, sim eq (if f_checkpointing F then upd (set_o_ref (Some refs)) else ret tt) (if f_checkpointing F' then upd (set_o_ref (Some refs)) else ret tt).
Proof.
  clear Hw Hr. intros refs s t ((bt & par & cp & it & rf & un & sd & He & G1 & G2 & G3 & G4 & G5 & G6) & H2 & H3 & H4).
  destruct (f_checkpointing F) eqn:C0; destruct (f_checkpointing F') eqn:C'; cbn; (split; [reflexivity|]).
  - split; [|auto]. exists bt, par, cp, it, (Some refs), un, sd. cbn. rewrite He. rewrite C0, C' in *. split; [reflexivity|]. intuition.
  - exfalso. discriminate (Hck eq_refl).
  - split; [|auto]. exists bt, par, cp, it, (Some refs), un, sd. cbn. rewrite He. rewrite C0, C' in *. split; [reflexivity|]. intuition; discriminate.
  - split; [|auto]. exists bt, par, cp, it, rf, un, sd. rewrite C0, C' in *. auto 10.
Qed.
Ltac bs3 := repeat first [ apply b_process | apply b_callback | apply b_callback_at | apply b_save | apply b_save_final
  | apply b_obs_iteration | apply b_obs_search | apply b_count | apply b_threshold | apply b_final | apply b_end1 | apply b_begin2
  | apply sim_ref | bs1 ].
Lemma b_stage1 : sim eq (b_stage1_run F E) (b_stage1_run F' E).
Proof.
  unfold b_stage1_run, stage1_enter. eapply sim_bind; [apply b_oqnlp|]. intros o o' Ho. bs1; [bs|].
  pose proof (q_stage1_init o o' a Ho) as HI. destruct Ho as (bt & par & cp & it & rf & un & sd & -> & _).
  destruct (b_stage1_init F E o a) as [s3|e|], (b_stage1_init F' E _ a) as [t3|e'|]; simpl in HI; try contradiction; subst; try (bs; fail).
  destruct (s_run s3 t3 HI) as [K1 K2]. change (observes1 (repl bt par cp it rf un sd o)) with (observes1 o).
  destruct (b_ss_run F E s3) as [res sf], (b_ss_run F' E t3) as [res' tf]. simpl in K1, K2. apply vrel_eq_inv in K1. subst res'.
  destruct K2 as (par' & -> & _). cbn [ss_observer ss_log ss_set_parallel].
  bs3.
Qed.
End Builds.

Ltac red_o := cbn [repl o_params o_merit o_df o_solver_type o_solver_config o_set o_max_time o_batch o_parallel o_target
  o_exclude o_cp o_iteration o_ref o_unchanged o_seed o_observer o_custom o_abs_tol o_rel_tol] in *.
Section Stage2.
Context (F F' : features) (E : env) (P : params).
Context (Hray : f_rayon F = true -> f_rayon F' = true)
        (Hck : f_checkpointing F = true -> f_checkpointing F' = true)
        (Hadd : f_checkpointing F <> f_checkpointing F' -> forall i, i < p_iterations P -> add_u64 E (p_seed P) (N.of_nat i) <> None).
Context (C : bytes -> bytes -> Prop) (Hw : f_checkpointing F = true -> forall cp cp' k, alike_checkpoint cp cp' ->
  C (firstn k (b_enc_checkpoint F cp)) (firstn k (b_enc_checkpoint F' cp'))).
Notation R := (alikes F F' P false C).
Notation sim := (SimP.sim R).
Ltac blind_tac := split; [reflexivity|intro; cbn; tauto].
Ltac bs1 :=
  match goal with
  | |- SimP.sim _ _ (bind the_oqnlp _) _ => eapply sim_bind; [apply b_oqnlp|]; let o := fresh "o" in
      intros o ? (? & ? & ? & ? & ? & ? & ? & -> & ? & ? & ? & ? & ? & ?);
      repeat match goal with
        | |- context [target_reached E (repl ?a ?b ?c ?d ?e ?f ?g ?o)] => change (target_reached E (repl a b c d e f g o)) with (target_reached E o)
        | |- context [observes2 (repl ?a ?b ?c ?d ?e ?f ?g ?o)] => change (observes2 (repl a b c d e f g o)) with (observes2 o)
        | |- context [should_start_local (repl ?a ?b ?c ?d ?e ?f ?g ?o)] => change (should_start_local (repl a b c d e f g o)) with (should_start_local o)
        end; red_o
  | |- SimP.sim _ _ (bind _ _) _ => eapply sim_bind with (V := eq); [|intros ? ? <-]
  | |- SimP.sim _ _ (ret _) _ => apply sim_ret; auto
  | |- SimP.sim _ _ (fail _) _ => apply sim_fail
  | |- SimP.sim _ _ panic _ => apply sim_panic
  | |- SimP.sim _ _ (upd _) _ => apply b_upd; blind_tac
  | |- SimP.sim _ _ (obs _) _ => apply b_obs
  | |- SimP.sim _ _ (emit _) _ => apply b_emit
  | |- SimP.sim _ _ tick _ => apply b_tick
  | |- SimP.sim _ _ (of_solver _) _ => apply b_of_solver
  | |- SimP.sim _ _ (unwrap _) _ => apply sim_unwrap
  | |- SimP.sim _ _ (of_result _) _ => apply sim_of_result; apply vrel_eq
  | |- SimP.sim _ _ (let _ := _ in _) _ => cbv zeta
  | |- SimP.sim _ _ (let '(_, _) := ?x in _) _ => destruct x
  | |- SimP.sim _ _ (if ?b then _ else _) _ => destruct b
  | |- SimP.sim _ _ (match ?x with _ => _ end) _ => destruct x
  end.
Ltac bs3 := repeat first [ apply b_process | apply b_callback | apply b_callback_at | apply (b_save F F' E P false C Hck Hw) 
  | apply (b_save_final F F' E P false C Hck Hw)
  | apply b_obs_iteration | apply b_obs_search | apply b_count | apply b_threshold | apply b_final | apply b_end1 | apply b_begin2
  | bs1 ].
Definition ok (i : nat) : Prop := f_checkpointing F <> f_checkpointing F' -> i < p_iterations P.
Lemma q_begin : forall i u, ok i -> sim eq (b_begin_iteration F E i u) (b_begin_iteration F' E i u).
Proof.
  intros i u Hi. unfold b_begin_iteration. eapply sim_bind with (V := eq); [|intros ? ? _; apply b_emit].
  intros s t ((bt & par & cp & it & rf & un & sd & He & G1 & G2 & G3 & G4 & G5 & G6) & H2 & H3 & H4).
  destruct (f_checkpointing F) eqn:C0; destruct (f_checkpointing F') eqn:C'.
  - cbn. unfold bind, upd, modify, the_oqnlp, get, ret, unwrap. cbn. rewrite He. cbn. destruct G5 as (-> & -> & -> & -> & ->); [auto|].
    destruct (add_u64 _ _ _) as [x|]; cbn; (split; [auto|]); (split; [|auto]).
    + exists bt, par, (o_cp (s_o s)), i, (o_ref (s_o s)), u, x. cbn. rewrite C0, C'. split; [reflexivity|]. intuition.
    + exists bt, par, (o_cp (s_o s)), i, (o_ref (s_o s)), u, (o_seed (s_o s)). cbn. rewrite C0, C'. split; [reflexivity|]. intuition.
  - discriminate (Hck eq_refl).
  - cbn. unfold bind, upd, modify, the_oqnlp, get, ret, unwrap. cbn. rewrite He. cbn. rewrite G1 by discriminate.
    destruct (add_u64 _ _ _) as [x|] eqn:Ha; [|exfalso; apply (Hadd ltac:(discriminate) i (Hi ltac:(congruence)) Ha)]. cbn. split; [auto|]. split; [|auto].
    exists bt, par, cp, i, rf, u, x. cbn. rewrite C0, C'. split; [reflexivity|]. intuition; discriminate.
  - cbn. split; [reflexivity|]. split; [|auto]. exists bt, par, cp, it, rf, un, sd. rewrite C0, C'. auto 10.
Qed.
Definition below (l : list (nat * point)) : Prop := Forall (fun b => ok (fst b)) l.
Definition below3 (l : list (nat * point * f64)) : Prop := Forall (fun b => ok (fst (fst b))) l.
Lemma decides : forall o o' f (l : list (nat * point * f64)), vo F F' P false o o' ->
  Forall2 alike_event (map (fun c => EvDecide (fst (fst c)) (snd (fst c)) (snd c) o (f c)) l)
                      (map (fun c => EvDecide (fst (fst c)) (snd (fst c)) (snd c) o' (f c)) l).
Proof. intros o o' f l H. induction l; cbn; constructor; auto. cbn. repeat (split; [reflexivity|]). eapply vo_alike; eauto. Qed.
Lemma q_one : forall objs i p u, ok i -> sim eq (b_process_one F E objs i p u) (b_process_one F' E objs i p u).
Proof.
  intros objs i p u Hi. unfold b_process_one, emit_eval. bs1; [apply q_begin; auto|]. do 3 (bs1; [bs3|]). bs1; [bs3|].
  eapply sim_bind; [apply b_oqnlp|]. intros o o' Ho. pose proof (decides o o' (fun c => should_start_local o (snd (fst c)) (snd c)) [(i, p, a2)] Ho) as D. cbn in D.
  destruct Ho as (bt & par & cp & it & rf & un & sd & -> & _).
  change (should_start_local (repl bt par cp it rf un sd o)) with (should_start_local o).
  change (observes2 (repl bt par cp it rf un sd o)) with (observes2 o). red_o. cbv zeta.
  bs1; [apply b_emits, D|]. bs3.
Qed.
Lemma q_seq : forall start res objs b u, below b ->
  sim eq (b_batch_sequential F E start res objs b u) (b_batch_sequential F' E start res objs b u).
Proof.
  intros start res objs b; induction b as [|[i p] b IH]; intros u Hb; cbn [b_batch_sequential]; [bs1|]. inversion Hb; subst. cbn [fst] in *.
  destruct (res && (i <? start)); [apply IH; auto|]. eapply sim_bind; [apply q_one; auto|]. intros [u' stop] ? <-.
  destruct stop; [bs1|apply IH; auto].
Qed.
Lemma q_quicks : forall l u, below3 l -> sim eq (b_quicks F E l u) (b_quicks F' E l u).
Proof.
  induction l as [|[[i p] v] l IH]; intros u H; cbn [b_quicks]; [bs1|]. inversion H; subst; cbn [fst] in *. unfold b_quick.
  bs1; [|apply IH; auto]. bs1; [apply q_begin; auto|]. bs3.
Qed.
Lemma q_par_results : forall l u, Forall (fun x => ok (fst (fst (fst x)))) l -> sim eq (b_par_results F E l u) (b_par_results F' E l u).
Proof.
  induction l as [|[[[i p] v] [x n]] l IH]; intros u H; cbn [b_par_results]; [bs1|]. inversion H; subst; cbn [fst] in *. unfold b_par_result.
  bs1; [bs1; [apply q_begin; auto|]; bs3|]. destruct a; [bs1|apply IH; auto].
Qed.
Lemma q_singles : forall l u, below3 l -> sim eq (b_singles F E l u) (b_singles F' E l u).
Proof.
  induction l as [|[[i p] v] l IH]; intros u H; cbn [b_singles]; [bs1|]. inversion H; subst; cbn [fst] in *. unfold b_single.
  bs1; [bs1; [apply q_begin; auto|]; bs3|]. destruct a; [bs1|apply IH; auto].
Qed.
Lemma collect_from : forall A B (f : A -> outcome oq_error B) pick l rs, par_collect pick (map f l) = Ok rs ->
  forall r, In r rs -> exists a, In a l /\ f a = Ok r.
Proof.
  intros A B f pick l rs H r Hr. unfold par_collect in H. destruct (existsb _ _); [discriminate|]. destruct (oc_errs _); [|discriminate].
  injection H as <-. unfold oc_vals in Hr. apply in_flat_map in Hr. destruct Hr as (x & Hx & Hr). apply in_map_iff in Hx. destruct Hx as (a & <- & Ha).
  exists a. split; auto. destruct (f a) as [b|e|]; cbn in Hr; try contradiction. destruct Hr as [->|[]]. reflexivity.
Qed.
Lemma q_par : f_rayon F = f_rayon F' -> forall start res objs b u, below b ->
  sim eq (b_batch_parallel F E start res objs b u) (b_batch_parallel F' E start res objs b u).
Proof.
  intros Hsame start res objs b u Hb. unfold b_batch_parallel. set (fb := if res then _ else _).
  assert (Hf : below fb). { subst fb. destruct res; auto. apply Forall_forall. intros x Hx. apply filter_In in Hx. destruct Hx as [Hx _]. eapply Forall_forall in Hb; eauto. }
  clearbody fb. destruct (match fb with [] => true | _ => false end); [bs1|].
  bs1; [bs3|]. bs1; [bs3|]. 
  destruct (par_collect (e_err_pick E [a0; 1]) _) as [results|e|] eqn:Hc;
    [|intros s t H; cbn; auto|intros s t H; cbn; auto].
  assert (Hr : below3 results).
  { apply Forall_forall. intros r Hr. destruct (collect_from _ _ _ _ _ _ Hc r Hr) as (x & Hx & Hv).
    eapply Forall_forall in Hf; [|exact Hx]. destruct (cand_objective _ _ _ _); try discriminate. injection Hv as <-. exact Hf. }
  eapply sim_bind with (V := fun x y => x = results /\ y = results); [intros s t H; cbn; auto|]. intros ? ? [-> ->].
  bs1; [bs3|]. eapply sim_bind; [apply b_oqnlp|]. intros o o' Ho. cbv zeta.
  pose proof (decides o o' (fun c => should_start_local o (snd (fst c)) (snd c)) results Ho) as D. 
  destruct Ho as (bt & par & cp & it & rf & un & sd & -> & _).
  change (should_start_local (repl bt par cp it rf un sd o)) with (should_start_local o).
  destruct (partition _ results) as [loc quick] eqn:Hp.
  assert (Hl : below3 loc /\ below3 quick).
  { split; apply Forall_forall; intros x Hx; eapply Forall_forall in Hr; try exact Hr; apply (elements_in_partition _ _ Hp x); auto. }
  destruct Hl as [Hl Hq]. bs1; [apply b_emits, D|]. bs1; [apply q_quicks; auto|].
  eapply sim_bind; [apply b_oqnlp|]. intros o2 ? (bt2 & par2 & cp2 & it2 & rf2 & un2 & sd2 & -> & _ & _ & G3 & _). red_o. 
  change (observes2 (repl bt2 par2 cp2 it2 rf2 un2 sd2 o2)) with (observes2 o2).
  destruct (G3 Hsame) as [_ ->]. bs1; [|bs1]. destruct (_ && _); [|apply q_singles; auto]. bs1; [bs3|].
  destruct (par_collect (e_err_pick E [a0; 2]) _) as [rs|e|] eqn:Hc2;
    [|intros s t H; cbn; auto|intros s t H; cbn; auto].
  eapply sim_bind with (V := fun x y => x = rs /\ y = rs); [intros s t H; cbn; auto|]. intros ? ? [-> ->].
  apply q_par_results. apply Forall_forall. intros r Hin. destruct (collect_from _ _ _ _ _ _ Hc2 r Hin) as (x & Hx & Hv).
  eapply Forall_forall in Hl; [|exact Hx]. destruct (lift_solver _); try discriminate. injection Hv as <-. exact Hl.
Qed.
Lemma q_loop : forall size start res objs l u, (f_rayon F <> f_rayon F' -> size = 1) -> Forall below l ->
  sim eq (b_loop F E size start res objs l u) (b_loop F' E size start res objs l u).
Proof.
  intros size start res objs l u Hs. revert u. induction l as [|b l IH]; intros u Hb; cbn [b_loop]; [bs1|]. inversion Hb; subst.
  bs1. bs1; [bs3|]. destruct a; [bs1|]. bs1; [bs1|].
  eapply sim_bind with (V := eq).
  - destruct (f_rayon F) eqn:R1; destruct (f_rayon F') eqn:R2.
    + destruct (1 <? size); [apply q_par; auto; congruence|apply q_seq; auto].
    + discriminate (Hray eq_refl).
    + rewrite Hs by discriminate. cbn. apply q_seq; auto.
    + apply q_seq; auto.
  - intros u' ? <-. bs1. bs1; [bs1|]. destruct a0; [bs1|]. apply IH; auto.
Qed.
Lemma weaken : forall s t, alikes F F' P true C s t -> alikes F F' P false C s t.
Proof.
  intros s t ((bt & par & cp & it & rf & un & sd & He & G1 & G2 & G3 & G4 & G5 & G6) & H). split; [|exact H].
  exists bt, par, cp, it, rf, un, sd. repeat (split; [assumption|]). discriminate.
Qed.
Lemma chunks_below : forall A (Q : A -> Prop) n fuel (l : list A), Forall Q l -> Forall (Forall Q) (chunks_fuel fuel n l).
Proof.
  intros A Q n. induction fuel as [|fuel IH]; intros l H; cbn; [constructor|]. destruct l as [|x l]; [constructor|].
  constructor.
  - apply Forall_forall. intros y Hy. eapply Forall_forall in H; [exact H|]. rewrite <- (firstn_skipn n). apply in_or_app. left. exact Hy.
  - apply IH. apply Forall_forall. intros y Hy. eapply Forall_forall in H; [exact H|]. rewrite <- (firstn_skipn n). apply in_or_app. right. exact Hy.
Qed.
Lemma enumerate_below : forall A (l : list A) k, Forall (fun b => fst b < k + List.length l) (enumerate_from k l).
Proof.
  intros A l. induction l as [|x l IH]; intro k; cbn; constructor; cbn; [lia|]. 
  eapply Forall_impl; [|apply IH]. cbn. intros; lia.
Qed.
Lemma b_size : forall o o' start, vo F F' P true o o' -> b_batch_size F E o start = b_batch_size F' E o' start /\
  (f_rayon F <> f_rayon F' -> b_batch_size F' E o' start = 1).
Proof.
  intros o o' start (bt & par & cp & it & rf & un & sd & -> & G1 & G2 & G3 & G4 & _). unfold b_batch_size, batch_size. red_o.
  destruct (f_rayon F) eqn:R1; destruct (f_rayon F') eqn:R2.
  - destruct G3 as [-> ->]; [congruence|]. split; [reflexivity|congruence].
  - discriminate (Hray eq_refl).
  - rewrite G4 by congruence. cbn. auto.
  - auto.
Qed.
Context (Hseed : f_checkpointing F <> f_checkpointing F' -> (p_seed P < u64_mod)%N).
Definition ends (A : Type) (m m' : OM A) : Prop := forall s t, alikes F F' P true C s t ->
  vrel eq (fst (m s)) (fst (m' t)) /\ R (snd (m s)) (snd (m' t)).
Lemma ends_bind : forall A B A' (V : A -> A' -> Prop) m m' (k : A -> OM B) k', SimP.sim (alikes F F' P true C) V m m' ->
  (forall a b, V a b -> ends B (k a) (k' b)) -> ends B (bind m k) (bind m' k').
Proof.
  intros A B A' V m m' k k' H1 H2 s t Hr. destruct (H1 s t Hr) as [G1 G2]. unfold bind.
  destruct (m s) as [[a|e|] s1], (m' t) as [[b|e'|] t1]; simpl in *; try contradiction; auto using weaken.
  apply H2; auto.
Qed.
Lemma ends_sim : forall A (m m' : OM A), sim eq m m' -> ends A m m'.
Proof. intros A m m' H s t Hr. apply H. apply weaken. exact Hr. Qed.
Lemma q_shuffle : forall o o' refs, vo F F' P true o o' -> SimP.sim (alikes F F' P true C) eq
  (if f_checkpointing F then
     seed <- unwrap (add_u64 E (p_seed (o_params o)) (N.of_nat (o_iteration o))) ;;
     upd (set_o_seed seed) ;;; ret (e_shuffle E (e_seed_from E seed) refs)
   else ret (e_shuffle E (e_seed_from E (p_seed (o_params o))) refs))
  (if f_checkpointing F' then
     seed <- unwrap (add_u64 E (p_seed (o_params o')) (N.of_nat (o_iteration o'))) ;;
     upd (set_o_seed seed) ;;; ret (e_shuffle E (e_seed_from E seed) refs)
   else ret (e_shuffle E (e_seed_from E (p_seed (o_params o'))) refs)).
Proof.
  intros o o' refs (bt & par & cp & it & rf & un & sd & -> & G1 & G2 & G3 & G4 & G5 & G6). red_o.
  assert (U : forall seed, SimP.sim (alikes F F' P true C) eq (if f_checkpointing F then upd (set_o_seed seed) else ret tt)
                                    (if f_checkpointing F' then upd (set_o_seed seed) else ret tt)).
  { clear -Hck. intros seed s t ((bt & par & cp & it & rf & un & sd & He & G1 & G2 & G3 & G4 & G5 & G6) & H2 & H3 & H4).
    destruct (f_checkpointing F) eqn:C0; destruct (f_checkpointing F') eqn:C'; cbn; (split; [reflexivity|]).
    - split; [|auto]. exists bt, par, cp, it, rf, un, seed. cbn. rewrite He. rewrite C0, C' in *. split; [reflexivity|]. intuition.
    - exfalso. discriminate (Hck eq_refl).
    - split; [|auto]. exists bt, par, cp, it, rf, un, seed. cbn. rewrite He. rewrite C0, C' in *. split; [reflexivity|]. intuition; discriminate.
    - split; [|auto]. exists bt, par, cp, it, rf, un, sd. rewrite C0, C' in *. auto 10. }
  destruct (f_checkpointing F) eqn:C0; destruct (f_checkpointing F') eqn:C'.
  - destruct G5 as (_ & -> & _); [congruence|]. eapply sim_bind; [apply sim_unwrap|]. intros seed ? <-.
    eapply sim_bind; [apply (U seed)|]. intros ? ? _. apply sim_ret. reflexivity.
  - discriminate (Hck eq_refl).
  - rewrite G6 by (auto; congruence). unfold add_u64. cbn [N.of_nat]. rewrite N.add_0_r, G1 by congruence.
    assert (X : (p_seed P <? u64_mod)%N = true) by (apply N.ltb_lt; apply Hseed; congruence). rewrite X. cbn [unwrap].
    intros s t H. destruct (U (p_seed P) s t H) as [U1 U2]. unfold bind, ret. cbn. cbn in U2. auto.
  - apply sim_ret. reflexivity.
Qed.
Lemma q_stage2 : forall res refs objs u, (f_checkpointing F <> f_checkpointing F' -> res = false) ->
  ends solset (b_stage2_run F E res refs objs u) (b_stage2_run F' E res refs objs u).
Proof.
  intros res refs objs u Hres. unfold b_stage2_run. eapply ends_bind; [apply b_begin2|]. intros ? ? _.
  eapply ends_bind; [apply b_oqnlp|]. intros o o' Ho. eapply ends_bind with (V := eq).
  { destruct res; [apply sim_ret; reflexivity|apply q_shuffle; auto]. }
  intros refs' ? <-. cbv zeta. apply ends_sim.
  set (start := if f_checkpointing F then if res then o_iteration o else 0 else 0).
  assert (S1 : (if f_checkpointing F' then if res then o_iteration o' else 0 else 0) = start).
  { subst start. destruct Ho as (bt & par & cp & it & rf & un & sd & -> & _ & _ & _ & _ & G5 & _). red_o.
    destruct (f_checkpointing F) eqn:C0; destruct (f_checkpointing F') eqn:C'; auto.
    - destruct res; auto. apply G5; congruence.
    - discriminate (Hck eq_refl).
    - rewrite Hres by congruence. reflexivity. }
  rewrite S1. clearbody start. destruct (b_size o o' start Ho) as [-> Hs]. destruct Ho as (bt & par & cp & it & rf & un & sd & -> & G1 & _). red_o.
  eapply sim_bind with (V := eq).
  - destruct (_ =? 0); [apply sim_panic|]. apply q_loop; [exact Hs|]. unfold chunks. apply chunks_below.
    apply Forall_forall. intros [i p] Hi D. cbn [fst]. rewrite G1 in Hi by exact D.
    assert (Hi2 : In (i, p) (enumerate (firstn (p_iterations P) refs'))) by (rewrite <- (firstn_skipn start); apply in_or_app; right; exact Hi).
    pose proof (enumerate_below _ (firstn (p_iterations P) refs') 0) as B. eapply Forall_forall in B; [|exact Hi2]. cbn in B. rewrite firstn_length in B. lia.
  - intros ? ? _. eapply sim_bind; [apply b_save_final; auto|]. intros ? ? _. apply b_final.
Qed.
Definition after_resume (G : features) (resumed : bool) : OM solset :=
  if resumed then
    if f_checkpointing G then
      o <- the_oqnlp ;;
      b_stage2_run G E true (match o_ref o with Some r => r | None => [] end) None (o_unchanged o)
    else panic
  else
    r <- b_stage1_run G E ;;
    match r with
    | None => final_set
    | Some (refs, objs) => b_stage2_run G E false refs (Some objs) 0
    end.
Lemma q_after : forall res, (f_checkpointing F <> f_checkpointing F' -> res = false) -> ends solset (after_resume F res) (after_resume F' res).
Proof.
  intros res Hres. unfold after_resume. destruct res.
  - assert (S : f_checkpointing F = f_checkpointing F') by (destruct (f_checkpointing F), (f_checkpointing F'); auto; discriminate Hres; congruence).
    enough (K : ends solset (o <- the_oqnlp ;; b_stage2_run F E true (match o_ref o with Some r => r | None => [] end) None (o_unchanged o))
                            (o <- the_oqnlp ;; b_stage2_run F' E true (match o_ref o with Some r => r | None => [] end) None (o_unchanged o))).
    { rewrite S. destruct (f_checkpointing F'); [exact K|apply ends_sim, sim_panic]. }
    eapply ends_bind; [apply b_oqnlp|]. intros o ? (bt & par & cp & it & rf & un & sd & -> & G1 & G2 & G3 & G4 & G5 & G6). red_o.
    destruct (G5 S) as (_ & _ & -> & -> & _). apply q_stage2. exact Hres.
  - eapply ends_bind; [apply b_stage1; auto|]. intros [[refs objs]|] ? <-; [apply q_stage2; auto|]. apply ends_sim, b_final.
Qed.
(** what the files hold before the run may be related more closely *)
Context (D : bytes -> bytes -> Prop) (HD : forall c c', D c c' -> C c c').
Context (Hr : f_checkpointing F = true -> forall c c', D c c' -> reads F F' c c').
Lemma weaken_files : forall z s t, alikes F F' P z D s t -> alikes F F' P z C s t.
Proof.
  intros z s t (H1 & (H2 & H3) & H4). split; [exact H1|]. split; [|exact H4]. split; [exact H2|].
  unfold alike_files in *. clear -H3 HD. induction H3 as [|x y l l' [K1 K2] K IH]; constructor; auto.
Qed.
Theorem q_run : forall s t, alikes F F' P true D s t ->
  vrel eq (fst (build_run F E s)) (fst (build_run F' E t)) /\ R (snd (build_run F E s)) (snd (build_run F' E t)).
Proof.
  intros s t H. change (build_run F E) with (bind (b_try_resume F E) (after_resume F)).
  change (build_run F' E) with (bind (b_try_resume F' E) (after_resume F')).
  destruct (b_resume F F' E P true D Hray Hck Hr s t H) as [K1 K2]. unfold bind.
  destruct (b_try_resume F E s) as [[a|e|] s1], (b_try_resume F' E t) as [[b|e'|] t1]; cbn [fst snd] in *; try contradiction; subst.
  - destruct K1 as [<- K1]. apply q_after; [exact K1|]. apply weaken_files. exact K2.
  - split; [exact K1|]. apply weaken, weaken_files. exact K2.
  - split; [exact I|]. apply weaken, weaken_files. exact K2.
Qed.
End Stage2.
