(** * Absence of panics in runs (C63) *)
From Coq Require Import ZArith NArith List Bool Arith Lia String Ascii Permutation.
From Verif Require Import F64 Base Builders Types Filters Runner Observer Env EnvSpec
  ScatterSearch Codec Checkpoint Oqnlp Spec SpecStage1 SpecStage2 SpecObserver SpecCheckpoint SpecPanic SpecSession BasicP Wp Actions RunP SetP FrameP
  EmitsP FilterP CountP HoareP SeqP SeqP2 SeqP3 CheckpointP Stage1Q.
Import ListNotations.

Lemma entry_no_panic name f : entry_iteration name f <> Panic.
Proof.
  unfold entry_iteration. destruct (valid_utf8 f && starts_with (pattern name) f && ends_with dot_bin f) eqn:B; [|discriminate].
  apply andb_prop in B as [B B3]. apply andb_prop in B as [B1 B2].
  apply starts_inv in B2 as [r Hr]. apply ends_inv in B3 as [q Hq].
  assert (L : List.length (pattern name) <= List.length f - 4).
  { destruct (Nat.le_gt_cases (List.length (pattern name)) (List.length f - 4)) as [|G]; auto. exfalso.
    assert (Lf : List.length f = List.length q + 4) by (rewrite Hq, app_length; reflexivity).
    assert (Lf' : List.length f = List.length (pattern name) + List.length r) by (rewrite Hr, app_length; reflexivity).
    assert (P : List.length (pattern name) = S (List.length (str_bytes name))).
    { unfold pattern. rewrite app_length. simpl. lia. }
    assert (A : nth_error f (List.length (str_bytes name)) = Some "_"%char).
    { rewrite Hr. unfold pattern. rewrite <- app_assoc, nth_error_app2 by lia. rewrite Nat.sub_diag. reflexivity. }
    rewrite Hq, nth_error_app2 in A by lia.
    set (k := List.length (str_bytes name) - List.length q) in A.
    assert (K : k < 4) by (unfold k; lia). clearbody k.
    do 4 (destruct k as [|k]; [discriminate A|]). lia. }
  unfold slice. destruct (Nat.leb_spec (List.length (pattern name)) (List.length f - 4)); [|lia].
  destruct (Nat.leb_spec (List.length f - 4) (List.length f)); [|lia]. discriminate.
Qed.
Lemma latest_no_panic name l : forall n p, latest_loop name l n p <> Panic.
Proof.
  induction l as [|f l IH]; intros n p; simpl; [discriminate|].
  pose proof (entry_no_panic name f). destruct (entry_iteration name f) as [[i|]|e|]; try discriminate; auto.
  destruct (n <? i)%N; auto.
Qed.
(** ** Disk operations *)
Definition np {S X A} (m : M S X A) : Prop := forall s, fst (m s) <> Panic.
Lemma np_bind S X A B (m : M S X A) (k : A -> M S X B) : np m -> (forall a, np (k a)) -> np (bind m k).
Proof.
  intros H1 H2 s. unfold bind. specialize (H1 s). destruct (m s) as [[a|e|] s1]; simpl in *; [apply H2|discriminate|auto].
Qed.
Lemma np_ret S X A (a : A) : @np S X A (ret a). Proof. intros s. discriminate. Qed.
Lemma np_fail S X A (e : X) : @np S X A (fail e). Proof. intros s. discriminate. Qed.
Lemma np_result S X A (r : outcome X A) : r <> Panic -> @np S X A (of_result r).
Proof. intros H s. exact H. Qed.
Lemma np_io E : np (next_io E). Proof. intros s. discriminate. Qed.
Lemma np_get S X : @np S X S get. Proof. intros s. discriminate. Qed.
Lemma np_modify S X f : @np S X unit (modify f). Proof. intros s. discriminate. Qed.
Lemma np_find E c : np (find_latest E c).
Proof.
  unfold find_latest, fs_read_dir. apply np_bind.
  - apply np_bind; [apply np_io|intros [| |]]; try apply np_fail. apply np_bind; [apply np_get|intro; apply np_ret].
  - intro l. apply np_bind; [apply np_result, latest_no_panic|]. intros [f|]; [apply np_ret|apply np_fail].
Qed.
Lemma np_load E f : np (load_from_path E f).
Proof.
  unfold load_from_path. apply np_bind; [apply np_get|intro d]. destruct (lookup f (d_files d)); [|apply np_fail].
  apply np_bind; [apply np_io|intros [| |]]; try apply np_fail. destruct (decode_checkpoint _); [apply np_ret|apply np_fail].
Qed.
Lemma np_load_latest E c : np (load_latest E c).
Proof. unfold load_latest. apply np_bind; [destruct (cc_keep_all c); [apply np_find|apply np_ret]|intro; apply np_load]. Qed.
Lemma np_exists E c : np (checkpoint_exists E c).
Proof.
  unfold checkpoint_exists. destruct (cc_keep_all c).
  - intros d. pose proof (np_find E c d) as H. destruct (find_latest E c d) as [[a|e|] d']; simpl in *; try discriminate. auto.
  - apply np_bind; [apply np_get|intro; apply np_ret].
Qed.
Lemma np_save E c cp i : np (save_checkpoint E c cp i).
Proof.
  unfold save_checkpoint, fs_write, set_files. apply np_bind; [|intro; apply np_ret].
  apply np_bind; [apply np_io|intros [| |]]; [apply np_modify|apply np_fail|].
  apply np_bind; [apply np_modify|intro; apply np_fail].
Qed.

(** ** Local solvers *)
Lemma np_step X A mk c (k : outcome ls_error A) : k <> Panic -> Runner.step X mk c k <> Panic.
Proof. unfold Runner.step. destruct (ext_ok X c); [auto|discriminate]. Qed.
Lemma np_ls X A mk l (k : ls_job -> outcome ls_error A) : 2 <= List.length (line_search_bounds l) ->
  (forall j, k j <> Panic) -> build_ls X mk l k <> Panic.
Proof.
  intros L H. destruct l as [c1 c2 w b|d s e t g n b]; simpl in *; destruct b as [|lo [|hi b]]; simpl in L; try lia;
    repeat apply np_step; simpl; repeat apply np_step; apply H.
Qed.
Lemma np_exec X P t j : exec X P t j <> Panic.
Proof. unfold exec. destruct (argmin_run X P j) as [[x|] c n|r]; discriminate. Qed.
Lemma np_solver X P ty cfg x t : two_bounds cfg -> solve_with_tracking X P ty cfg x t <> Panic.
Proof.
  intros H. destruct ty; simpl; destruct cfg; simpl in *; try discriminate.
  - apply np_ls; auto. intro j. repeat apply np_step. destruct l1_coefficient; [apply np_step|]; apply np_exec.
  - repeat apply np_step. apply np_exec.
  - apply np_ls; auto. intro j. apply np_exec.
  - repeat apply np_step. apply np_exec.
  - apply np_ls; auto. intro j. match goal with |- match ?l with _ => _ end <> _ => destruct l end; [apply np_step|]; apply np_exec.
  - unfold solve_cobyla. destruct (Nat.eqb _ _); [|discriminate]. destruct (cobyla_run X _); discriminate.
Qed.
Lemma exec_dim X P t j x n d : exec X P t j = Ok (x, n) ->
  (forall j x c n, argmin_run X P j = XDone (Some x) c n -> List.length x = d) -> List.length (ls_point x) = d.
Proof.
  unfold exec. intros H D. destruct (argmin_run X P j) as [[y|] c m|r] eqn:R; inversion H; subst. simpl. eapply D; eauto.
Qed.
Lemma step_ok X A mk c (k : outcome ls_error A) a : Runner.step X mk c k = Ok a -> k = Ok a.
Proof. unfold Runner.step. destruct (ext_ok X c); [auto|discriminate]. Qed.
Lemma ls_ok X A mk l (k : ls_job -> outcome ls_error A) a : build_ls X mk l k = Ok a -> exists j, k j = Ok a.
Proof.
  destruct l as [c1 c2 w b|d s e t g n b]; simpl; intros H; repeat apply step_ok in H; destruct b as [|lo [|hi b]]; simpl in H;
    try discriminate; repeat apply step_ok in H; eauto.
Qed.
Lemma solver_dim E ty cfg x t sol n : solvers_keep_dimension E ->
  solve_with_tracking (e_ext E) (e_problem E) ty cfg x t = Ok (sol, n) ->
  List.length (ls_point sol) = List.length (pb_bounds (e_problem E)).
Proof.
  intros [D1 D2] H. destruct ty; simpl in H; destruct cfg; simpl in H; try discriminate.
  - apply ls_ok in H as [j H]. repeat apply step_ok in H. destruct l1_coefficient; [apply step_ok in H|]; eapply exec_dim; eauto.
  - repeat apply step_ok in H. eapply exec_dim; eauto.
  - apply ls_ok in H as [j H]. eapply exec_dim; eauto.
  - repeat apply step_ok in H. eapply exec_dim; eauto.
  - apply ls_ok in H as [j H]. match type of H with match ?l with _ => _ end = _ => destruct l end; [apply step_ok in H|]; eapply exec_dim; eauto.
  - unfold solve_cobyla in H. destruct (Nat.eqb _ _); [|discriminate]. destruct (cobyla_run (e_ext E) _) eqn:R; inversion H; subst.
    simpl. eapply D2; eauto.
Qed.
Lemma np_tracked E ty cfg x t : two_bounds cfg -> solve_tracked E ty cfg x t <> Panic.
Proof.
  intros H. unfold solve_tracked, solve. destruct t; [apply np_solver; auto|].
  pose proof (np_solver (e_ext E) (e_problem E) ty cfg x false H).
  destruct (solve_with_tracking (e_ext E) (e_problem E) ty cfg x false) as [[s n]|e|]; congruence.
Qed.
Lemma tracked_dim E ty cfg x t r : solvers_keep_dimension E -> solve_tracked E ty cfg x t = Ok r ->
  List.length (ls_point (fst r)) = List.length (pb_bounds (e_problem E)).
Proof.
  intros D. unfold solve_tracked, solve. destruct r as [sol n]. destruct t; [intros; eapply solver_dim; eauto|].
  destruct (solve_with_tracking (e_ext E) (e_problem E) ty cfg x false) as [[s m]|e|] eqn:H; try discriminate.
  intros K; inversion K; subst. eapply solver_dim; eauto.
Qed.

(** ** The driver *)
Section Safe.
Context (E : env) (Hcb : callbacks_keep_settings E) (Hdim : solvers_keep_dimension E).
Context (p : params) (M : nat) (Hgood : good_params M p).
Context (C : checkpoint -> Prop).
Definition J (o : oqnlp) : Prop :=
  o_batch o <> Some 0 /\ (forall c, o_cp o = Some c -> cc_save_frequency c <> 0) /\
  callback_frequency o <> Some 0 /\ o_params o = p /\ sane_set E o /\ two_bounds (o_solver_config o) /\
  sane_points E o /\ o_iteration o <= M.
Context (Hsnap : forall o cp, J o -> snapshot o cp -> C cp).

Definition JS (s : st) : Prop := J (s_o s) /\ (saves_fit s -> checkpoints_hold C s).
Let Hp : two_bounds (p_solver_config p) := proj1 Hgood.
Lemma Hiter : p_iterations p <= M. Proof. apply Hgood. Qed.
Lemma Hseed : (p_seed p + N.of_nat M < 2 ^ 64)%N. Proof. apply Hgood. Qed.
Definition safe {A} (m : OM A) (Q : A -> Prop) : Prop :=
  forall s, JS s -> match m s with (Ok a, s') => JS s' /\ Q a | (Err _, s') => JS s' | (Panic, _) => False end.
Lemma s_bind A B (m : OM A) (k : A -> OM B) P Q : safe m P -> (forall a, P a -> safe (k a) Q) -> safe (bind m k) Q.
Proof.
  intros H1 H2 s Hs. unfold bind. specialize (H1 s Hs). destruct (m s) as [[a|e|] s1]; auto.
  destruct H1 as [H1 Ha]. apply H2; auto.
Qed.
Lemma s_ret A (a : A) (Q : A -> Prop) : Q a -> safe (ret a) Q.
Proof. intros H s Hs. simpl. split; auto. Qed.
Lemma s_fail A e (Q : A -> Prop) : safe (fail e) Q.
Proof. intros s Hs. exact Hs. Qed.
Lemma s_oqnlp : safe the_oqnlp J.
Proof. intros s Hs. split; [exact Hs|apply Hs]. Qed.
Lemma s_upd f : (forall o, J o -> J (f o)) -> safe (upd f) (fun _ => True).
Proof. intros H s [Hs D]. simpl. split; [split; [apply H, Hs|exact D]|exact I]. Qed.
Lemma s_emit l : safe (emit l) (fun _ => True).
Proof.
  intros s [Hs D]. simpl. split; [split; [exact Hs|]|exact I]. intros F f c cp. apply D.
  intros f' cp' I'. eapply F. simpl. apply in_or_app. right. exact I'.
Qed.
Lemma s_tick : safe tick (fun _ => True).
Proof. intros s Hs. simpl. split; auto. Qed.
Lemma s_unwrap A (o : option A) (Q : A -> Prop) : (exists a, o = Some a /\ Q a) -> safe (unwrap o) Q.
Proof. intros (a & -> & H) s Hs. split; auto. Qed.
Lemma s_result A (r : outcome oq_error A) (Q : A -> Prop) : r <> Panic -> (forall a, r = Ok a -> Q a) -> safe (of_result r) Q.
Proof. intros H1 H2 s Hs. simpl. destruct r; auto. Qed.
Lemma s_save_disk c cp i (Q : st -> Prop) s : JS s -> In (EvSave (file_name c i) cp) (w_trace (s_w s)) -> C cp ->
  match on_disk (save_checkpoint E c cp i) s with (Ok a, s') => JS s' /\ True | (Err _, s') => JS s' | (Panic, _) => False end.
Proof.
  intros [Hs D] Hin Hc. unfold on_disk. pose proof (np_save E c cp i (w_disk (s_w s))) as Np.
  pose proof (save_files E c cp i (w_disk (s_w s))) as Sf.
  destruct (save_checkpoint E c cp i (w_disk (s_w s))) as [r d]. simpl in Np, Sf.
  assert (X : JS (mk_st (s_o s) (mk_world d (w_tick (s_w s)) (w_trace (s_w s))))).
  { split; [exact Hs|]. intros F f b cp' I' Dec. simpl in I'. destruct Sf as [Sf|[k Sf]]; rewrite Sf in I'.
    - apply (D F f b cp' I' Dec).
    - unfold put_file in I'. apply in_app_or in I' as [I'|[I'|[]]].
      + unfold remove_file in I'. apply filter_In in I' as [I' _]. apply (D F f b cp' I' Dec).
      + inversion I'; subst. destruct (torn cp k (F _ _ Hin)) as [T|T]; rewrite T in Dec; inversion Dec; subst. exact Hc. }
  destruct r; auto.
Qed.

Lemma s_obs f : (forall ob, ob_callback (f ob) = ob_callback ob /\ ob_frequency (f ob) = ob_frequency ob) ->
  safe (obs f) (fun _ => True).
Proof.
  intros H. unfold obs. apply s_upd. intros o (J1 & J2 & J3 & J4 & J5 & J6).
  split; [exact J1|]. split; [exact J2|]. split; [rewrite (cf_map o f H); exact J3|]. split; [exact J4|]. split; [exact J5|exact J6].
Qed.
Lemma s_threshold v : safe (set_threshold v) (fun _ => True).
Proof.
  unfold set_threshold. apply s_bind with (P := fun _ => True); [apply s_upd; intros o H; exact H|intros _ _]. apply s_emit.
Qed.
Lemma s_filter x : safe (add_to_filter x) (fun _ => True).
Proof. apply s_upd. intros o H; exact H. Qed.
Definition good (x : lsol) : Prop := List.length (ls_point x) = List.length (pb_bounds (e_problem E)).
Lemma s_solutions l : l <> [] -> Forall good l -> safe (set_solutions l) (fun _ => True).
Proof.
  intros N G. unfold set_solutions. apply s_bind with (P := fun _ => True); [|intros; apply s_emit].
  apply s_upd. intros o (J1 & J2 & J3 & J4 & J5 & J6).
  split; [exact J1|]. split; [exact J2|]. split; [exact J3|]. split; [exact J4|]. split; [|exact J6].
  intros l' H. inversion H; subst. auto.
Qed.
Lemma s_process x : good x -> safe (process_local_solution E x) (fun _ => True).
Proof.
  intros G. unfold process_local_solution. apply s_bind with (P := J); [apply s_oqnlp|intros o Ho].
  apply s_bind with (P := fun _ => True).
  { destruct (o_exclude o); [|apply s_ret; auto]. apply s_unwrap.
    destruct (within_bounds_some (ls_point x) (pb_bounds (e_problem E)) G) as [r ->]. eauto. }
  intros inside _. destruct (negb inside).
  { apply s_bind with (P := fun _ => True); [apply s_emit|intros _ _].
    apply s_bind with (P := fun _ => True); [apply s_filter|intros _ _]. apply s_ret; auto. }
  destruct Ho as (J1 & J2 & J3 & J4 & J5 & J6). destruct (o_set o) as [sols|] eqn:S.
  - destruct (J5 _ S) as [N D]. destruct sols as [|cur rest]; [congruence|]. cbv zeta.
    apply s_bind with (P := fun _ => True); [apply s_emit|intros _ _].
    apply s_bind with (P := fun _ => True).
    + destruct (flt _ _).
      * apply s_bind with (P := fun _ => True); [apply s_solutions; [discriminate|repeat constructor; auto]|intros _ _].
        apply s_bind with (P := fun _ => True); [apply s_threshold|intros _ _].
        apply s_bind with (P := fun _ => True); [apply s_obs; intro; apply cf3|intros _ _]. apply s_ret; auto.
      * destruct (_ && _); [|apply s_ret; auto].
        apply s_bind with (P := fun _ => True).
        { apply s_solutions; [destruct rest; discriminate|]. apply Forall_app. split; [exact D|repeat constructor; auto]. }
        intros _ _. apply s_bind with (P := fun _ => True); [apply s_obs; intro; apply cf3|intros _ _]. apply s_ret; auto.
    + intros added _. apply s_bind with (P := fun _ => True); [apply s_filter|intros _ _]. apply s_ret; auto.
  - apply s_bind with (P := fun _ => True); [apply s_emit|intros _ _].
    apply s_bind with (P := fun _ => True); [apply s_solutions; [discriminate|repeat constructor; auto]|intros _ _].
    apply s_bind with (P := fun _ => True); [apply s_threshold|intros _ _].
    apply s_bind with (P := fun _ => True); [apply s_filter|intros _ _]. apply s_ret; auto.
Qed.
Lemma s_target o : J o -> safe (unwrap (target_reached E o)) (fun _ => True).
Proof.
  intros (J1 & J2 & J3 & J4 & J5 & J6). apply s_unwrap. unfold target_reached. destruct (o_target o); [|eauto].
  destruct (o_set o) as [l|] eqn:S; [|eauto]. destruct (best_solution l) as [b|] eqn:B; [|eauto].
  destruct (_ && _); [|eauto]. destruct (J5 _ S) as [_ D]. rewrite Forall_forall in D.
  assert (In b l).
  { pose proof (best_solution_spec l) as K. rewrite B in K. destruct K as (n & K & _). eapply nth_error_In; eauto. }
  destruct (within_bounds_some (ls_point b) (pb_bounds (e_problem E)) (D _ H)) as [r ->]. eauto.
Qed.
Lemma s_callback i : safe (callback E i) (fun _ => True).
Proof.
  unfold callback. apply s_bind with (P := J); [apply s_oqnlp|intros o (J1 & J2 & J3 & J4 & J5 & J6)].
  unfold callback_frequency in J3. destruct (o_observer o) as [ob|]; [|apply s_ret; auto].
  destruct (ob_callback ob) as [cb|] eqn:Cb; [|apply s_ret; auto].
  destruct (cf_invoke E Hcb ob) as [C1 C2]. destruct (invoke_callback (Env.e_callback E) ob) as [ob' m]. simpl in C1, C2.
  apply s_bind with (P := fun _ => True); [apply s_emit|intros _ _].
  apply s_upd. intros o' (K1 & K2 & K3 & K4 & K5 & K6).
  split; [exact K1|]. split; [exact K2|]. split; [|split; [exact K4|split; [exact K5|exact K6]]].
  unfold callback_frequency. simpl. rewrite C1, C2, Cb. exact J3.
Qed.
Lemma s_callback_at i : safe (callback_at E i) (fun _ => True).
Proof.
  unfold callback_at. apply s_bind with (P := J); [apply s_oqnlp|intros o (J1 & J2 & J3 & J4 & J5 & J6)].
  unfold callback_frequency in J3. destruct (o_observer o) as [ob|]; [|apply s_ret; auto].
  unfold should_invoke_callback. destruct (ob_callback ob); [|apply s_ret; auto].
  destruct (ob_frequency ob); [congruence|]. destruct (_ =? _); [apply s_callback|apply s_ret; auto].
Qed.
Lemma s_save_now c : safe (save_now E c) (fun _ => True).
Proof.
  intros s Hs. unfold save_now, create_checkpoint. unfold bind at 1. unfold bind at 1. unfold tick at 1. unfold bind at 1.
  unfold the_oqnlp, get, ret. unfold bind at 1. simpl. unfold bind at 1. unfold bind at 1. simpl.
  unfold bind at 1. simpl.
  match goal with |- context [EvSave _ ?x] => set (cp := x) end.
  match goal with |- context [on_disk (save_checkpoint E c cp ?j)] => set (i := j) end.
  set (s1 := mk_st (s_o s) (mk_world (w_disk (s_w s)) (S (w_tick (s_w s))) (EvSave (file_name c i) cp :: w_trace (s_w s)))).
  assert (H1 : JS s1).
  { split; [apply Hs|]. intros F. apply Hs. intros f' cp' I'. eapply F. right. exact I'. }
  assert (Hc : C cp) by (apply Hsnap with (o := s_o s); [apply Hs|repeat split]).
  pose proof (s_save_disk c cp i (fun _ => True) s1 H1 (or_introl eq_refl) Hc) as H2.
  unfold bind. change (mk_st (s_o s) _) with s1. destruct (on_disk (save_checkpoint E c cp i) s1) as [[a|e|] s2]; auto.
Qed.
Lemma s_maybe_save : safe (maybe_save_checkpoint E) (fun _ => True).
Proof.
  unfold maybe_save_checkpoint. apply s_bind with (P := J); [apply s_oqnlp|intros o (J1 & J2 & J3 & J4 & J5 & J6)].
  destruct (o_cp o) as [c|]; [|apply s_ret; auto]. specialize (J2 c eq_refl).
  destruct (cc_save_frequency c); [congruence|]. destruct (_ =? _); [apply s_save_now|apply s_ret; auto].
Qed.
Lemma s_final_save : safe (maybe_save_final_checkpoint E) (fun _ => True).
Proof.
  unfold maybe_save_final_checkpoint. apply s_bind with (P := J); [apply s_oqnlp|intros o _].
  destruct (o_cp o); [apply s_save_now|apply s_ret; auto].
Qed.
Lemma add_ok i : i < p_iterations p -> exists v, add_u64 E (p_seed p) (N.of_nat i) = Some v.
Proof.
  intros L. unfold add_u64. destruct (N.ltb_spec (p_seed p + N.of_nat i) u64_mod) as [|G]; [eauto|].
  exfalso. change u64_mod with (2 ^ 64)%N in G. pose proof Hiter. pose proof Hseed. lia.
Qed.
Lemma s_begin i u : i < p_iterations p -> safe (begin_iteration E i u) (fun _ => True).
Proof.
  intros L. unfold begin_iteration. apply s_bind with (P := fun _ => True); [apply s_upd|intros _ _].
  { intros o (J1 & J2 & J3 & J4 & J5 & J6 & J7 & J8). pose proof Hiter. repeat (split; [assumption|]). simpl. lia. }
  apply s_bind with (P := J); [apply s_oqnlp|intros o (J1 & J2 & J3 & J4 & J5 & J6)].
  apply s_bind with (P := fun _ => True).
  { apply s_unwrap. rewrite J4. destruct (add_ok i L) as [v ->]. eauto. }
  intros v _. apply s_bind with (P := fun _ => True); [apply s_upd; intros o' H; exact H|intros; apply s_emit].
Qed.
Lemma s_obs_iteration i u : safe (obs_iteration i u) (fun _ => True).
Proof. unfold obs_iteration. apply s_bind with (P := J); [apply s_oqnlp|intros o _]. apply s_obs. intro; apply cf2. Qed.
Lemma s_obs_search a n : safe (obs_search a n) (fun _ => True).
Proof. unfold obs_search. apply s_bind with (P := J); [apply s_oqnlp|intros o _]. apply s_obs. intro; apply cf2. Qed.
Lemma s_count u : safe (count_unchanged u) (fun _ => True).
Proof.
  unfold count_unchanged, adjust_threshold. apply s_bind with (P := J); [apply s_oqnlp|intros o _].
  destruct (_ <=? _); [|apply s_ret; auto].
  apply s_bind with (P := fun _ => True); [|intros; apply s_ret; auto].
  apply s_bind with (P := J); [apply s_oqnlp|intros o' _]. cbv zeta.
  apply s_bind with (P := fun _ => True); [apply s_upd; intros o'' H; exact H|intros; apply s_emit].
Qed.
Lemma s_solve ty cfg x t : two_bounds cfg -> safe (of_solver (solve_tracked E ty cfg x t)) (fun r => good (fst r)).
Proof.
  intros H. pose proof (np_tracked E ty cfg x t H). unfold of_solver.
  destruct (solve_tracked E ty cfg x t) as [r|e|] eqn:S; [|apply s_fail|congruence].
  apply s_ret. unfold good. eapply tracked_dim; eauto.
Qed.

(** ** Candidates *)
Definition cand_ok (objs : option (list f64)) (i : nat) : Prop :=
  i < p_iterations p /\ forall l, objs = Some l -> l <> [].
Lemma np_cand objs i x : cand_ok objs i -> cand_objective E objs i x <> Panic.
Proof.
  intros [_ H]. unfold cand_objective. destruct objs as [l|].
  - specialize (H l eq_refl). destruct (List.length l) as [|n] eqn:L; [destruct l; simpl in L; congruence|].
    destruct (nth_error l (i mod S n)) eqn:Q; [discriminate|]. apply nth_error_None in Q.
    assert (i mod S n < S n) by (apply Nat.mod_upper_bound; lia). lia.
  - destruct (pb_objective _ _); discriminate.
Qed.
Lemma s_eval objs i x : safe (emit_eval objs i x) (fun _ => True).
Proof. unfold emit_eval. destruct objs; [apply s_ret; auto|apply s_emit]. Qed.
Lemma s_one objs i x u : cand_ok objs i -> safe (process_one_seq E objs i x u) (fun _ => True).
Proof.
  intros H. unfold process_one_seq.
  apply s_bind with (P := fun _ => True); [apply s_begin; apply H|intros _ _].
  apply s_bind with (P := fun _ => True); [apply s_obs_iteration|intros _ _].
  apply s_bind with (P := fun _ => True); [apply s_eval|intros _ _].
  apply s_bind with (P := fun _ => True); [apply s_result; auto; apply np_cand; auto|intros obj _].
  apply s_bind with (P := fun _ => True); [destruct objs; [apply s_ret; auto|apply s_obs; intro; apply cf2]|intros _ _].
  apply s_bind with (P := J); [apply s_oqnlp|intros o Ho]. cbv zeta.
  apply s_bind with (P := fun _ => True); [apply s_emit|intros _ _].
  apply s_bind with (P := fun _ => True).
  - destruct (should_start_local o x obj).
    + apply s_bind with (P := fun _ => True); [apply s_threshold|intros _ _].
      apply s_bind with (P := fun _ => True); [apply s_emit|intros _ _].
      apply s_bind with (P := fun r => good (fst r)); [apply s_solve; apply Ho|intros r Hr].
      apply s_bind with (P := fun _ => True); [apply s_process; auto|intros added _].
      apply s_bind with (P := fun _ => True); [apply s_obs_search|intros _ _].
      apply s_bind with (P := J); [apply s_oqnlp|intros o2 H2].
      apply s_bind with (P := fun _ => True); [apply s_target; auto|intros stop _]. apply s_ret; auto.
    + apply s_bind with (P := fun _ => True); [apply s_count|intros; apply s_ret; auto].
  - intros [u' stop] _. destruct stop; [apply s_ret; auto|].
    apply s_bind with (P := fun _ => True); [apply s_callback_at|intros _ _].
    apply s_bind with (P := fun _ => True); [apply s_maybe_save|intros _ _]. apply s_ret; auto.
Qed.
Lemma s_seq start resumed objs : forall batch u, (forall i x, In (i, x) batch -> cand_ok objs i) ->
  safe (process_batch_sequential E start resumed objs batch u) (fun _ => True).
Proof.
  induction batch as [|[i x] batch IH]; intros u H; simpl; [apply s_ret; auto|].
  assert (H' : forall i0 x0, In (i0, x0) batch -> cand_ok objs i0) by (intros i0 x0 K; eapply H; right; eauto).
  destruct (resumed && (i <? start)); [apply IH; auto|].
  apply s_bind with (P := fun _ => True); [apply s_one; eapply H; left; eauto|intros [u' stop] _].
  destruct stop; [apply s_ret; auto|apply IH; auto].
Qed.
Lemma np_par A pick (l : list (outcome oq_error A)) : (forall r, In r l -> r <> Panic) -> par_collect pick l <> Panic.
Proof.
  intros H. unfold par_collect. destruct (existsb oc_panic l) eqn:X.
  - apply existsb_exists in X as (r & I & R). destruct r; try discriminate R. destruct (H _ I eq_refl).
  - destruct (oc_errs l); discriminate.
Qed.
Lemma s_quicks : forall l u, (forall i x v, In (i, x, v) l -> i < p_iterations p) -> safe (process_quicks E l u) (fun _ => True).
Proof.
  induction l as [|[[i x] v] l IH]; intros u H; simpl; [apply s_ret; auto|].
  apply s_bind with (P := fun _ => True).
  - unfold process_quick. apply s_bind with (P := fun _ => True); [apply s_begin; eapply H; left; eauto|intros _ _].
    apply s_bind with (P := fun _ => True); [apply s_count|intros u' _].
    apply s_bind with (P := fun _ => True); [apply s_obs_iteration|intros _ _].
    apply s_bind with (P := fun _ => True); [apply s_callback_at|intros _ _].
    apply s_bind with (P := fun _ => True); [apply s_maybe_save|intros _ _]. apply s_ret; auto.
  - intros u' _. apply IH. intros i0 x0 v0 K; eapply H; right; eauto.
Qed.
Lemma s_par_results : forall l u, (forall i x v r, In (i, x, v, r) l -> i < p_iterations p /\ good (fst r)) ->
  safe (process_par_results E l u) (fun _ => True).
Proof.
  induction l as [|[[[i x] v] [sol n]] l IH]; intros u H; simpl; [apply s_ret; auto|].
  destruct (H i x v (sol, n) (or_introl eq_refl)) as [L G].
  apply s_bind with (P := fun _ => True).
  - unfold process_par_result. apply s_bind with (P := fun _ => True); [apply s_begin; auto|intros _ _].
    apply s_bind with (P := fun _ => True); [apply s_threshold|intros _ _].
    apply s_bind with (P := fun _ => True); [apply s_process; auto|intros added _].
    apply s_bind with (P := fun _ => True); [apply s_obs_search|intros _ _].
    apply s_bind with (P := fun _ => True); [apply s_obs_iteration|intros _ _].
    apply s_bind with (P := fun _ => True); [apply s_callback_at|intros _ _].
    apply s_bind with (P := J); [apply s_oqnlp|intros o Ho].
    apply s_bind with (P := fun _ => True); [apply s_target; auto|intros [|] _]; [apply s_ret; auto|].
    apply s_bind with (P := fun _ => True); [apply s_maybe_save|intros _ _]. apply s_ret; auto.
  - intros [|] _; [apply s_ret; auto|]. apply IH. intros; eapply H; right; eauto.
Qed.
Lemma s_singles : forall l u, (forall i x v, In (i, x, v) l -> i < p_iterations p) -> safe (process_singles E l u) (fun _ => True).
Proof.
  induction l as [|[[i x] v] l IH]; intros u H; simpl; [apply s_ret; auto|].
  apply s_bind with (P := fun _ => True).
  - unfold process_single. apply s_bind with (P := fun _ => True); [apply s_begin; eapply H; left; eauto|intros _ _].
    apply s_bind with (P := fun _ => True); [apply s_threshold|intros _ _].
    apply s_bind with (P := J); [apply s_oqnlp|intros o Ho].
    apply s_bind with (P := fun _ => True); [apply s_emit|intros _ _].
    apply s_bind with (P := fun r => good (fst r)); [apply s_solve; apply Ho|intros r Hr].
    apply s_bind with (P := fun _ => True); [apply s_process; auto|intros added _].
    apply s_bind with (P := fun _ => True); [apply s_obs_search|intros _ _].
    apply s_bind with (P := fun _ => True); [apply s_obs_iteration|intros _ _].
    apply s_bind with (P := fun _ => True); [apply s_callback|intros _ _].
    apply s_bind with (P := J); [apply s_oqnlp|intros o2 H2].
    apply s_bind with (P := fun _ => True); [apply s_target; auto|intros [|] _]; [apply s_ret; auto|].
    apply s_bind with (P := fun _ => True); [apply s_maybe_save|intros _ _]. apply s_ret; auto.
  - intros [|] _; [apply s_ret; auto|]. apply IH. intros; eapply H; right; eauto.
Qed.
Lemma s_parallel start resumed objs batch u : (forall i x, In (i, x) batch -> cand_ok objs i) ->
  safe (process_batch_parallel E start resumed objs batch u) (fun _ => True).
Proof.
  intros H. unfold process_batch_parallel.
  set (fb := if resumed then filter (fun b => start <=? fst b) batch else batch).
  assert (Hfb : forall i x, In (i, x) fb -> cand_ok objs i).
  { intros i x I. apply (H i x). unfold fb in I. destruct resumed; auto. apply filter_In in I. apply I. }
  clearbody fb. clear H.
  destruct (match fb with [] => true | _ => false end); [apply s_ret; auto|].
  apply s_bind with (P := fun _ => True); [destruct objs; [apply s_ret; auto|apply s_emit]|intros _ _].
  apply s_bind with (P := fun _ => True); [apply s_tick|intros t _].
  set (f := fun b : nat * point => match cand_objective E objs (fst b) (snd b) with
     | Ok v => Ok (fst b, snd b, v) | Err e => Err e | Panic => Panic end).
  apply s_bind with (P := fun results : list (nat * point * f64) => forall i x v, In (i, x, v) results -> i < p_iterations p).
  { apply s_result.
    - apply np_par. intros r I. apply in_map_iff in I as ([i x] & <- & I). unfold f. simpl.
      pose proof (np_cand objs i x (Hfb _ _ I)). destruct (cand_objective E objs i x); congruence.
    - intros rs R i x v I. apply par_collect_ok in R.
      assert (K : In (Ok (i, x, v)) (map f fb)) by (rewrite R; apply in_map; auto).
      apply in_map_iff in K as ([i' x'] & K & I'). unfold f in K. simpl in K.
      destruct (cand_objective E objs i' x'); inversion K; subst. apply (Hfb _ _ I'). }
  intros results Hr.
  apply s_bind with (P := fun _ => True); [destruct objs; [apply s_ret; auto|apply s_obs; intro; apply cf2]|intros _ _].
  apply s_bind with (P := J); [apply s_oqnlp|intros o Ho]. cbv zeta.
  destruct (partition _ results) as [local quick] eqn:Pt.
  assert (Hlq : forall c, In c local \/ In c quick -> In c results).
  { intros c K. apply (elements_in_partition _ _ Pt). auto. }
  apply s_bind with (P := fun _ => True); [apply s_emit|intros _ _].
  apply s_bind with (P := fun _ => True).
  { apply s_quicks. intros i x v I. eapply Hr, Hlq; right; eauto. }
  intros u' _. apply s_bind with (P := J); [apply s_oqnlp|intros o' Ho'].
  apply s_bind with (P := fun _ => True); [|intros _ _; apply s_ret; auto].
  destruct (_ && _).
  - apply s_bind with (P := fun _ => True); [apply s_emit|intros _ _].
    set (g := fun c : nat * point * f64 => match lift_solver (solve_tracked E (p_solver_type (o_params o'))
                 (p_solver_config (o_params o')) (snd (fst c)) (observes2 o')) with
                 | Ok r => Ok (c, r) | Err e => Err e | Panic => Panic end).
    assert (HO : o_params o' = p) by apply Ho'.
    apply s_bind with (P := fun rs : list (nat * point * f64 * (lsol * N)) => forall i x v r, In (i, x, v, r) rs -> i < p_iterations p /\ good (fst r)).
    { apply s_result.
      - apply np_par. intros r I. apply in_map_iff in I as (c & <- & I). unfold g. rewrite HO.
        pose proof (np_tracked E (p_solver_type p) (p_solver_config p) (snd (fst c)) (observes2 o') Hp).
        unfold lift_solver. destruct (solve_tracked _ _ _ _ _); congruence.
      - intros rs R i x v r I. apply par_collect_ok in R.
        assert (K : In (Ok (i, x, v, r)) (map g local)) by (rewrite R; apply in_map; auto).
        apply in_map_iff in K as (c & K & I'). unfold g in K.
        destruct (solve_tracked E _ _ (snd (fst c)) _) as [r'|e|] eqn:T; simpl in K; inversion K; subst.
        split; [eapply Hr, Hlq; left; eauto|]. unfold good. eapply tracked_dim; eauto. }
    intros rs Hrs. apply s_par_results; auto.
  - apply s_singles. intros i x v I. eapply Hr, Hlq; left; eauto.
Qed.
Lemma s_loop size start resumed objs : forall batches u,
  (forall b i x, In b batches -> In (i, x) b -> cand_ok objs i) ->
  safe (stage2_loop E size start resumed objs batches u) (fun _ => True).
Proof.
  induction batches as [|b batches IH]; intros u H; simpl; [apply s_ret; auto|].
  apply s_bind with (P := J); [apply s_oqnlp|intros o Ho].
  apply s_bind with (P := fun _ => True).
  { destruct (o_max_time o); [|apply s_ret; auto].
    apply s_bind with (P := fun _ => True); [apply s_tick|intros t _].
    apply s_bind with (P := fun _ => True); [apply s_emit|intros _ _]. apply s_ret; auto. }
  intros [|] _; [apply s_ret; auto|].
  apply s_bind with (P := fun _ => True); [apply s_emit|intros _ _].
  apply s_bind with (P := fun _ => True).
  { destruct (1 <? size); [apply s_parallel|apply s_seq]; intros i x I; eapply H; eauto; left; auto. }
  intros u' _. apply s_bind with (P := J); [apply s_oqnlp|intros o2 H2].
  apply s_bind with (P := fun _ => True); [apply s_target; auto|intros [|] _]; [apply s_ret; auto|].
  apply IH. intros b' i x I1 I2. eapply H; eauto. right; auto.
Qed.
Lemma s_final : safe final_set (fun _ => True).
Proof.
  unfold final_set. apply s_bind with (P := J); [apply s_oqnlp|intros o _].
  destruct (o_set o); [apply s_ret; auto|apply s_fail].
Qed.
Lemma size_nonzero o start : env_ok E -> J o -> batch_size E o start <> 0.
Proof.
  intros _ (J1 & _). unfold batch_size. destruct (negb (o_parallel o)); [discriminate|].
  destruct (o_batch o) as [[|n]|]; [congruence|discriminate|]. destruct (_ || _); [discriminate|].
  destruct (Nat.max (_ / _) 2) as [|m] eqn:Mx; [lia|]. simpl. discriminate.
Qed.

(** ** Stage 1 *)
Lemma s_end_stage1 : safe (end_stage1 E) (fun _ => True).
Proof.
  unfold end_stage1, stage1_enter. apply s_bind with (P := fun _ => True); [apply s_obs; intro; apply cf1|intros _ _].
  apply s_bind with (P := fun _ => True); [apply s_callback|intros _ _]. apply s_obs, fi_complete.
Qed.
Lemma J_observer o ob : J o -> callback_frequency (set_o_observer ob o) = callback_frequency o -> J (set_o_observer ob o).
Proof.
  intros (J1 & J2 & J3 & J4 & J5 & J6) H.
  split; [exact J1|]. split; [exact J2|]. split; [rewrite H; exact J3|]. split; [exact J4|]. split; [exact J5|exact J6].
Qed.
Definition cand_list (r : option (list point * list f64)) : Prop :=
  forall refs objs, r = Some (refs, objs) -> List.length refs = List.length objs.
Lemma init_built o t s3 : stage1_init E o t = Ok s3 -> sane_points E o ->
  built E (o_params o) s3 /\ Forall (fun c => List.length c = List.length (pb_bounds (e_problem E))) (custom_points s3) /\
  (observes1 o = true -> ss_observer s3 = o_observer o).
Proof.
  unfold stage1_init. destruct (ss_new E (o_params o) t) as [s0|e|] eqn:N; try discriminate. intros H Hcu. inversion H; subst; clear H.
  assert (B : built E (o_params o) s0) by (econstructor; eauto).
  assert (Cu : ss_custom s0 = None).
  { unfold ss_new in N. destruct (bad_bound _ _); inversion N; reflexivity. }
  split; [|split].
  - destruct (observes1 o); [apply built_observer|]; destruct (o_custom o); [apply built_custom| |apply built_custom|];
      apply built_parallel; auto.
  - unfold sane_points in Hcu. unfold custom_points. destruct (observes1 o); destruct (o_custom o) as [l|] eqn:O;
      try (specialize (Hcu l eq_refl); exact Hcu); change (Forall (fun c : point => List.length c = List.length (pb_bounds (e_problem E)))
        match ss_custom s0 with Some c => c | None => [] end); rewrite Cu; constructor.
  - intros ->. reflexivity.
Qed.
Lemma s_stage1 s : env_ok E -> JS s -> Forall finite_bound (pb_bounds (e_problem E)) ->
  match stage1_run E s with (Ok a, s') => JS s' /\ cand_list a | (Err _, s') => JS s' | (Panic, _) => False end.
Proof.
  intros HE HS Hb. unfold stage1_run. unfold bind at 1. simpl. unfold bind at 1. simpl.
  set (s1 := mk_st (s_o s) (mk_world (w_disk (s_w s)) (S (w_tick (s_w s))) (w_trace (s_w s)))).
  assert (HS1 : JS s1) by exact HS. change (s_o s) with (s_o s1). clearbody s1. generalize (w_tick (s_w s)). clear s HS. intros t. rename s1 into s, HS1 into HS.
  pose proof (proj1 HS) as HJ. assert (Hc : sane_points E (s_o s)) by apply HJ. assert (Hpop : 1 <= p_population p) by apply Hgood.
  assert (HO : o_params (s_o s) = p) by apply HJ.
  destruct (stage1_init E (s_o s) t) as [s3|e|] eqn:Hi; [|exact HS|].
  2:{ unfold stage1_init, ss_new in Hi. destruct (bad_bound _ _); discriminate. }
  destruct (init_built _ _ _ Hi Hc) as (B & Cu & Ho). rewrite HO in B.
  pose proof (run_no_panic E p s3 HE B Hpop Hb Cu) as Np.
  pose proof (sk_run E Hcb s3) as Hk. destruct (ss_run E s3) as [res sf] eqn:Hr. simpl in Hk, Np.
  set (s' := if observes1 (s_o s) then changed (set_o_observer (ss_observer sf)) s else s).
  assert (F : JS s').
  { unfold s'. destruct (observes1 (s_o s)); [|exact HS]. split; [|apply HS]. apply J_observer; [exact HJ|].
    rewrite (Ho eq_refl) in Hk. exact Hk. }
  assert (X : (if observes1 (s_o s) then upd (set_o_observer (ss_observer sf)) else ret tt) s = (Ok tt, s')).
  { unfold s'. destruct (observes1 (s_o s)); reflexivity. }
  rewrite (bind_ok _ _ _ _ _ _ _ X). clear X Hk Ho Hi Hr HS HJ Hc Cu B HO. revert F. generalize s'. clear s' s s3 t.
  match goal with |- forall s, _ -> match ?m s with _ => _ end => change (safe m cand_list) end.
  apply s_bind with (P := fun _ => True); [apply s_emit|intros _ _].
  destruct res as [[pts cand]|e|]; [|apply s_fail|congruence]. cbv zeta.
  apply s_bind with (P := fun _ => True); [apply s_obs; intro; apply cf1|intros _ _].
  apply s_bind with (P := fun _ => True); [apply s_callback|intros _ _]. unfold stage1_enter.
  apply s_bind with (P := fun _ => True); [apply s_obs; intro; apply cf1|intros _ _].
  apply s_bind with (P := J); [apply s_oqnlp|intros o Ho].
  apply s_bind with (P := fun _ => True); [apply s_emit|intros _ _].
  apply s_bind with (P := fun r => good (fst r)); [apply s_solve; apply Ho|intros r Hr].
  apply s_bind with (P := fun _ => True); [apply s_threshold|intros _ _].
  apply s_bind with (P := fun _ => True); [apply s_obs; intro; apply cf1|intros _ _].
  apply s_bind with (P := fun _ => True); [apply s_callback|intros _ _].
  apply s_bind with (P := fun _ => True); [apply s_process; auto|intros _ _].
  apply s_bind with (P := J); [apply s_oqnlp|intros o2 H2].
  apply s_bind with (P := fun _ => True); [apply s_target; auto|intros [|] _].
  - apply s_bind with (P := fun _ => True); [apply s_end_stage1|intros _ _]. apply s_ret. intros ? ?; discriminate.
  - apply s_bind with (P := fun _ => True); [apply s_upd; intros o0 H; exact H|intros _ _].
    apply s_bind with (P := fun _ => True); [apply s_end_stage1|intros _ _]. apply s_ret.
    intros refs objs K. inversion K; subst. rewrite !map_length. reflexivity.
Qed.

(** ** Stage 2 *)
Lemma trials_in (start : nat) (refs : list point) size b i (x : point) :
  In b (chunks size (skipn start (enumerate (firstn (p_iterations p) refs)))) -> In (i, x) b ->
  i < p_iterations p /\ i < List.length refs.
Proof.
  intros H1 H2. unfold chunks in H1. pose proof (chunks_fuel_in _ _ _ _ _ _ H1 H2) as I.
  apply in_skipn in I. apply enumerate_nth in I.
  assert (i < List.length (firstn (p_iterations p) refs)) by (apply nth_error_Some; congruence).
  rewrite firstn_length in H. lia.
Qed.
Lemma s_begin2 : safe begin_stage2 (fun _ => True).
Proof.
  unfold begin_stage2. apply s_bind with (P := J); [apply s_oqnlp|intros o _].
  apply s_bind with (P := fun _ => True); [apply s_obs; intro; apply cf2|intros _ _]. apply s_obs, fi_started.
Qed.
Lemma s_stage2 resumed refs objs u : env_ok E ->
  (forall l, objs = Some l -> List.length refs = List.length l) ->
  safe (stage2_run E resumed refs objs u) (fun _ => True).
Proof.
  intros HE Hl. unfold stage2_run.
  apply s_bind with (P := fun _ => True); [apply s_begin2|intros _ _].
  apply s_bind with (P := J); [apply s_oqnlp|intros o HJ].
  apply s_bind with (P := fun r => List.length r = List.length refs).
  - destruct resumed; [apply s_ret; auto|].
    apply s_bind with (P := fun _ => True).
    + apply s_unwrap. destruct HJ as (_ & _ & _ & -> & _ & _ & _ & Hit). unfold add_u64.
      destruct (N.ltb_spec (p_seed p + N.of_nat (o_iteration o)) u64_mod) as [|G]; [eauto|].
      exfalso. change u64_mod with (2 ^ 64)%N in G. pose proof Hseed. lia.
    + intros seed _. apply s_bind with (P := fun _ => True); [apply s_upd; intros o' H; exact H|intros _ _].
      apply s_ret. apply Permutation_length. apply eo_shuffle; auto.
  - intros refs' Hr. cbv zeta.
    apply s_bind with (P := fun _ => True).
    + assert (Hz : batch_size E o (if resumed then o_iteration o else 0) <> 0) by (apply size_nonzero; auto).
      destruct (Nat.eqb_spec (batch_size E o (if resumed then o_iteration o else 0)) 0) as [Z|_]; [contradiction|].
      apply s_loop. destruct HJ as (_ & _ & _ & -> & _). intros b i x I1 I2.
      destruct (trials_in _ _ _ _ _ _ I1 I2) as [L1 L2]. split; [exact L1|].
      intros l Ol Nl. subst. specialize (Hl [] eq_refl). simpl in Hl. lia.
    + intros _ _. apply s_bind with (P := fun _ => True); [apply s_final_save|intros _ _]. apply s_final.
Qed.
(** ** The whole run, once the start is settled *)
Lemma s_fresh s : env_ok E -> JS s -> Forall finite_bound (pb_bounds (e_problem E)) ->
  match bind (stage1_run E) (fun r => match r with None => final_set | Some (refs, objs) => stage2_run E false refs (Some objs) 0 end) s with
  | (Ok a, s') => JS s' /\ True | (Err _, s') => JS s' | (Panic, _) => False end.
Proof.
  intros HE HS Hb. pose proof (s_stage1 s HE HS Hb) as H1. unfold bind.
  destruct (stage1_run E s) as [[[[refs objs]|]|e|] s2]; [| |exact H1|contradiction]; destruct H1 as [HS2 HL].
  - apply (s_stage2 false refs (Some objs) 0 HE); [|exact HS2]. intros l Hl. inversion Hl; subst. apply HL; auto.
  - apply (s_final s2 HS2).
Qed.
End Safe.

(** ** The whole run *)
Definition bound_of (o : oqnlp) : nat := Nat.max (p_iterations (o_params o)) (o_iteration o).
Lemma J_of E M o : sane_settings o -> sane_set E o -> sane_solver o -> sane_points E o -> o_iteration o <= M ->
  J E (o_params o) M o.
Proof.
  intros [S1 S2 S3 S4 S5] HS [HB _] HP HM. split; [exact S1|]. split; [exact S2|]. split.
  { unfold callback_frequency. destruct (o_observer o) as [ob|]; [|discriminate]. destruct (ob_callback ob) eqn:Cb; [|discriminate].
    intros K. inversion K. eapply S3; eauto. }
  split; [reflexivity|]. auto.
Qed.
Lemma good_of o : sane_settings o -> sane_solver o -> 1 <= p_population (o_params o) -> good_params (bound_of o) (o_params o).
Proof.
  intros [_ _ _ S4 S5] [_ HB] HP. split; [exact HB|]. unfold bound_of. split; [lia|]. split; [lia|exact HP].
Qed.
Lemma run_split E s : 
  (exists d, d_files d = d_files (w_disk (s_w s)) /\ snd (run E s) = with_disk d s /\ exists e, fst (run E s) = Err e) \/
  (exists s1, run_start E s false s1 /\ run E s = bind (stage1_run E)
     (fun r => match r with None => final_set | Some (refs, objs) => stage2_run E false refs (Some objs) 0 end) s1) \/
  (exists s1 refs u, run_start E s true s1 /\ run E s = stage2_run E true refs None u s1).
Proof.
  destruct (try_resume_from_checkpoint E s) as [[[|]|e|] s1] eqn:R.
  - right; right. exists s1, (match o_ref (s_o s1) with Some r => r | None => [] end), (o_unchanged (s_o s1)).
    split; [apply resume_ok; exact R|]. unfold run. unfold bind at 1. rewrite R. reflexivity.
  - right; left. exists s1. split; [apply resume_ok; exact R|]. unfold run. unfold bind at 1. rewrite R. reflexivity.
  - left. destruct (resume_fail E s _ _ R) as (d & Hd & Hs); [discriminate|]. exists d. split; [exact Hd|].
    assert (X : run E s = (Err e, s1)) by (unfold run; unfold bind at 1; rewrite R; reflexivity). rewrite X. simpl. eauto.
  - exfalso. revert R. unfold try_resume_from_checkpoint, bind, the_oqnlp, get, ret, bind. simpl.
    destruct (o_cp (s_o s)) as [c|]; [|discriminate]. destruct (cc_auto_resume c); [|discriminate].
    unfold on_disk at 1. pose proof (np_exists E c (w_disk (s_w s))) as N1.
    destruct (checkpoint_exists E c (w_disk (s_w s))) as [[[|]|e|] d]; simpl in *; try discriminate; [|congruence].
    unfold on_disk at 1. simpl. pose proof (np_load_latest E c d) as N2.
    destruct (load_latest E c d) as [[cp|e|] d2]; simpl in *; try discriminate. congruence.
Qed.
Theorem run_safe : forall E s, env_ok E -> callbacks_keep_settings E -> solvers_keep_dimension E ->
  Forall finite_bound (pb_bounds (e_problem E)) -> sane E (s_o s) ->
  (forall cp, resumes_from E s cp -> sane E (restored cp (s_o s))) -> fst (run E s) <> Panic.
Proof.
  intros E s HE Hcb Hdim Hb HS Hres. destruct (run_split E s) as [(d & _ & _ & e & ->)|[(s1 & R & ->)|(s1 & refs & u & R & ->)]].
  - discriminate.
  - inversion R as [d Hd Hn|]; subst. destruct HS as (S1 & S2 & S3 & S4 & S5).
    assert (HJ : JS E (o_params (s_o s)) (bound_of (s_o s)) (fun _ => True) (with_disk d s)).
    { split; [|intros _ f c cp _ _; exact I]. apply J_of; auto. unfold bound_of. simpl. lia. }
    pose proof (s_fresh E Hcb Hdim _ _ (good_of _ S1 S3 S5) (fun _ => True) (fun _ _ _ _ => I) (with_disk d s) HE HJ Hb) as H.
    destruct (bind _ _ _) as [[?|?|] ?]; [discriminate|discriminate|contradiction].
  - inversion R as [|c d cp H1 H2 H3 H4 Hd]; subst. destruct (Hres cp) as (S1 & S2 & S3 & S4 & S5); [exists c; auto|].
    set (o := restored cp (s_o s)) in *.
    assert (HJ : JS E (o_params o) (bound_of o) (fun _ => True) (changed (restored cp) (with_disk d s))).
    { split; [|intros _ f c' cp' _ _; exact I]. apply J_of; auto. unfold bound_of. simpl. lia. }
    pose proof (s_stage2 E Hcb Hdim _ _ (good_of _ S1 S3 S5) (fun _ => True) (fun _ _ _ _ => I) true refs None u HE
      (fun l K => ltac:(discriminate K)) _ HJ) as H.
    destruct (stage2_run _ _ _ _ _ _) as [[?|?|] ?]; [discriminate|discriminate|contradiction].
Qed.
(** the same with an invariant of the checkpoint files *)
Theorem run_keeps : forall E M (C : checkpoint -> Prop) s, env_ok E -> callbacks_keep_settings E -> solvers_keep_dimension E ->
  Forall finite_bound (pb_bounds (e_problem E)) ->
  (forall p o cp, good_params M p -> J E p M o -> snapshot o cp -> C cp) ->
  (forall p o cp, J E p M o -> C cp -> good_params M (cp_params cp) /\ J E (cp_params cp) M (restored cp o)) ->
  (exists p, good_params M p /\ JS E p M C s) -> saves_fit s ->
  match run E s with
  | (Panic, _) => False
  | (_, s') => exists p, good_params M p /\ JS E p M C s'
  end.
Proof.
  intros E M C s HE Hcb Hdim Hb Hsn Hrs (p & Gp & HJ) Fit.
  destruct (run_split E s) as [(d & Hd & Hs & e & He)|[(s1 & R & ->)|(s1 & refs & u & R & ->)]].
  - destruct (run E s) as [r s']. simpl in *. subst. exists p. split; [exact Gp|]. destruct HJ as [HJ D]. split; [exact HJ|].
    intros F f b cp I'. simpl in I'. rewrite Hd in I'. apply (D F f b cp I').
  - inversion R as [d Hd Hn|]; subst.
    assert (HJ1 : JS E p M C (with_disk d s)).
    { destruct HJ as [HJ D]. split; [exact HJ|]. intros F f b cp I'. simpl in I'. rewrite Hd in I'. apply (D F f b cp I'). }
    pose proof (s_fresh E Hcb Hdim _ _ Gp C (fun o cp => Hsn p o cp Gp) (with_disk d s) HE HJ1 Hb) as H.
    destruct (bind _ _ _) as [[?|?|] ?]; [destruct H; eauto|eauto|contradiction].
  -
    inversion R as [|c d cp' H1 H2 H3 H4 Hd]; subst.
    pose proof (proj2 HJ Fit) as D.
    assert (Hc : C cp').
    { destruct (load_latest E c (snd (checkpoint_exists E c (w_disk (s_w s))))) as [r d2] eqn:El. simpl in H4. subst r.
      apply load_latest_file in El as (f' & b' & Hin' & Hdec'). rewrite (reads_exists E c (w_disk (s_w s))) in Hin'. eapply D; eauto. }
    destruct (Hrs p (s_o s) cp' (proj1 HJ) Hc) as [G J'].
    assert (HJ1 : JS E (cp_params cp') M C (changed (restored cp') (with_disk d s))).
    { split; [exact J'|]. intros F f' b' cp0 I'. simpl in I'. rewrite Hd in I'. apply (D f' b' cp0 I'). }
    pose proof (s_stage2 E Hcb Hdim _ _ G C (fun o cp => Hsn _ o cp G) true refs None u HE
      (fun l K => ltac:(discriminate K)) _ HJ1) as H.
    destruct (stage2_run _ _ _ _ _ _) as [[?|?|] ?]; [destruct H; eauto|eauto|contradiction].
Qed.
