(** * What the Stage 2 state of the observer shows (C90)

    Statements only; the proofs are lemmas of ShownP.v.  Lists of events have the latest event
    first: in [new = l1 ++ EvCallback (Some i) ob :: l] the callback for candidate [i] sees the
    observer [ob], and [l] is what the run did before. *)
From Coq Require Import ZArith NArith List Bool Arith Lia String.
From Verif Require Import F64 Base Builders Types Filters Runner Observer Env EnvSpec ScatterSearch Codec
  Checkpoint Oqnlp Spec SpecStage1 SpecStage2 SpecObserver SpecVerbose SpecShown Demo Demo2 ShownP CountP Stage2P Properties_Stage2 Properties_Observer.
Import ListNotations.

(** C90, at the callbacks: every callback for a candidate sees that candidate's index, the size
    of the solution set at that moment, the best of the solutions that have been the best of a set
    in this Stage 2 (or, if that is lower, what the observer showed before the run), and the last
    solution that joined or replaced a set.  Missing: the first solution of a run is not shown as
    the last added one, and the threshold may be an older one. *)
Theorem C90_callbacks_partial : forall E s st0 b r s' new l1 i ob l, callbacks_keep_stage2 E -> tracks2 (s_o s) st0 -> set_before E s b ->
  run E s = (r, s') -> recorded s s' new -> new = l1 ++ EvCallback (Some i) ob :: l ->
  exists st, ob_stage2 ob = Some st /\ s2_iteration st = i /\ shows_sets st0 st (sets_in_stage2 b l) /\
    s2_last_added st = last_added b (s2_last_added st0) l.
Proof. exact shown_callbacks. Qed.
Print Assumptions C90_callbacks_partial.
(** The threshold shown: without parallel evaluation it is the one with which the candidate's
    iteration began; *)
Theorem C90_threshold_sequential_partial : forall E s st0 b t0 r s' new l1 i ob l, callbacks_keep_stage2 E -> tracks2 (s_o s) st0 ->
  set_before E s b -> threshold_before E s t0 -> run E s = (r, s') -> recorded s s' new -> o_parallel (s_o s') = false ->
  new = l1 ++ EvCallback (Some i) ob :: l ->
  exists st, ob_stage2 ob = Some st /\ s2_threshold st = threshold_after t0 (before_iteration l).
Proof. exact shown_sequential. Qed.
Print Assumptions C90_threshold_sequential_partial.
(** in batches of at least two it is the one in force. *)
Theorem C90_threshold_batches_partial : forall E s st0 b t0 r s' new l1 i ob l n, callbacks_keep_stage2 E -> tracks2 (s_o s) st0 ->
  set_before E s b -> threshold_before E s t0 -> run E s = (r, s') -> recorded s s' new ->
  o_parallel (s_o s') = true -> o_batch (s_o s') = Some n -> 2 <= n ->
  new = l1 ++ EvCallback (Some i) ob :: l ->
  exists st, ob_stage2 ob = Some st /\ s2_threshold st = threshold_after t0 l.
Proof. exact shown_batches. Qed.
Print Assumptions C90_threshold_batches_partial.
(** After a successful run in which Stage 2 looked at a batch, the state shows the size of the
    returned set. *)
Theorem C90_final_partial : forall E s st0 b set s' new, callbacks_keep_stage2 E -> tracks2 (s_o s) st0 -> set_before E s b ->
  run E s = (Ok set, s') -> recorded s s' new -> In EvBatch new ->
  exists st, tracks2 (s_o s') st /\ s2_set_size st = List.length set /\ shows_sets st0 st (sets_in_stage2 b new) /\
    s2_last_added st = last_added b (s2_last_added st0) new.
Proof. exact shown_final. Qed.
Print Assumptions C90_final_partial.

(** the last callback for a candidate in a record *)
Fixpoint last_call (l : list event) : option (list event * nat * observer * list event) :=
  match l with
  | [] => None
  | EvCallback (Some i) ob :: r => Some ([], i, ob, r)
  | e :: r => option_map (fun x => match x with (a, i, ob, c) => (e :: a, i, ob, c) end) (last_call r)
  end.
Lemma last_call_ok : forall l a i ob c, last_call l = Some (a, i, ob, c) -> l = a ++ EvCallback (Some i) ob :: c.
Proof.
  induction l as [|e l IH]; [discriminate|]. intros a i ob c H.
  assert (G : option_map (fun x => match x with (a, i, ob, c) => (e :: a, i, ob, c) end) (last_call l) = Some (a, i, ob, c) -> e :: l = a ++ EvCallback (Some i) ob :: c).
  { destruct (last_call l) as [[[[a' i'] ob'] c']|]; [|discriminate]. intro X. injection X as <- <- <- <-. simpl. f_equal. apply IH. reflexivity. }
  destruct e; try exact (G H). destruct iter; [|exact (G H)]. simpl in H. injection H as <- <- <- <-. reflexivity.
Qed.
Lemma fresh_before : forall E o, o_cp o = None -> set_before E (start_state o) (o_set o) /\ threshold_before E (start_state o) (mf_threshold (o_merit o)).
Proof. intros E o H. split; left; (split; [reflexivity|]); intros cp (c & X & _); simpl in X; congruence. Qed.

(** The threshold is not always the one in force: *)
Definition C90_threshold_full : Prop := forall E p o ob0 r s' new l1 i ob l st, env_ok E -> callbacks_keep_stage2 E -> oq_new p = Ok o ->
  tracks2 (set_o_observer (Some ob0) o) s2_new -> run E (start_state (sequential (set_o_observer (Some ob0) o))) = (r, s') ->
  recorded (start_state o) s' new -> new = l1 ++ EvCallback (Some i) ob :: l -> ob_stage2 ob = Some st ->
  s2_threshold st = threshold_after pinf l.
Definition spied : oqnlp := sequential (watched 1 demo_oqnlp).
Lemma spied_call : exists l1 i ob l st, record_of wells_env spied = l1 ++ EvCallback (Some i) ob :: l /\ ob_stage2 ob = Some st /\
  flt (s2_threshold st) (threshold_after pinf l) = true /\ s2_last_added st = None /\ map (@List.length lsol) (sets_in_stage2 None l) = [1].
Proof.
  pose (f := fun x : list event * nat * observer * list event => match x with (a, i, ob, c) =>
    match ob_stage2 ob with
    | Some st => flt (s2_threshold st) (threshold_after pinf c) && match s2_last_added st with None => true | Some _ => false end &&
                 match map (@List.length lsol) (sets_in_stage2 None c) with [1] => true | _ => false end
    | None => false
    end end).
  assert (X : option_map f (last_call (record_of wells_env spied)) = Some true) by (vm_compute; reflexivity).
  pose proof (last_call_ok (record_of wells_env spied)) as K.
  destruct (last_call (record_of wells_env spied)) as [[[[a i] ob] c]|]; [|discriminate X].
  specialize (K a i ob c eq_refl). unfold option_map, f in X. clear f. destruct (ob_stage2 ob) as [st|] eqn:Hs; [|discriminate X].
  exists a, i, ob, c, st. split; [exact K|]. split; [exact Hs|]. clear K. injection X as X. apply andb_prop in X as [X X3]. apply andb_prop in X as [X1 X2].
  split; [exact X1|]. split; [destruct (s2_last_added st); [discriminate X2|reflexivity]|].
  destruct (map (@List.length lsol) (sets_in_stage2 None c)) as [|[|[|n]] [|k m]]; try discriminate X3. reflexivity.
Qed.
Lemma spied_run : run wells_env (start_state spied) = (result_of wells_env spied, state_of wells_env spied).
Proof. apply run_pair. Qed.
Lemma spied_tracks : tracks2 (watched 1 demo_oqnlp) s2_new.
Proof. exists (watcher 1). split; [reflexivity|]. split; [discriminate|reflexivity]. Qed.
Theorem C90_threshold_refuted : ~ C90_threshold_full.
Proof.
  intro H. destruct spied_call as (l1 & i & ob & l & st & H1 & H2 & H3 & _).
  pose proof (H wells_env demo_params demo_oqnlp (watcher 1) _ _ _ l1 i ob l st (demo_env_ok _ _) (fun n o => conj eq_refl eq_refl) eq_refl
    spied_tracks spied_run (record_recorded wells_env spied) H1 H2) as X.
  rewrite X, F64Order.flt_irrefl in H3. discriminate H3.
Qed.
Print Assumptions C90_threshold_refuted.
(** nor is the solution shown as the last added one always the newest of the set: *)
Definition C90_added_full : Prop := forall E p o ob0 r s' new l1 i ob l st set rest, env_ok E -> callbacks_keep_stage2 E -> oq_new p = Ok o ->
  tracks2 (set_o_observer (Some ob0) o) s2_new -> run E (start_state (sequential (set_o_observer (Some ob0) o))) = (r, s') ->
  recorded (start_state o) s' new -> new = l1 ++ EvCallback (Some i) ob :: l -> ob_stage2 ob = Some st ->
  sets_in_stage2 None l = set :: rest -> s2_last_added st = newest set.
Theorem C90_added_refuted : ~ C90_added_full.
Proof.
  intro H. destruct spied_call as (l1 & i & ob & l & st & H1 & H2 & _ & H3 & H4).
  destruct (sets_in_stage2 None l) as [|set rest] eqn:Hs; [discriminate H4|].
  pose proof (H wells_env demo_params demo_oqnlp (watcher 1) _ _ _ l1 i ob l st set rest (demo_env_ok _ _) (fun n o => conj eq_refl eq_refl) eq_refl
    spied_tracks spied_run (record_recorded wells_env spied) H1 H2 Hs) as X.
  rewrite H3 in X. destruct set as [|x [|y set]]; simpl in H4; try discriminate H4. discriminate X.
Qed.
Print Assumptions C90_added_refuted.
(** When an observer is used for another optimization, the best objective shown may belong to
    the earlier one: *)
Definition C90_reused_full : Prop := forall E p o ob0 st0 set s' st, env_ok E -> callbacks_keep_stage2 E -> oq_new p = Ok o ->
  tracks2 (set_o_observer (Some ob0) o) st0 -> run E (start_state (sequential (set_o_observer (Some ob0) o))) = (Ok set, s') ->
  tracks2 (s_o s') st -> exists x, In x set /\ s2_best st = ls_obj x.
(** the same problem with values greater by one *)
Definition raised : problem :=
  mk_problem (fun p => match pb_objective two_wells p with inl v => inl (fadd v f1) | inr e => inr e end)
    (pb_gradient two_wells) (pb_hessian two_wells) (pb_bounds two_wells) (pb_constraints two_wells).
Definition raised_env : env := demo_env raised to_well.
(** the observer of an optimization with the best value 0, used for one with the best value 1 *)
Definition used_observer : option observer := o_observer (s_o (state_of wells_env spied)).
Lemma reused_parts : exists ob0 st0 set s' st, tracks2 (set_o_observer (Some ob0) demo_oqnlp) st0 /\
  run raised_env (start_state (sequential (set_o_observer (Some ob0) demo_oqnlp))) = (Ok set, s') /\ tracks2 (s_o s') st /\
  forallb (fun x => flt (s2_best st) (ls_obj x)) set = true.
Proof.
  pose (mode_of := fun ob => match ob_mode ob with Stage1Only => false | _ => true end).
  assert (X : match used_observer with
    | Some ob0 => mode_of ob0 && match ob_stage2 ob0 with Some _ => true | None => false end &&
        match run raised_env (start_state (sequential (set_o_observer (Some ob0) demo_oqnlp))) with
        | (Ok set, s') => match o_observer (s_o s') with
                          | Some ob => mode_of ob && match ob_stage2 ob with Some st => forallb (fun x => flt (s2_best st) (ls_obj x)) set | None => false end
                          | None => false
                          end
        | _ => false
        end
    | None => false end = true) by (vm_compute; reflexivity).
  destruct used_observer as [ob0|]; [|discriminate X]. apply andb_prop in X as [X X3]. apply andb_prop in X as [X1 X2].
  destruct (ob_stage2 ob0) as [st0|] eqn:Hst0; [|discriminate X2].
  destruct (run raised_env (start_state (sequential (set_o_observer (Some ob0) demo_oqnlp)))) as [[set|e|] s'] eqn:Hr; [|discriminate X3..].
  destruct (o_observer (s_o s')) as [ob|] eqn:Ho; [|discriminate X3]. apply andb_prop in X3 as [X3 X4].
  destruct (ob_stage2 ob) as [st|] eqn:Hst; [|discriminate X4].
  assert (M : forall ob, mode_of ob = true -> ob_mode ob <> Stage1Only) by (intros o H E0; unfold mode_of in H; rewrite E0 in H; discriminate H).
  exists ob0, st0, set, s', st. split; [exists ob0; split; [reflexivity|]; auto|]. split; [exact Hr|]. split; [exists ob; auto|exact X4].
Qed.
Theorem C90_reused_refuted : ~ C90_reused_full.
Proof.
  intro H. destruct reused_parts as (ob0 & st0 & set & s' & st & H1 & H2 & H3 & H4).
  destruct (H raised_env demo_params demo_oqnlp ob0 st0 set s' st (demo_env_ok _ _) (fun n o => conj eq_refl eq_refl) eq_refl H1 H2 H3) as (x & Hx & Hb).
  rewrite forallb_forall in H4. specialize (H4 x Hx). rewrite Hb, F64Order.flt_irrefl in H4. discriminate H4.
Qed.
Print Assumptions C90_reused_refuted.
(** When Stage 1 reaches the target the Stage 2 state shows nothing of the returned set: *)
Definition C90_target_full : Prop := forall E p o ob0 set s' st, env_ok E -> callbacks_keep_stage2 E -> oq_new p = Ok o ->
  tracks2 (set_o_observer (Some ob0) o) s2_new -> run E (start_state (target_objective f1 (set_o_observer (Some ob0) o))) = (Ok set, s') ->
  tracks2 (s_o s') st -> s2_set_size st = List.length set.
Lemma hit_parts : exists set s' st, run wells_env (start_state (target_objective f1 (watched 1 demo_oqnlp))) = (Ok set, s') /\ tracks2 (s_o s') st /\
  s2_set_size st = 0 /\ List.length set = 1.
Proof.
  assert (X : match run wells_env (start_state (target_objective f1 (watched 1 demo_oqnlp))) with
        | (Ok set, s') => match o_observer (s_o s') with
                          | Some ob => match ob_mode ob with Stage1Only => false | _ => true end && match ob_stage2 ob with Some st => s2_set_size st =? 0 | None => false end &&
                                       (List.length set =? 1)
                          | None => false
                          end
        | _ => false
        end = true) by (vm_compute; reflexivity).
  destruct (run wells_env (start_state (target_objective f1 (watched 1 demo_oqnlp)))) as [[set|e|] s'] eqn:Hr; [|discriminate X..].
  destruct (o_observer (s_o s')) as [ob|] eqn:Ho; [|discriminate X]. apply andb_prop in X as [X X3]. apply andb_prop in X as [X1 X2].
  destruct (ob_stage2 ob) as [st|] eqn:Hst; [|discriminate X2].
  exists set, s', st. split; [reflexivity|]. split; [exists ob; repeat split; auto; intro E0; rewrite E0 in X1; discriminate X1|].
  split; [apply Nat.eqb_eq, X2|apply Nat.eqb_eq, X3].
Qed.
Theorem C90_target_refuted : ~ C90_target_full.
Proof.
  intro H. destruct hit_parts as (set & s' & st & H1 & H2 & H3 & H4).
  pose proof (H wells_env demo_params demo_oqnlp (watcher 1) set s' st (demo_env_ok _ _) (fun n o => conj eq_refl eq_refl) eq_refl spied_tracks H1 H2) as X.
  congruence.
Qed.
Print Assumptions C90_target_refuted.
(** six callbacks; in batches the set grows to two solutions and the second is shown as the last
    added one *)
Definition views (l : list event) : list (nat * option (nat * bool)) :=
  flat_map (fun e => match e with EvCallback (Some i) ob => [(i, option_map (fun s => (s2_set_size s, match s2_last_added s with Some _ => true | None => false end)) (ob_stage2 ob))] | _ => [] end) (rev l).
Example C90_example : callbacks_keep_stage2 wells_env /\ tracks2 (watched 1 demo_oqnlp) s2_new /\
  set_before wells_env (start_state (watched 1 demo_oqnlp)) None /\ threshold_before wells_env (start_state (watched 1 demo_oqnlp)) pinf /\
  o_parallel (s_o (state_of wells_env spied)) = false /\ existsb is_batch (record_of wells_env spied) = true /\
  views (record_of wells_env (watched 1 demo_oqnlp)) =
    [(0, Some (1, false)); (1, Some (1, false)); (2, Some (2, true)); (3, Some (2, true)); (4, Some (2, true)); (5, Some (2, true))].
Proof.
  split; [intros n o; split; reflexivity|]. split; [exact spied_tracks|]. destruct (fresh_before wells_env (watched 1 demo_oqnlp) eq_refl) as [A B].
  split; [exact A|]. split; [exact B|]. repeat split; vm_compute; reflexivity.
Qed.
