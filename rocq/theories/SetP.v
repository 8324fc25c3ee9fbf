(** * The solution set: how it changes, and invariants of it over runs *)
From Coq Require Import ZArith NArith List Bool Arith Lia String.
From Verif Require Import F64 F64Order F64Alg F64Real Base Builders Types Filters Runner Observer Env ScatterSearch
  Codec Checkpoint Oqnlp Spec BasicP SolverP Wp Actions RunP.
Import ListNotations.

(** ** Tracking does not influence what a local search returns *)
Definition forget {A} (r : outcome ls_error (A * N)) : outcome ls_error A :=
  match r with Ok (a, _) => Ok a | Err e => Err e | Panic => Panic end.
Lemma exec_track : forall X P t1 t2 j, forget (exec X P t1 j) = forget (exec X P t2 j).
Proof. intros. unfold exec. destruct (argmin_run X P j) as [[x|] c n|r]; reflexivity. Qed.
Lemma step_forget : forall X A mk c (k1 k2 : outcome ls_error (A * N)), forget k1 = forget k2 ->
  forget (step X mk c k1) = forget (step X mk c k2).
Proof. intros. unfold step. destruct (ext_ok X c); auto. Qed.
Lemma bounds2_forget : forall A b (k1 k2 : f64 -> f64 -> outcome ls_error (A * N)),
  (forall lo hi, forget (k1 lo hi) = forget (k2 lo hi)) -> forget (bounds2 b k1) = forget (bounds2 b k2).
Proof. intros A [|lo [|hi b]] k1 k2 H; simpl; auto. Qed.
Lemma build_ls_forget : forall X A mk l (k1 k2 : ls_job -> outcome ls_error (A * N)),
  (forall j, forget (k1 j) = forget (k2 j)) -> forget (build_ls X mk l k1) = forget (build_ls X mk l k2).
Proof.
  intros X A mk [] k1 k2 H; simpl; repeat first [apply step_forget | apply bounds2_forget; intros | apply H].
Qed.
Ltac fg := repeat first [ apply step_forget | apply build_ls_forget; intros | apply exec_track ].
Lemma track_irrelevant : forall X P ty cfg x t1 t2,
  forget (solve_with_tracking X P ty cfg x t1) = forget (solve_with_tracking X P ty cfg x t2).
Proof.
  intros X P ty cfg x t1 t2.
  destruct ty, cfg; try reflexivity; unfold solve_with_tracking, solve_lbfgs, solve_nelder_mead,
    solve_steepestdescent, solve_trust_region, solve_newton_cg, solve_cobyla; fg.
  - match goal with |- context [match ?l with Some _ => _ | None => _ end] => destruct l end; fg.
  - match goal with |- context [match ?l with MoreThuente _ _ _ _ => _ | _ => _ end] => destruct l end; fg.
  - destruct (Nat.eqb _ _); [|reflexivity].
    match goal with |- context [cobyla_run ?a ?b] => destruct (cobyla_run a b) end; reflexivity.
Qed.
Lemma solve_tracked_solve : forall E ty cfg x track sol n,
  solve_tracked E ty cfg x track = Ok (sol, n) -> solve (e_ext E) (e_problem E) ty cfg x = Ok sol.
Proof.
  intros E ty cfg x track sol n. unfold solve_tracked.
  pose proof (track_irrelevant (e_ext E) (e_problem E) ty cfg x true false) as H.
  unfold solve in *.
  destruct track.
  - intro Hs. rewrite Hs in H. simpl in H.
    destruct (solve_with_tracking (e_ext E) (e_problem E) ty cfg x false) as [[a k]|e|]; simpl in *; congruence.
  - destruct (solve_with_tracking (e_ext E) (e_problem E) ty cfg x false) as [[a k]|e|]; simpl in *; congruence.
Qed.

(** ** Transitions of the solution set *)
Inductive transition (E : env) (o : oqnlp) (sol : lsol) : solset -> Prop :=
| TrFirst : o_set o = None -> transition E o sol [sol]
| TrBetter : forall cur rest, o_set o = Some (cur :: rest) ->
    flt (ls_obj sol) (fsub (ls_obj cur) (tol_of (o_abs_tol o) (o_rel_tol o) (ls_obj sol) (ls_obj cur))) = true ->
    transition E o sol [sol]
| TrSimilar : forall cur rest, o_set o = Some (cur :: rest) ->
    flt (ls_obj sol) (fsub (ls_obj cur) (tol_of (o_abs_tol o) (o_rel_tol o) (ls_obj sol) (ls_obj cur))) = false ->
    fle (fabs (fsub (ls_obj sol) (ls_obj cur))) (tol_of (o_abs_tol o) (o_rel_tol o) (ls_obj sol) (ls_obj cur)) = true ->
    is_duplicate (p_distance_factor (o_params o)) (ls_point sol) (cur :: rest) = false ->
    transition E o sol ((cur :: rest) ++ [sol]).
Definition admissible (E : env) (o : oqnlp) (sol : lsol) : Prop :=
  o_exclude o = false \/ within_bounds (pb_bounds (e_problem E)) (ls_point sol) = Some true.
Definition no_set_event (l : list event) : Prop := forall set, ~ In (EvSolutionSet set) l.

Lemma pls_set : forall E sol s,
  let s' := snd (process_local_solution E sol s) in
  exists new, trace s' = new ++ trace s /\ (s' = s \/ In (EvResult sol) new) /\
    (forall x, In (EvResult x) new -> x = sol) /\
    ((o_set (s_o s') = o_set (s_o s) /\ no_set_event new) \/
     exists set, o_set (s_o s') = Some set /\ In (EvSolutionSet set) new /\
       (forall x, In (EvSolutionSet x) new -> x = set) /\
       admissible E (s_o s) sol /\ transition E (s_o s) sol set).
Proof.
  intros E sol s. cbv zeta.
  destruct (pls_cases E sol s) as [[-> _]|[[_ [_ [-> _]]]|[Ha [[Hn [-> _]]|
    [cur [rest [Hs [[Hb [_ [ob ->]]]|[[H1 [H2 [H3 [_ [ob ->]]]]]|[_ [_ [_ ->]]]]]]]]]]]];
  cbv [changed noted trace s_o s_w w_trace w_disk w_tick].
  - exists []. split; [reflexivity|]. split; [auto|]. split; [intros ? []|].
    left. split; [reflexivity|]. intros set [].
  - exists [EvResult sol]. split; [reflexivity|]. split; [simpl; auto|]. split; [simpl; intuition congruence|].
    left. split; [reflexivity|]. intros set [Hx|[]]; discriminate.
  - exists [EvThreshold (ls_obj sol); EvSolutionSet [sol]; EvResult sol].
    split; [reflexivity|]. split; [simpl; auto|]. split; [simpl; intuition congruence|].
    right. exists [sol]. split; [reflexivity|]. split; [simpl; auto|].
    split; [simpl; intuition congruence|]. split; [exact Ha|]. apply TrFirst; auto.
  - exists [EvThreshold (ls_obj sol); EvSolutionSet [sol]; EvResult sol].
    split; [reflexivity|]. split; [simpl; auto|]. split; [simpl; intuition congruence|].
    right. exists [sol]. split; [reflexivity|]. split; [simpl; auto|].
    split; [simpl; intuition congruence|]. split; [exact Ha|]. eapply TrBetter; eauto.
  - exists [EvSolutionSet ((cur :: rest) ++ [sol]); EvResult sol].
    split; [reflexivity|]. split; [simpl; auto|]. split; [simpl; intuition congruence|].
    right. exists ((cur :: rest) ++ [sol]). split; [reflexivity|]. split; [simpl; auto|].
    split; [simpl; intuition congruence|]. split; [exact Ha|]. eapply TrSimilar; eauto.
  - exists [EvResult sol]. split; [reflexivity|]. split; [simpl; auto|]. split; [simpl; intuition congruence|].
    left. split; [reflexivity|]. intros set [Hx|[]]; discriminate.
Qed.

(** an elementary action: what happens to the set *)
Lemma act_set : forall E K objs s s', act E K objs s s' ->
  exists new, trace s' = new ++ trace s /\
    ((o_set (s_o s') = o_set (s_o s) /\ no_set_event new) \/
     exists sol it p set, K it p /\ In (EvSearch it p) (trace s) /\ solver_result E (s_o s) p sol /\
       o_set (s_o s') = Some set /\ In (EvSolutionSet set) new /\
       (forall x, In (EvSolutionSet x) new -> x = set) /\
       admissible E (s_o s) sol /\ transition E (s_o s) sol set).
Proof.
  intros E K objs s s' H; destruct H;
    try (exists []; split; [reflexivity|]; left; split; [reflexivity|intros ? []]; fail);
    try (eexists [_]; split; [reflexivity|]; left; split; [reflexivity|];
         intros ? [Hx|[]]; try discriminate; subst; simpl in *; discriminate).
  destruct (pls_set E sol s) as (new & Ht & _ & _ & [[G1 G2]|(set & G1 & G2 & G3 & G4 & G5)]); cbv zeta in *.
  - exists new. auto.
  - exists new. split; auto. right. exists sol, it, p, set. auto 10.
Qed.

(** ** A generic invariant of the solution set *)
Section Invariant.
Context (E : env) (P : oqnlp -> solset -> Prop).
(** the property depends only on the configuration *)
Hypothesis P_config : forall o o' set, same_config o o' -> P o set -> P o' set.
Hypothesis P_step : forall o p sol set, (forall x, o_set o = Some x -> P o x) ->
  solver_result E o p sol -> admissible E o sol -> transition E o sol set -> P o set.
Definition set_holds (o : oqnlp) : Prop := forall set, o_set o = Some set -> P o set.

Lemma acts_set_holds : forall K objs s s', acts E K objs s s' -> set_holds (s_o s) ->
  set_holds (s_o s') /\
  exists new, trace s' = new ++ trace s /\ forall set, In (EvSolutionSet set) new -> P (s_o s) set.
Proof.
  intros K objs s s' H; induction H as [s|s s1 s' H H0 IH]; intro Hs.
  - split; auto. exists []. split; [reflexivity|intros ? []].
  - pose proof (act_config _ _ _ _ _ H) as Hc.
    destruct (act_set _ _ _ _ _ H) as (new1 & Ht1 & Hcase).
    assert (Hs1 : set_holds (s_o s1) /\ forall set, In (EvSolutionSet set) new1 -> P (s_o s) set).
    { destruct Hcase as [[H1 H2]|(sol & it & p & set & _ & _ & Hsr & H1 & H2 & H3 & H4 & H5)].
      - split; [|intros set Hin; exfalso; eapply H2; eauto].
        intros set Hset. eapply P_config; [exact Hc|]. apply Hs. congruence.
      - assert (Hp : P (s_o s) set) by (eapply P_step; eauto).
        split; [|intros x Hx; rewrite (H3 x Hx); auto].
        intros x Hx. assert (x = set) by congruence. subst. eapply P_config; eauto. }
    destruct Hs1 as [Hs1 Hn1]. destruct (IH Hs1) as [Hs' (new2 & Ht2 & Hn2)].
    split; auto. exists (new2 ++ new1). split; [rewrite Ht2, Ht1, app_assoc; reflexivity|].
    intros set Hin. apply in_app_or in Hin as [Hin|Hin]; auto.
    pose proof (act_config _ _ _ _ _ H) as Hc'.
    assert (Hcs : same_config (s_o s1) (s_o s)).
    { unfold same_config in *. intuition congruence. }
    eapply P_config; [exact Hcs|]. auto.
Qed.
End Invariant.

(** ** The configuration and set a run starts from: the optimizer's own, or a checkpoint's *)
Definition start_of (E : env) (s : st) (o : oqnlp) : Prop :=
  exists resumed s1, run_start E s resumed s1 /\ o = s_o s1.

Lemma run_set_holds : forall E (P : oqnlp -> solset -> Prop) s r s',
  (forall o o' set, same_config o o' -> P o set -> P o' set) ->
  (forall o p sol set, (forall x, o_set o = Some x -> P o x) ->
     solver_result E o p sol -> admissible E o sol -> transition E o sol set -> P o set) ->
  run E s = (r, s') ->
  (forall o, start_of E s o -> set_holds P o) -> set_holds P (s_o s) ->
  set_holds P (s_o s') /\
  (forall set, r = Ok set -> P (s_o s') set) /\
  exists new, trace s' = new ++ trace s /\ forall set, In (EvSolutionSet set) new -> P (s_o s') set.
Proof.
  intros E P s r s' Pc Ps Hrun Hst H0.
  destruct (run_acts E s r s' Hrun) as [Hsh Hok].
  assert (Hmain : set_holds P (s_o s') /\ exists new, trace s' = new ++ trace s /\
            forall set, In (EvSolutionSet set) new -> P (s_o s') set).
  { assert (Hpush : forall K objs a, trace a = trace s -> acts E K objs a s' -> set_holds P (s_o a) ->
      set_holds P (s_o s') /\ exists new, trace s' = new ++ trace s /\
            forall set, In (EvSolutionSet set) new -> P (s_o s') set).
    { intros K objs a Ha Hr Hh. destruct (acts_set_holds E P Pc Ps K objs a s' Hr Hh) as [Hx (new & Ht & Hn)].
      split; auto. exists new. split; [congruence|]. intros set Hin. eapply Pc; [eapply acts_config; eauto|]. auto. }
    destruct Hsh as [d Hd Hs _ | s1 Hs1 Ha | s1 s2 refs objs Hs1 _ Ha1 Ha2 | s1 refs Hs1 _ Ha].
    - subst s'. split; auto. exists []. split; [reflexivity|intros ? []].
    - assert (trace s1 = trace s) by (inversion Hs1; subst; reflexivity).
      eapply Hpush; eauto. apply Hst. exists false, s1. auto.
    - assert (Ht : trace s1 = trace s) by (inversion Hs1; subst; reflexivity).
      destruct (acts_set_holds E P Pc Ps _ _ _ _ Ha1) as [Hx (new1 & Ht1 & Hn1)].
      { apply Hst. exists false, s1. auto. }
      destruct (acts_set_holds E P Pc Ps _ _ _ _ Ha2 Hx) as [Hy (new2 & Ht2 & Hn2)].
      split; auto. exists (new2 ++ new1). split; [rewrite Ht2, Ht1, Ht, app_assoc; reflexivity|].
      intros set Hin. apply in_app_or in Hin as [Hin|Hin]; (eapply Pc; [eapply acts_config; eauto|]); auto.
      eapply Pc; [eapply acts_config; eauto|]; auto.
    - assert (trace s1 = trace s) by (inversion Hs1; subst; reflexivity).
      eapply Hpush; eauto. apply Hst. exists true, s1. auto. }
  destruct Hmain as [H1 H2]. split; auto. 
Qed.

(** ** Where a restored checkpoint comes from *)
Lemma bytes_eqb_eq : forall a b, bytes_eqb a b = true <-> a = b.
Proof. intros a b. unfold bytes_eqb. destruct (list_eq_dec _ a b); split; congruence. Qed.
Lemma lookup_in : forall n l v, lookup n l = Some v -> In (n, v) l.
Proof.
  induction l as [|[k w] l IH]; simpl; intros v H; [discriminate|].
  destruct (bytes_eqb k n) eqn:Hk; [|right; auto]. apply bytes_eqb_eq in Hk. left; congruence.
Qed.
Lemma load_path_file : forall E f d cp d', load_from_path E f d = (Ok cp, d') ->
  exists content, In (f, content) (d_files d) /\ decode_checkpoint content = Some cp.
Proof.
  intros E f d cp d'. unfold load_from_path, bind, get, next_io. simpl.
  destruct (lookup f (d_files d)) as [content|] eqn:Hl; [|discriminate].
  destruct (e_io E (d_tick d)); try discriminate.
  destruct (decode_checkpoint content) eqn:Hd; simpl; [|discriminate].
  intro H; injection H as <- <-. exists content. split; auto. apply lookup_in; auto.
Qed.
Lemma load_latest_file : forall E c d cp d', load_latest E c d = (Ok cp, d') ->
  exists f content, In (f, content) (d_files d) /\ decode_checkpoint content = Some cp.
Proof.
  intros E c d cp d'. unfold load_latest. destruct (cc_keep_all c).
  - unfold bind at 1. pose proof (reads_find E c d) as Hr. destruct (find_latest E c d) as [[f|e|] d1];
      try discriminate. simpl in Hr. intro H. apply load_path_file in H as (content & Hin & Hdec).
    rewrite Hr in Hin. eauto.
  - unfold bind at 1. simpl. intro H. apply load_path_file in H as (content & Hin & Hdec). eauto.
Qed.
Lemma run_start_file : forall E s s1, run_start E s true s1 ->
  exists f content cp, In (f, content) (d_files (w_disk (s_w s))) /\ decode_checkpoint content = Some cp /\
    s_o s1 = restored cp (s_o s).
Proof.
  intros E s s1 H. remember true as b. destruct H as [|c d cp Hc Ha He Hl Hd]; [discriminate|].
  destruct (load_latest E c (snd (checkpoint_exists E c (w_disk (s_w s))))) as [r d2] eqn:El.
  simpl in Hl. subst r. apply load_latest_file in El as (f & content & Hin & Hdec).
  rewrite (reads_exists E c (w_disk (s_w s))) in Hin. exists f, content, cp. auto.
Qed.
Lemma run_start_fresh : forall E s s1, run_start E s false s1 -> s_o s1 = s_o s.
Proof. intros E s s1 H. inversion H; subst; reflexivity. Qed.
Lemma start_holds : forall E (P : oqnlp -> Prop) s, P (s_o s) ->
  checkpoints_hold (fun cp => P (restored cp (s_o s))) s -> forall o, start_of E s o -> P o.
Proof.
  intros E P s H1 H2 o ([|] & s1 & Hs & ->).
  - apply run_start_file in Hs as (f & content & cp & Hin & Hdec & ->). eapply H2; eauto.
  - rewrite (run_start_fresh _ _ _ Hs). auto.
Qed.

(** the events of a run *)
Lemma run_trace : forall E s r s', run E s = (r, s') -> exists new, trace s' = new ++ trace s.
Proof.
  intros E s r s' Hrun. destruct (run_acts E s r s' Hrun) as [Hsh _].
  destruct Hsh as [d Hd -> _ | s1 Hs1 Ha | s1 s2 refs objs Hs1 _ Ha1 Ha2 | s1 refs Hs1 _ Ha].
  - exists []; reflexivity.
  - replace (trace s) with (trace s1) by (inversion Hs1; subst; reflexivity). eapply acts_trace; eauto.
  - replace (trace s) with (trace s1) by (inversion Hs1; subst; reflexivity).
    apply acts_trace in Ha1 as [n1 H1]. apply acts_trace in Ha2 as [n2 H2].
    exists (n2 ++ n1). rewrite H2, H1, app_assoc. reflexivity.
  - replace (trace s) with (trace s1) by (inversion Hs1; subst; reflexivity). eapply acts_trace; eauto.
Qed.
Definition set_of_run (r : outcome oq_error solset) (s s' : st) (set : solset) : Prop :=
  r = Ok set \/ o_set (s_o s') = Some set \/ stored_during s s' set.
Lemma run_invariant : forall E (P : oqnlp -> solset -> Prop) s r s' set,
  (forall o o' set, same_config o o' -> P o set -> P o' set) ->
  (forall o p sol set, (forall x, o_set o = Some x -> P o x) ->
     solver_result E o p sol -> admissible E o sol -> transition E o sol set -> P o set) ->
  run E s = (r, s') -> set_holds P (s_o s) ->
  checkpoints_hold (fun cp => set_holds P (restored cp (s_o s))) s ->
  set_of_run r s s' set -> P (s_o s') set.
Proof.
  intros E P s r s' set Pc Ps Hrun H0 Hcp Hset.
  destruct (run_set_holds E P s r s' Pc Ps Hrun (start_holds E _ s H0 Hcp) H0) as [H1 [H2 (new & Ht & H3)]].
  destruct Hset as [Hr|[Ho|(new' & Ht' & Hin)]]; auto.
  apply H3. change (trace s' = new' ++ trace s) in Ht'. rewrite Ht in Ht'. apply app_inv_tail in Ht'. congruence.
Qed.
(** the same for a history of processed solutions *)
Lemma history_config : forall E sols s s', history E sols s s' -> same_config (s_o s) (s_o s').
Proof.
  intros E sols s s' H; induction H as [s|x sols b s s1 s' Hp Hh IH]; [apply same_config_refl|].
  eapply same_config_trans; [|exact IH].
  pose proof (pls_cases E x s) as Hc. rewrite Hp in Hc. simpl in Hc.
  destruct Hc as [[-> _]|[[_ [_ [-> _]]]|[_ [[_ [-> _]]|
    [cur [rest [_ [[_ [_ [ob ->]]]|[[_ [_ [_ [_ [ob ->]]]]]|[_ [_ [_ ->]]]]]]]]]]]];
  repeat split.
Qed.
Lemma history_invariant : forall E (P : oqnlp -> solset -> Prop) sols s s',
  (forall o o' set, same_config o o' -> P o set -> P o' set) ->
  (forall o sol set, (forall x, o_set o = Some x -> P o x) ->
     admissible E o sol -> transition E o sol set -> P o set) ->
  history E sols s s' -> set_holds P (s_o s) -> set_holds P (s_o s').
Proof.
  intros E P sols s s' Pc Ps H; induction H as [s|x sols b s s1 s' Hp Hh IH]; intro Hs; auto.
  apply IH. assert (Hc : same_config (s_o s) (s_o s1)).
  { eapply (history_config E [x]); econstructor; [eauto|constructor]. }
  pose proof (pls_set E x s) as Hx. rewrite Hp in Hx. simpl in Hx.
  destruct Hx as (new & _ & _ & _ & [[H1 _]|(set & H1 & _ & _ & H4 & H5)]).
  - intros y Hy. eapply Pc; eauto. apply Hs. congruence.
  - intros y Hy. assert (y = set) by congruence; subst. eapply Pc; eauto.
Qed.

(** ** C22 *)
Lemma close_config : forall o o' set, same_config o o' ->
  close_to_first (o_abs_tol o) (o_rel_tol o) set -> close_to_first (o_abs_tol o') (o_rel_tol o') set.
Proof.
  unfold same_config; intros o o' set H. destruct H as (_ & _ & _ & _ & _ & _ & _ & _ & _ & _ & -> & -> & _). auto.
Qed.
Lemma close_step : forall E o sol set,
  (forall x, o_set o = Some x -> close_to_first (o_abs_tol o) (o_rel_tol o) x) ->
  transition E o sol set -> close_to_first (o_abs_tol o) (o_rel_tol o) set.
Proof.
  intros E o sol set H Ht. destruct Ht as [_|cur rest _ _|cur rest Hs _ Hd _].
  - intros [|[|i]] x f Hi Hx; try lia; simpl in Hx; discriminate.
  - intros [|[|i]] x f Hi Hx; try lia; simpl in Hx; discriminate.
  - intros i x f Hi Hx Hf. simpl in Hf. injection Hf as <-.
    destruct (lt_dec i (List.length (cur :: rest))) as [Hl|Hl].
    + rewrite nth_error_app1 in Hx by auto. eapply H; eauto.
    + rewrite nth_error_app2 in Hx by lia.
      destruct (i - List.length (cur :: rest)) as [|k]; simpl in Hx; [|destruct k; discriminate].
      injection Hx as <-. exact Hd.
Qed.
Lemma c22_run : forall E s r s' set, run E s = (r, s') ->
  (forall x, o_set (s_o s) = Some x -> close_to_first (o_abs_tol (s_o s)) (o_rel_tol (s_o s)) x) ->
  checkpoints_hold (fun cp => forall x, cp_solution_set cp = Some x ->
    close_to_first (cp_abs_tol cp) (cp_rel_tol cp) x) s ->
  r = Ok set \/ o_set (s_o s') = Some set \/ stored_during s s' set ->
  close_to_first (o_abs_tol (s_o s')) (o_rel_tol (s_o s')) set.
Proof.
  intros E s r s' set Hrun H0 Hcp Hset.
  apply (run_invariant E (fun o => close_to_first (o_abs_tol o) (o_rel_tol o)) s r s'); auto.
  - apply close_config.
  - intros o p sol x Hx _ _ Ht. eapply close_step; eauto.
Qed.
Lemma c22_history : forall E sols s s' set, history E sols s s' ->
  (forall x, o_set (s_o s) = Some x -> close_to_first (o_abs_tol (s_o s)) (o_rel_tol (s_o s)) x) ->
  o_set (s_o s') = Some set -> close_to_first (o_abs_tol (s_o s')) (o_rel_tol (s_o s')) set.
Proof.
  intros E sols s s' set Hh H0.
  apply (history_invariant E (fun o => close_to_first (o_abs_tol o) (o_rel_tol o)) sols s s'); auto.
  - apply close_config.
  - intros o sol x Hx _ Ht. eapply close_step; eauto.
Qed.

(** ** C23 *)
Definition sep_of (o : oqnlp) (set : solset) : Prop := pairwise_separated (p_distance_factor (o_params o)) set.
Lemma sep_config : forall o o' set, same_config o o' -> sep_of o set -> sep_of o' set.
Proof. unfold same_config, sep_of; intros o o' set H. destruct H as [-> _]. auto. Qed.
Lemma not_duplicate : forall d p set, is_duplicate d p set = false ->
  forall i y, nth_error set i = Some y -> separated d p (ls_point y).
Proof.
  intros d p set H i y Hy. apply nth_error_In in Hy. unfold is_duplicate in H. unfold separated.
  destruct (flt (dist2 p (ls_point y)) (fmul d d)) eqn:Hf; auto.
  assert (existsb (fun s => flt (dist2 p (ls_point s)) (fmul d d)) set = true)
    by (apply existsb_exists; eauto). congruence.
Qed.
Lemma separated_sym : forall d a b, separated d a b -> separated d b a.
Proof.
  unfold separated. intros d a b H. rewrite <- H. apply flt_nsim; [apply dist2_sym|apply nsim_refl].
Qed.
Lemma sep_step : forall E o sol set, (forall x, o_set o = Some x -> sep_of o x) ->
  transition E o sol set -> sep_of o set.
Proof.
  intros E o sol set H Ht. destruct Ht as [_|cur rest _ _|cur rest Hs _ _ Hu].
  - intros [|[|i]] [|[|j]] x y Hij Hx Hy; simpl in *; try discriminate; congruence.
  - intros [|[|i]] [|[|j]] x y Hij Hx Hy; simpl in *; try discriminate; congruence.
  - pose proof (not_duplicate _ _ _ Hu) as Hn. set (l := cur :: rest) in *.
    assert (Hcase : forall k z, nth_error (l ++ [sol]) k = Some z ->
              (k < List.length l /\ nth_error l k = Some z) \/ (k = List.length l /\ z = sol)).
    { intros k z Hz. destruct (lt_dec k (List.length l)) as [Hl|Hl].
      - rewrite nth_error_app1 in Hz by auto. auto.
      - rewrite nth_error_app2 in Hz by lia.
        destruct (k - List.length l) as [|m] eqn:Hk; simpl in Hz; [|destruct m; discriminate].
        right. split; [lia|congruence]. }
    intros i j x y Hij Hx Hy. apply Hcase in Hx. apply Hcase in Hy.
    destruct Hx as [[Hi Hx]|[Hi ->]], Hy as [[Hj Hy]|[Hj ->]]; try lia.
    + eapply H; eauto.
    + apply separated_sym. eapply Hn; eauto.
    + eapply Hn; eauto.
Qed.
Lemma c23_run : forall E s r s' set, run E s = (r, s') ->
  (forall x, o_set (s_o s) = Some x -> pairwise_separated (p_distance_factor (o_params (s_o s))) x) ->
  checkpoints_hold (fun cp => forall x, cp_solution_set cp = Some x ->
    pairwise_separated (p_distance_factor (cp_params cp)) x) s ->
  r = Ok set \/ o_set (s_o s') = Some set \/ stored_during s s' set ->
  pairwise_separated (p_distance_factor (o_params (s_o s'))) set.
Proof.
  intros E s r s' set Hrun H0 Hcp Hset.
  apply (run_invariant E sep_of s r s'); auto.
  - apply sep_config.
  - intros o p sol x Hx _ _ Ht. eapply sep_step; eauto.
Qed.
Lemma c23_history : forall E sols s s' set, history E sols s s' ->
  (forall x, o_set (s_o s) = Some x -> pairwise_separated (p_distance_factor (o_params (s_o s))) x) ->
  o_set (s_o s') = Some set -> pairwise_separated (p_distance_factor (o_params (s_o s'))) set.
Proof.
  intros E sols s s' set Hh H0. apply (history_invariant E sep_of sols s s'); auto.
  - apply sep_config.
  - intros o sol x Hx _ Ht. eapply sep_step; eauto.
Qed.

(** ** C27 *)
Definition inside_of (E : env) (o : oqnlp) (set : solset) : Prop :=
  o_exclude o = true -> forall x, In x set -> solution_inside (pb_bounds (e_problem E)) x.
Lemma inside_config : forall E o o' set, same_config o o' -> inside_of E o set -> inside_of E o' set.
Proof.
  unfold same_config, inside_of; intros E o o' set H. destruct H as (_ & _ & _ & _ & _ & _ & _ & -> & _). auto.
Qed.
Lemma within_bounds_inside : forall b p, within_bounds b p = Some true ->
  List.length p <= List.length b /\
  forall i v lh, nth_error p i = Some v -> nth_error b i = Some lh -> not_outside lh v.
Proof.
  induction b as [|[lo hi] b IH]; intros [|x p] H; simpl in *; try discriminate.
  - split; [lia|]. intros [|i]; discriminate.
  - split; [lia|]. intros [|i]; discriminate.
  - unfold fgt in H. destruct (flt x lo) eqn:H1; [discriminate|]. simpl in H.
    destruct (flt hi x) eqn:H2; [discriminate|]. apply IH in H as [Hl Hn]. split; [lia|].
    intros [|i] v lh Hv Hb; simpl in *; [|eauto].
    injection Hv as <-. injection Hb as <-. split; auto.
Qed.
Lemma inside_step : forall E o sol set, (forall x, o_set o = Some x -> inside_of E o x) ->
  admissible E o sol -> transition E o sol set -> inside_of E o set.
Proof.
  intros E o sol set H Ha Ht He.
  assert (Hs : solution_inside (pb_bounds (e_problem E)) sol).
  { destruct Ha as [Ha|Ha]; [congruence|]. apply within_bounds_inside in Ha as [? ?]. split; auto. }
  destruct Ht as [_|cur rest _ _|cur rest Hset _ _ _].
  - intros x [<-|[]]; auto.
  - intros x [<-|[]]; auto.
  - intros x Hx. apply in_app_or in Hx as [Hx|[<-|[]]]; auto. eapply H; eauto.
Qed.
Lemma c27_run : forall E s r s' set, run E s = (r, s') ->
  (o_exclude (s_o s) = true -> forall y, o_set (s_o s) = Some y ->
     forall x, In x y -> solution_inside (pb_bounds (e_problem E)) x) ->
  checkpoints_hold (fun cp => cp_exclude_oob cp = true -> forall y, cp_solution_set cp = Some y ->
     forall x, In x y -> solution_inside (pb_bounds (e_problem E)) x) s ->
  o_exclude (s_o s') = true ->
  r = Ok set \/ o_set (s_o s') = Some set \/ stored_during s s' set ->
  forall x, In x set -> solution_inside (pb_bounds (e_problem E)) x.
Proof.
  intros E s r s' set Hrun H0 Hcp He Hset. revert He.
  apply (run_invariant E (inside_of E) s r s'); auto.
  - apply inside_config.
  - intros o p sol x Hx _ Ha Ht. eapply inside_step; eauto.
  - intros y Hy Hx. exact (H0 Hx y Hy).
  - intros f content cp Hin Hdec y Hy Hx. eapply Hcp; eauto.
Qed.
Lemma c27_history : forall E sols s s' set, history E sols s s' ->
  (forall y, o_set (s_o s) = Some y -> forall x, In x y -> solution_inside (pb_bounds (e_problem E)) x) ->
  o_exclude (s_o s) = true -> o_set (s_o s') = Some set ->
  forall x, In x set -> solution_inside (pb_bounds (e_problem E)) x.
Proof.
  intros E sols s s' set Hh H0 He Hset.
  assert (He' : o_exclude (s_o s') = true).
  { pose proof (history_config _ _ _ _ Hh) as Hc. unfold same_config in Hc. intuition congruence. }
  revert set Hset. 
  assert (Hx : set_holds (inside_of E) (s_o s')).
  { apply (history_invariant E (inside_of E) sols s s'); auto.
    - apply inside_config.
    - intros o sol x Hx Ha Ht. eapply inside_step; eauto.
    - intros y Hy _. exact (H0 y Hy). }
  intros set Hset. apply (Hx set Hset He').
Qed.

(** ** C28: where the members come from *)
Definition new_member (E : env) (K : option nat -> point -> Prop) (o : oqnlp) (x : lsol) : Prop :=
  exists it p, K it p /\ solver_result E o p x.
Lemma transition_member : forall E o sol set x, transition E o sol set -> In x set ->
  x = sol \/ exists set0, o_set o = Some set0 /\ In x set0.
Proof.
  intros E o sol set x H Hin. destruct H as [_|cur rest _ _|cur rest Hs _ _ _].
  - destruct Hin as [<-|[]]; auto.
  - destruct Hin as [<-|[]]; auto.
  - apply in_app_or in Hin as [Hin|[<-|[]]]; eauto.
Qed.
Lemma sr_config : forall E o o' p x, same_config o o' -> solver_result E o p x -> solver_result E o' p x.
Proof.
  intros E o o' p x H (ty & cfg & track & n & H1 & H2). destruct H as (Hp & Ht & Hc & _).
  exists ty, cfg, track, n. split; auto. rewrite Hp, Ht, Hc. auto.
Qed.
Lemma acts_members : forall E K objs s s', acts E K objs s s' ->
  exists new, trace s' = new ++ trace s /\
  forall set x, o_set (s_o s') = Some set \/ In (EvSolutionSet set) new -> In x set ->
    (exists set0, o_set (s_o s) = Some set0 /\ In x set0) \/ new_member E K (s_o s') x.
Proof.
  intros E K objs s s' H; induction H as [s|s s1 s' H H0 IH].
  - exists []. split; [reflexivity|]. intros set x [Hs|[]] Hin. eauto.
  - destruct (act_set _ _ _ _ _ H) as (n1 & T1 & Hcase). destruct IH as (n2 & T2 & IH).
    exists (n2 ++ n1). split; [rewrite T2, T1, app_assoc; reflexivity|].
    pose proof (act_config _ _ _ _ _ H) as Hc. pose proof (acts_config _ _ _ _ _ H0) as Hc0.
    assert (Hstep : forall set x, o_set (s_o s1) = Some set \/ In (EvSolutionSet set) n1 -> In x set ->
              (exists set0, o_set (s_o s) = Some set0 /\ In x set0) \/ new_member E K (s_o s') x).
    { intros set x Hset Hin.
      destruct Hcase as [[G1 G2]|(sol & it & p & set' & Hk & _ & Hsr & G1 & _ & G3 & _ & Htr)].
      - destruct Hset as [Hset|Hset]; [left; exists set; split; congruence|exfalso; eapply G2; eauto].
      - assert (set = set') by (destruct Hset as [Hset|Hset]; [congruence|auto]). subst set'.
        destruct (transition_member _ _ _ _ _ Htr Hin) as [->|?]; auto.
        right. exists it, p. split; auto. eapply sr_config; [|exact Hsr]. eapply same_config_trans; eauto. }
    intros set x Hset Hin.
    destruct Hset as [Hset|Hset]; [|apply in_app_or in Hset as [Hset|Hset]; [|eapply Hstep; eauto]].
    + destruct (IH set x (or_introl Hset) Hin) as [(set0 & G1 & G2)|G]; [eapply Hstep; eauto|auto].
    + destruct (IH set x (or_intror Hset) Hin) as [(set0 & G1 & G2)|G]; [eapply Hstep; eauto|auto].
Qed.
Lemma acts_ref : forall E K objs s s', (forall p, ~ K None p) -> acts E K objs s s' -> o_ref (s_o s') = o_ref (s_o s).
Proof.
  intros E K objs s s' HK H; induction H as [s|s s1 s' H H0 IH]; auto. rewrite IH. clear IH H0.
  destruct H; try reflexivity.
  - destruct (pls_cases E sol s) as [[-> _]|[[_ [_ [-> _]]]|[_ [[_ [-> _]]|
      [cur [rest [_ [[_ [_ [ob ->]]]|[[_ [_ [_ [_ [ob ->]]]]]|[_ [_ [_ ->]]]]]]]]]]]]; reflexivity.
  - exfalso. eapply HK; eauto.
Qed.
Lemma candidate_none : forall E res o refs p, ~ candidate E res o refs None p.
Proof. intros E res o refs p (i & rs & H & _). discriminate. Qed.
Lemma firstn_in : forall A n (l : list A) x, In x (firstn n l) -> In x l.
Proof. intros. rewrite <- (firstn_skipn n l). apply in_or_app; auto. Qed.
Lemma candidate_in : forall E res o refs it p, (forall k l x, In x (e_shuffle E k l) -> In x l) ->
  candidate E res o refs it p -> In p refs.
Proof.
  intros E res o refs it p Hsh (i & rs & _ & _ & Hord & Hn). apply nth_error_In, firstn_in in Hn.
  destruct res; simpl in Hord; [congruence|]. destruct Hord as (seed & _ & ->). eauto.
Qed.
Lemma c28_run : forall E s r s' set x, run E s = (r, s') ->
  (forall k l y, In y (e_shuffle E k l) -> In y l) ->
  r = Ok set \/ o_set (s_o s') = Some set \/ stored_during s s' set -> In x set ->
  (exists set0, o_set (s_o s) = Some set0 /\ In x set0) \/ checkpointed s x \/
  exists p, local_result E (s_o s') p x /\
    ((exists refs, o_ref (s_o s') = Some refs /\ In p refs) \/ stage1_found E s p).
Proof.
  intros E s r s' set x Hrun Hsh Hset Hin.
  destruct (run_acts E s r s' Hrun) as [Hshape Hok].
  assert (Hset' : o_set (s_o s') = Some set \/ stored_during s s' set) by (destruct Hset as [?|?]; auto).
  clear Hset Hok.
  assert (Hsr : forall p, solver_result E (s_o s') p x -> local_result E (s_o s') p x).
  { intros p (ty & cfg & track & n & H1 & H2). exists ty, cfg. split; auto. eapply solve_tracked_solve; eauto. }
  assert (Hset0 : forall s1 res, run_start E s res s1 -> (exists set0, o_set (s_o s1) = Some set0 /\ In x set0) ->
     (exists set0, o_set (s_o s) = Some set0 /\ In x set0) \/ checkpointed s x).
  { intros s1 [|] Hst (set0 & G1 & G2).
    - apply run_start_file in Hst as (f & content & cp & I1 & I2 & I3). rewrite I3 in G1. simpl in G1.
      right. exists f, content, cp, set0. auto.
    - rewrite (run_start_fresh _ _ _ Hst) in G1. left. eauto. }
  assert (Hbest : forall s1 it p, run_start E s false s1 -> stage1_best E s1 it p -> stage1_found E s p).
  { intros s1 it p Hst (_ & s0 & pts & sf & G1 & G2). inversion Hst; subst. exists s0, pts, sf. auto. }
  destruct Hshape as [d Hd -> _ | s1 Hs1 Ha | s1 s2 refs objs Hs1 Hres Ha1 Ha2 | s1 refs Hs1 Href Ha].
  - left. destruct Hset' as [G|(new & G1 & G2)]; [eauto|].
    exfalso. destruct new as [|e n]; [contradiction|]. apply (f_equal (@List.length _)) in G1.
    cbn in G1. rewrite app_length in G1. unfold trace in G1. lia.
  - destruct (acts_members _ _ _ _ _ Ha) as (new & T & Hm).
    assert (Ht : trace s1 = trace s) by (inversion Hs1; subst; reflexivity).
    assert (Hd : o_set (s_o s') = Some set \/ In (EvSolutionSet set) new).
    { destruct Hset' as [G|(n & G1 & G2)]; auto. right. change (trace s' = n ++ trace s) in G1.
      rewrite T, Ht in G1. apply app_inv_tail in G1. congruence. }
    destruct (Hm set x Hd Hin) as [G|(it & p & Hk & Hr)].
    + destruct (Hset0 _ _ Hs1 G); auto.
    + right; right. exists p. split; eauto.
  - destruct (acts_members _ _ _ _ _ Ha1) as (n1 & T1 & Hm1).
    destruct (acts_members _ _ _ _ _ Ha2) as (n2 & T2 & Hm2).
    assert (Ht : trace s1 = trace s) by (inversion Hs1; subst; reflexivity).
    assert (Hc : same_config (s_o s2) (s_o s')) by (eapply acts_config; eauto).
    assert (Hfirst : forall set, o_set (s_o s2) = Some set \/ In (EvSolutionSet set) n1 -> In x set ->
       (exists set0, o_set (s_o s) = Some set0 /\ In x set0) \/ checkpointed s x \/
       exists p, local_result E (s_o s') p x /\ stage1_found E s p).
    { intros set1 Hd1 Hin1. destruct (Hm1 set1 x Hd1 Hin1) as [G|(it & p & Hk & Hr)].
      - destruct (Hset0 _ _ Hs1 G); auto.
      - right; right. exists p. split; eauto. apply Hsr. eapply sr_config; eauto. }
    assert (Hd : o_set (s_o s') = Some set \/ In (EvSolutionSet set) n2 \/ In (EvSolutionSet set) n1).
    { destruct Hset' as [G|(n & G1 & G2)]; auto. right. apply in_app_or. change (trace s' = n ++ trace s) in G1.
      rewrite T2, T1, Ht, app_assoc in G1. apply app_inv_tail in G1. congruence. }
    assert (Hd' : (o_set (s_o s') = Some set \/ In (EvSolutionSet set) n2) \/ In (EvSolutionSet set) n1) by tauto.
    destruct Hd' as [Hd'|Hd'].
    + destruct (Hm2 set x Hd' Hin) as [(set0 & G1 & G2)|(it & p & Hk & Hr)].
      * destruct (Hfirst set0 (or_introl G1) G2) as [G|[G|(p & P1 & P2)]]; eauto 6.
      * right; right. exists p. split; auto. left. exists refs. split; [|eapply candidate_in; eauto].
        rewrite (acts_ref _ _ _ _ _ (candidate_none E false (s_o s2) refs) Ha2).
        destruct Hres as (? & ? & ? & ? & _ & _ & _ & _ & ?). auto.
    + destruct (Hfirst set (or_intror Hd') Hin) as [G|[G|(p & P1 & P2)]]; eauto 6.
  - destruct (acts_members _ _ _ _ _ Ha) as (new & T & Hm).
    assert (Ht : trace s1 = trace s) by (inversion Hs1; subst; reflexivity).
    assert (Hd : o_set (s_o s') = Some set \/ In (EvSolutionSet set) new).
    { destruct Hset' as [G|(n & G1 & G2)]; auto. right. change (trace s' = n ++ trace s) in G1.
      rewrite T, Ht in G1. apply app_inv_tail in G1. congruence. }
    destruct (Hm set x Hd Hin) as [G|(it & p & Hk & Hr)].
    + destruct (Hset0 _ _ Hs1 G); auto.
    + right; right. exists p. split; auto. left. exists refs. split; [|eapply candidate_in; eauto].
      rewrite (acts_ref _ _ _ _ _ (candidate_none E true (s_o s1) refs) Ha). auto.
Qed.
