(** * The points given to Stage 1 and the values attributed in Stage 2 (C30, C73) *)
From Coq Require Import ZArith NArith List Bool Arith Lia Permutation String.
From Verif Require Import F64 F64Order Base Builders Types Filters Runner Observer Env EnvSpec
  ScatterSearch Codec Checkpoint Oqnlp Spec SpecStage1 SpecStage2 BasicP SolverP Wp Actions RunP FrameP FilterP
  SetP HoareP GreedyP SampleP Stage1P Stage1Q Stage2P.
Import ListNotations.

(** every initial point is a member after initialization *)
Lemma init_keeps : forall E, env_ok E -> forall s s1, initialized E s (Ok tt) s1 ->
  forall q, In q (initial_points (e_problem E) s) -> exists w, pb_objective (e_problem E) q = inl w /\ In (q, w) (members s1).
Proof.
  intros E HE s s1 H q Hq. inversion H as [rng l refs objs Hs Hd Hm He| | |]; subst. clear H.
  inversion Hd as [final left cands Hch Hlen Hpop Hne| |]; subst.
  assert (Hin : In q refs).
  { clear - Hch Hq. induction Hch as [|set cands p rest final left Hp Hb Hc IH]; auto. apply IH. apply in_or_app; auto. }
  destruct (mapped_pairs _ _ _ Hm) as [Hl Hp].
  assert (G : exists w, In (q, w) (combine refs objs)).
  { clear - Hin Hl. revert objs Hl. induction refs as [|x refs IH]; intros [|w objs] Hl; try discriminate; [destruct Hin|].
    destruct Hin as [->|Hin]; [exists w; left; auto|]. destruct (IH Hin objs) as [v Hv]; [simpl in Hl; lia|]. exists v. right; auto. }
  destruct G as [w Hw]. exists w. split; [apply Hp; auto|].
  unfold members. cbn [ss_ref ss_objs ss_with_ref]. rewrite combine_fst_snd.
  eapply Permutation_in; [symmetry; apply (eo_sort E HE)|exact Hw].
Qed.
Lemma c73 : forall E p s pts best s', env_ok E -> built E p s -> ss_run E s = (Ok (pts, best), s') ->
  forall q, In q (starting_points (e_problem E) (custom_points s)) ->
  exists w, pb_objective (e_problem E) q = inl w /\
    (In (q, w) pts \/ List.length pts = p_population p /\ forall m, In m pts -> total_le (snd m) w = true) /\
    exists v, In (best, v) pts /\ total_le v w = true.
Proof.
  intros E p s pts best s' HE Hb H q Hq. rewrite <- (initial_eq E p s Hb) in Hq.
  destruct (run_ok_facts E HE _ _ _ _ H) as [_ _ (v & Hv & Hleast) _ _].
  assert (G : exists w, pb_objective (e_problem E) q = inl w /\
    (In (q, w) pts \/ List.length pts = p_population p /\ forall m, In m pts -> total_le (snd m) w = true)).
  { pose proof (rt_eq _ _ _ _ _ _ (run_ends E s) H) as He.
    inversion He as [| | | |s1 s2 trials s3 s'' r Hi N1 Ht Hu N2 Hend Heq]; subst.
    assert (Hpts : pts = members s').
    { destruct (min_by cmp_snd (enumerate (ss_objs s'))) as [[i x]|]; [|discriminate].
      destruct (nth_error (ss_ref s') i); [|discriminate]. injection Hend as -> _. reflexivity. }
    rewrite Hpts, (members_view _ _ N2).
    destruct (init_keeps E HE s s1 Hi q Hq) as (w & Hw & Hin). exists w. split; [auto|].
    rewrite <- (members_view _ _ N1) in Hin. destruct Hu as [[-> ->]|Hu]; [auto|].
    destruct (init_members E HE s s1 Hi) as (L1 & _).
    destruct (noisy_view _ _ N1) as (V1 & V2 & V3 & _).
    assert (L2 : List.length (ss_ref s2) = List.length (ss_objs s2)) by congruence.
    destruct (updated_members E HE s2 trials s3 L2 Hu) as (thr & acc & _ & Ha & L3 & H0 & H1).
    destruct acc as [|x acc].
    - destruct (H0 eq_refl) as [G1 G2]. left. unfold members in *. rewrite G1, G2. exact Hin.
    - destruct (H1 ltac:(discriminate)) as (_ & dropped & P & Lk & Hle).
      assert (I : In (q, w) (members s3 ++ dropped)) by (eapply Permutation_in; [exact P|apply in_or_app; auto]).
      apply in_app_or in I as [I|I]; [auto|right]. split.
      + rewrite Lk, V1. destruct (init_view _ _ _ Hi) as (I1 & _). rewrite I1. destruct (built_view _ _ _ Hb) as (Ep & _). congruence.
      + intros m Hm. apply (Hle m (q, w) Hm I). }
  destruct G as (w & Hw & G). exists w. split; [auto|]. split; [auto|]. exists v. split; [auto|].
  destruct G as [G|[_ G]]; [apply (Hleast _ _ G)|apply (G _ Hv)].
Qed.

(** the search that ends Stage 1 *)
Lemma acts_search1 : forall E K objs s s', acts E K objs s s' -> forall p,
  In (EvSearch None p) (trace s') -> In (EvSearch None p) (trace s) \/ K None p.
Proof.
  intros E K objs s s' H. induction H as [s|s s1 s' H H0 IH]; intros p0 Hin; [auto|].
  destruct (IH _ Hin) as [G|G]; [|auto]. clear IH H0 Hin.
  destruct H; try (left; exact G); try (destruct G as [G|G]; [discriminate|left; exact G]).
  - destruct G as [G|G]; [subst e; discriminate|left; exact G].
  - destruct G as [G|G]; [injection G as ->; right; auto|left; exact G].
  - revert G. destruct (pls_cases E sol s) as [[-> _]|[[_ [_ [-> _]]]|[_ [[_ [-> _]]|
    [cur [rest [_ [[_ [_ [ob ->]]]|[[_ [_ [_ [_ [ob ->]]]]]|[_ [_ [_ ->]]]]]]]]]]]]; intro G; simpl in G;
      repeat (destruct G as [G|G]; [discriminate|]); auto.
Qed.
Lemma search1_start : forall E s r s' new p, run E s = (r, s') -> recorded s s' new -> In (EvSearch None p) new ->
  exists s0 pts sf, stage1_init E (s_o s) (w_tick (s_w s)) = Ok s0 /\ ss_run E s0 = (Ok (pts, p), sf).
Proof.
  intros E s r s' new p Hrun Hnew Hin.
  pose proof (run_blank E s r s' new Hrun Hnew) as Hb. fold (ends s' new) in Hb.
  destruct (run_acts E (blank s) r (ends s' new) Hb) as [Hsh _].
  change new with (trace (ends s' new)) in Hin.
  assert (G : forall s1, run_start E (blank s) false s1 -> stage1_best E s1 None p ->
    exists s0 pts sf, stage1_init E (s_o s) (w_tick (s_w s)) = Ok s0 /\ ss_run E s0 = (Ok (pts, p), sf)).
  { intros s1 Hs1 (_ & s0 & pts & sf & G1 & G2). exists s0, pts, sf. split; [|exact G2]. inversion Hs1; subst; exact G1. }
  destruct Hsh as [d Hd Hs _ | s1 Hs1 Ha | s1 s2 refs objs Hs1 H1 Ha1 Ha2 | s1 refs Hs1 Href Ha].
  - rewrite Hs in Hin. destruct Hin.
  - destruct (start_begins _ _ _ _ Hs1) as [_ Ht].
    destruct (acts_search1 _ _ _ _ _ Ha p Hin) as [K|K]; [rewrite Ht in K; destruct K|]. eauto.
  - destruct (start_begins _ _ _ _ Hs1) as [_ Ht].
    destruct (acts_search1 _ _ _ _ _ Ha2 p Hin) as [K|(i & rs & Hx & _)]; [|discriminate].
    destruct (acts_search1 _ _ _ _ _ Ha1 p K) as [K'|K']; [rewrite Ht in K'; destruct K'|]. eauto.
  - destruct (start_begins _ _ _ _ Hs1) as [_ Ht].
    destruct (acts_search1 _ _ _ _ _ Ha p Hin) as [K|(i & rs & Hx & _)]; [rewrite Ht in K; destruct K|discriminate].
Qed.
Lemma stage1_init_built : forall E o t s0, stage1_init E o t = Ok s0 ->
  built E (o_params o) s0 /\ custom_points s0 = match o_custom o with Some c => c | None => [] end.
Proof.
  intros E o t s0. unfold stage1_init. destruct (ss_new E (o_params o) t) as [s|e|] eqn:Hn; try discriminate.
  intro H. injection H as <-.
  assert (C : ss_custom s = None).
  { revert Hn. unfold ss_new. destruct (bad_bound 0 (pb_bounds (e_problem E))); [discriminate|].
    intro H. injection H as <-. reflexivity. }
  assert (B : built E (o_params o) (ss_set_parallel (o_parallel o) s)) by (apply built_parallel, (built_new _ _ t); auto).
  destruct (o_custom o) as [c|]; destruct (observes1 o); split; auto using built_custom, built_observer;
    unfold custom_points; simpl; rewrite ?C; reflexivity.
Qed.
Lemma c73_run : forall E s r s' new p, env_ok E -> run E s = (r, s') -> recorded s s' new -> In (EvSearch None p) new ->
  forall q, In q (starting_points (e_problem E) (match o_custom (s_o s) with Some c => c | None => [] end)) ->
  exists v w, pb_objective (e_problem E) p = inl v /\ pb_objective (e_problem E) q = inl w /\ total_le v w = true.
Proof.
  intros E s r s' new p HE Hr Hn Hin q Hq.
  destruct (search1_start _ _ _ _ _ _ Hr Hn Hin) as (s0 & pts & sf & Hi & Hs).
  destruct (stage1_init_built _ _ _ _ Hi) as [Hb Hc]. rewrite <- Hc in Hq.
  destruct (c73 E _ s0 pts p sf HE Hb Hs q Hq) as (w & Hw & _ & v & Hv & Hle). exists v, w.
  split; [|auto]. pose proof (c14 E s0 pts p sf HE Hs) as F. rewrite Forall_forall in F. apply (F _ Hv).
Qed.

(** the value attributed to the i-th candidate is that of the i-th reference point *)
Lemma c30_position : forall E s r s' new i p obj o b, env_ok E -> run E s = (r, s') -> recorded s s' new ->
  In (EvDecide i p obj o b) new -> exists q, nth_error (reference_set s') i = Some q /\ pb_objective (e_problem E) q = inl obj.
Proof.
  intros E s r s' new i p obj o b HE Hr Hn Hin.
  destruct (c30_run E s r s' new Hr Hn) as (order & objs & _ & Hperm & H2 & H4 & H3).
  destruct (H3 _ _ _ _ _ Hin) as [G1 G2]. destruct objs as [vs|].
  - destruct (H4 vs eq_refl) as (s0 & pts & sf & best & _ & Hs & Hrefs & -> & _).
    assert (Hl : i < List.length (map snd pts)).
    { rewrite map_length, <- (map_length fst), <- Hrefs, <- (Permutation_length (Hperm HE)).
      apply nth_error_Some. congruence. }
    assert (G3 : nth_error (map snd pts) i = Some obj).
    { unfold cand_objective in G2. destruct (List.length (map snd pts)) as [|n] eqn:El; [lia|].
      rewrite (Nat.mod_small i (S n) Hl) in G2. destruct (nth_error (map snd pts) i); congruence. }
    rewrite nth_error_map in G3. destruct (nth_error pts i) as [[q v]|] eqn:Hp; [|discriminate]. injection G3 as <-.
    exists q. split; [rewrite Hrefs, nth_error_map, Hp; reflexivity|].
    pose proof (c14 E s0 pts best sf HE Hs) as F. rewrite Forall_forall in F. apply (F _ (nth_error_In _ _ Hp)).
  - rewrite (H2 eq_refl) in G1. exists p. split; [exact G1|]. unfold cand_objective in G2.
    destruct (pb_objective (e_problem E) p); congruence.
Qed.
