(** * Trial points, distances, seeds: lemmas behind C09, C10, C17, C20 and C21 *)
From Coq Require Import ZArith NArith List Bool Arith Lia Permutation.
From Verif Require Import F64 F64Order F64Alg F64Real Base Builders Types Runner Observer Env EnvSpec
  ScatterSearch Spec SpecStage1 SpecRepro DistP GreedyP SampleP Stage1P Stage1Q SqrtP SchedP.
Import ListNotations.

Lemma c09 : forall E p s, built E p s -> Forall tame_bound (pb_bounds (e_problem E)) ->
  seed_points (ss_lower s) (ss_upper s) =
    [lower_corner (pb_bounds (e_problem E)); upper_corner (pb_bounds (e_problem E)); centre (pb_bounds (e_problem E))] /\
  Forall (in_box (pb_bounds (e_problem E))) (seed_points (ss_lower s) (ss_upper s)).
Proof.
  intros E p s Hb Ht. destruct (built_view _ _ _ Hb) as (_ & _ & _ & -> & -> & _ & Hnb).
  rewrite seed_points_eq. split; [reflexivity|].
  destruct (corners_inside _ Ht (not_ge_le _ (tame_finite _ Ht) Hnb)) as (A1 & A2 & A3 & _). auto.
Qed.
Lemma concat_length6 : forall (gs : list (list point)), Forall (fun g => length g = 6) gs -> length (concat gs) = 6 * length gs.
Proof. induction 1 as [|g gs Hg H IH]; simpl; auto. rewrite app_length, IH, Hg. lia. Qed.
Lemma c10_trials : forall E p s trials s', ss_params s = p ->
  ss_lower s = lower_corner (pb_bounds (e_problem E)) -> ss_upper s = upper_corner (pb_bounds (e_problem E)) ->
  Forall (fun r => length r = length (pb_bounds (e_problem E))) (ss_ref s) ->
  (Z.of_nat (length (ss_ref s)) < 2 ^ 52)%Z ->
  generate_trial_points E s = (Ok trials, s') ->
  let k := sample_size (length (ss_ref s)) in
  exists pairs groups, NoDup pairs /\ (forall i j, In (i, j) pairs <-> i < j < k) /\
    trials = concat groups /\ length trials = 3 * (k * (k - 1)) /\
    Forall2 (fun ij g => length g = 6 /\ exists seed,
       combine_points E (ss_lower s) (ss_upper s) (nth (fst ij) (ss_ref s) []) (nth (snd ij) (ss_ref s) []) seed = Some g)
      pairs groups /\
    Forall (in_box_or_nan (pb_bounds (e_problem E))) trials.
Proof.
  intros E p s trials s' _ Elo Ehi Hdim Hn H k.
  pose proof (rt_eq _ _ _ _ _ _ (gen_trials_spec E s) H) as [_ (groups & -> & G)]. rewrite ksel_sqrt in G by auto. fold k in G.
  exists (pairs k), groups. split; [apply pairs_nodup|]. split; [apply pairs_in|]. split; [reflexivity|].
  assert (X : Forall2 (fun ij g => length g = 6 /\ Forall (in_box_or_nan (pb_bounds (e_problem E))) g /\ exists seed,
       combine_points E (ss_lower s) (ss_upper s) (nth (fst ij) (ss_ref s) []) (nth (snd ij) (ss_ref s) []) seed = Some g)
      (pairs k) groups).
  { clear -G Hdim Elo Ehi. induction G as [|[i j] g l gs (sd & a & b & H1 & H2 & H3) G IH]; constructor; auto.
    cbn [fst snd] in *. pose proof (nth_error_nth _ _ [] H1) as N1. pose proof (nth_error_nth _ _ [] H2) as N2.
    apply nth_error_In in H1, H2. rewrite Forall_forall in Hdim. assert (C := H3). rewrite Elo, Ehi in H3.
    destruct (combine_points_spec E (pb_bounds (e_problem E)) a b sd (Hdim a H1) (Hdim b H2)) as [S _].
    destruct (S g H3) as (L & B & _). split; [exact L|]. split; [exact B|]. exists sd. rewrite <- N1, <- N2 in C. exact C. }
  assert (L6 : Forall (fun g => length g = 6) groups).
  { clear -X. induction X as [|ij g l gs (L & _) X IH]; constructor; auto. }
  assert (Lg : length groups = length (pairs k)) by (clear -X; induction X; simpl; auto).
  split; [rewrite concat_length6, Lg by auto; pose proof (pairs_length k); lia|]. split.
  - clear -X. induction X as [|ij g l gs (L & _ & S) X IH]; constructor; auto.
  - clear -X. induction X as [|ij g l gs (_ & B & _) X IH]; simpl; [constructor|]. apply Forall_app; auto.
Qed.
Lemma c10_box : forall E b a c seed l, length a = length b -> length c = length b ->
  combine_points E (lower_corner b) (upper_corner b) a c seed = Some l -> length l = 6 /\ Forall (in_box_or_nan b) l.
Proof. intros E b a c seed l Ha Hc H. destruct (combine_points_spec E b a c seed Ha Hc) as [S _]. destruct (S l H) as (L & B & _). auto. Qed.

Lemma c15_full : forall E s trials s', env_ok E -> length (ss_ref s) = length (ss_objs s) ->
  (Z.of_nat (length (ss_ref s)) < 2 ^ 52)%Z -> trials <> [] ->
  update_reference_set E trials s = (Ok tt, s') ->
  exists threshold accepted,
    (length (ss_ref s) < 2 -> threshold = f0) /\
    (2 <= length (ss_ref s) -> tenth_of_mean (ss_ref s) (sample_size (length (ss_ref s))) threshold) /\
    (forall p v, In (p, v) accepted <-> In p trials /\ feasible (e_problem E) p /\
       (forall r, In r (firstn 5 (ss_ref s)) -> flt threshold (dist2 p r) = true) /\
       pb_objective (e_problem E) p = inl v /\ flt v (last (ss_objs s) pinf) = true) /\
    (accepted = [] -> members s' = members s) /\
    (accepted <> [] -> exists dropped, Permutation (members s ++ accepted) (members s' ++ dropped) /\
       length (members s') = p_population (ss_params s) /\
       forall a b, In a (members s') -> In b dropped -> total_le (snd a) (snd b) = true) /\
    (forall p v, In (p, v) (members s) -> exists q w, In (q, w) (members s') /\ total_le w v = true).
Proof.
  intros E s trials s' HE Hl Hn Hne H. destruct (c15 E s trials s' HE Hl H Hne) as (thr & acc & Ht & Ha & Hr).
  exists thr, acc. rewrite ksel_sqrt in Ht by auto. destruct (length (ss_ref s) <? 2) eqn:H2.
  - apply Nat.ltb_lt in H2. split; [auto|]. split; [lia|]. split; [exact Ha|exact Hr].
  - apply Nat.ltb_ge in H2. split; [lia|]. split; [auto|]. split; [exact Ha|exact Hr].
Qed.

Lemma c17_spec : forall E refs s out s', diversify_reference_set E refs (pb_constraints (e_problem E)) s = (Ok out, s') -> ss_log s = [] ->
  let cands := filter (feasibleb (e_problem E)) (drawn (ss_log s')) in
  exists left, chosen (if ss_parallel s then not_farther else not_farther_upto) refs cands out left /\
    Permutation (out ++ left) (refs ++ cands) /\ length out = Nat.max (p_population (ss_params s)) (length refs).
Proof.
  intros E refs s out s' H Hlog. cbv zeta.
  destruct (div_spec E refs (pb_constraints (e_problem E)) s) as (rng & l & r & Hd & _ & Hdiv & _). rewrite H in Hd. injection Hd as <- ->.
  cbn [ss_log drew]. rewrite drawn_samples, Hlog. cbn [drawn rev flat_map app]. inversion Hdiv as [final left cands Hch Hlen|  |]; subst. exists left.
  split; [exact Hch|]. split; [|exact Hlen]. apply chosen_perm in Hch. exact Hch.
Qed.
Lemma c20 : forall t t' p refs,
  min_distance false t p refs = min_distance true t' p refs \/
  (min_distance false t p refs = f0 /\ flt (min_distance true t' p refs) lit_1e_14 = true).
Proof.
  intros t t' p refs. unfold min_distance. destruct (min_seq_spec p refs) as [[H _] | (H & q & Hq & Hd)].
  - left. eapply nearest_unique; eauto using min_par_nearest.
  - right. split; auto. destruct (min_par_nearest t' p refs) as (_ & _ & Hm).
    assert (Hn : is_nan (dist2 p q) = false) by (destruct (dist2 p q); auto; discriminate).
    eapply fle_lt_trans; [apply (Hm (dist2 p q)); [apply in_map; auto|auto]|exact Hd].
Qed.
Lemma c20_clear : forall t t' p refs, (forall q, In q refs -> flt (dist2 p q) lit_1e_14 = false) ->
  min_distance false t p refs = min_distance true t' p refs.
Proof.
  intros t t' p refs H. unfold min_distance. destruct (min_seq_spec p refs) as [[G _] | (_ & q & Hq & Hd)].
  - eapply nearest_unique; eauto using min_par_nearest.
  - rewrite (H q Hq) in Hd. discriminate.
Qed.
Lemma c19 : forall t p refs, nearest refs p (min_distance true t p refs) /\
  forall t', min_distance true t' p refs = min_distance true t p refs.
Proof. intros. split; [apply min_par_nearest|]. intro. apply min_par_any. Qed.

Lemma rescheduled_ok : forall sched pick E, env_ok E -> env_ok (rescheduled sched pick E).
Proof. intros sched pick E []. constructor; auto. Qed.
Lemma c21_small : forall E p s sched pick, env_ok E -> built E p s ->
  p_population p <= 8 -> length (custom_points s) <= 5 ->
  ss_run (rescheduled sched pick E) s = ss_run E s.
Proof.
  intros E p s sched pick HE Hb Hp Hc. apply (run_sched E sched pick (e_threads E) (e_clock E) (e_timestamp E)); auto. rewrite (initial_eq E p s Hb).
  destruct (built_view _ _ _ Hb) as (-> & _). pose proof (starting_length (e_problem E) (custom_points s)).
  left; lia.
Qed.
Lemma c21_sequential : forall E s sched pick, env_ok E -> ss_parallel s = false ->
  ss_run (rescheduled sched pick E) s = ss_run E s.
Proof. intros E s sched pick HE Hs. apply (run_sched E sched pick (e_threads E) (e_clock E) (e_timestamp E)); auto. Qed.
(** the same on another machine *)
Lemma elsewhere_small : forall E p s th sched pick clock stamp, env_ok E -> built E p s ->
  p_population p <= 8 -> length (custom_points s) <= 5 -> ss_run (elsewhere th sched pick clock stamp E) s = ss_run E s.
Proof.
  intros E p s th sched pick clock stamp HE Hb Hp Hc. apply run_sched; auto. rewrite (initial_eq E p s Hb).
  destruct (built_view _ _ _ Hb) as (-> & _). pose proof (starting_length (e_problem E) (custom_points s)).
  left; lia.
Qed.
Lemma elsewhere_sequential : forall E s th sched pick clock stamp, env_ok E -> ss_parallel s = false ->
  ss_run (elsewhere th sched pick clock stamp E) s = ss_run E s.
Proof. intros E s th sched pick clock stamp HE Hs. apply run_sched; auto. Qed.
Lemma c21_init : forall E s sched pick, (forall p, exists v, pb_objective (e_problem E) p = inl v) ->
  initialize_reference_set (rescheduled sched pick E) s = initialize_reference_set E s.
Proof. intros E s sched pick H. apply (init_sched E sched pick (e_threads E) (e_clock E) (e_timestamp E)); auto. Qed.
