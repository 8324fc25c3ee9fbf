(** * Which parts of Stage 1 do not depend on how parallel work is scheduled *)
From Coq Require Import ZArith NArith List Bool Arith Lia.
From Verif Require Import F64 F64Order F64Alg Base Builders Types Runner Observer Env EnvSpec
  ScatterSearch Spec SpecStage1 SpecRepro DistP GreedyP SampleP Stage1P Stage1Q SqrtP.
Import ListNotations.

Lemma f0_add : forall x, nonneg x -> fadd f0 x = x.
Proof. intros [s|s|s|s m e] H; cbn [nonneg] in H; subst; reflexivity. Qed.
Lemma add_f0 : forall x, nonneg x -> fadd x f0 = x.
Proof. intros [s|s|s|s m e] H; cbn [nonneg] in H; subst; reflexivity. Qed.
Lemma nonneg_f0 : nonneg f0. Proof. reflexivity. Qed.
Lemma tree_sum_nil : forall t, tree_sum t [] = f0.
Proof.
  unfold tree_sum. induction t as [|k l IHl r IHr]; simpl; auto. rewrite firstn_nil, skipn_nil, IHl, IHr. reflexivity.
Qed.
Lemma tree_sum_1 : forall t a, nonneg a -> tree_sum t [a] = a.
Proof.
  intros t a Ha. induction t as [|k l IHl r IHr].
  - unfold tree_sum. simpl. apply f0_add; auto.
  - change (tree_sum (SNode k l r) [a]) with (fadd (tree_sum l (firstn k [a])) (tree_sum r (skipn k [a]))).
    destruct k; cbn [firstn skipn]; rewrite ?firstn_nil, ?skipn_nil, tree_sum_nil, ?IHl, ?IHr; [apply f0_add|apply add_f0]; auto.
Qed.
Lemma tree_sum_2 : forall t a b, nonneg a -> nonneg b -> tree_sum t [a; b] = fadd a b.
Proof.
  intros t a b Ha Hb. induction t as [|k l IHl r IHr].
  - change (fadd (fadd f0 a) b = fadd a b). rewrite f0_add; auto.
  - change (tree_sum (SNode k l r) [a; b]) with (fadd (tree_sum l (firstn k [a; b])) (tree_sum r (skipn k [a; b]))).
    destruct k as [|[|k]]; cbn [firstn skipn]; rewrite ?firstn_nil, ?skipn_nil.
    + rewrite tree_sum_nil, IHr, f0_add; auto using fadd_nonneg.
    + rewrite !tree_sum_1 by auto. reflexivity.
    + rewrite tree_sum_nil, IHl, add_f0; auto using fadd_nonneg.
Qed.
(** up to two summands the bracketing does not matter *)
Lemma tree_sum_short : forall t l, Forall nonneg l -> length l <= 2 -> tree_sum t l = fsum l.
Proof.
  intros t l H Hl. destruct l as [|a [|b [|c l]]]; simpl in Hl; try lia.
  - apply tree_sum_nil.
  - inversion H; subst. rewrite tree_sum_1 by auto. change (a = fadd f0 a). rewrite f0_add; auto.
  - inversion H as [|? ? Ha H']; subst. inversion H'; subst. rewrite tree_sum_2 by auto. change (fadd a b = fadd (fadd f0 a) b). rewrite f0_add; auto.
Qed.

Lemma bind_cong : forall S E A B (m m' : M S E A) (k k' : A -> M S E B) s, m' s = m s ->
  (forall a s', m s = (Ok a, s') -> k' a s' = k a s') -> bind m' k' s = bind m k s.
Proof. intros S E A B m m' k k' s H G. unfold bind. rewrite H. destruct (m s) as [[a|e|] s']; auto. Qed.

Section Sched.
  Variables (E : env) (sched : list nat -> stree) (pick : list nat -> nat).
  Context (threads : nat) (clock : nat -> f64) (stamp : nat -> String.string).
  Let E' := elsewhere threads sched pick clock stamp E.

  Lemma draw_sched : forall n r, draw_seeds E' n r = draw_seeds E n r.
  Proof. induction n as [|n IH]; intro r; simpl; auto. destruct (e_next E r). rewrite IH. reflexivity. Qed.
  Lemma sample_sched : forall lo hi r, sample_point E' r lo hi = sample_point E r lo hi.
  Proof.
    induction lo as [|l lo IH]; intros [|h hi] r; simpl; auto.
    destruct (e_uniform E r l h) as [[x r']|]; auto. rewrite IH. reflexivity.
  Qed.
  Lemma gen_sched : forall n s, generate_stratified_samples E' n s = generate_stratified_samples E n s.
  Proof.
    intros n s. unfold generate_stratified_samples, bind, get. cbv beta. rewrite draw_sched.
    destruct (draw_seeds E n (ss_rng s)) as [seeds rng].
    rewrite (map_ext _ _ (fun sd => sample_sched (ss_lower s) (ss_upper s) (e_seed_from E sd))). reflexivity.
  Qed.
  Lemma refill_sched : forall pop cs fuel att c s, refill E' pop cs fuel att c s = refill E pop cs fuel att c s.
  Proof.
    induction fuel as [|f IH]; intros att c s; simpl; auto. destruct (length c <? pop); auto.
    unfold bind. rewrite gen_sched. destruct (generate_stratified_samples E (pop * 2) s) as [[b|e|] s1]; auto.
  Qed.
  Lemma min_distance_sched : forall par t t' p refs, min_distance par t p refs = min_distance par t' p refs.
  Proof. intros [|] t t' p refs; simpl; auto. apply min_par_any. Qed.
  Lemma greedy_sched : forall ctx par n refs cands ds, greedy E' ctx par n refs cands ds = greedy E ctx par n refs cands ds.
  Proof.
    induction n as [|n IH]; intros refs cands ds; cbn [greedy]; auto.
    rewrite (argmax_tree par (e_sched E' [ctx; 1; S n])), (argmax_tree par (e_sched E [ctx; 1; S n])).
    destruct (option_map fst _) as [i|]; auto. destruct (swap_remove i cands) as [[far c']|]; auto.
    destruct (swap_remove i ds) as [[x ds']|]; auto.
  Qed.
  Lemma diversify_sched : forall refs cs s, diversify_reference_set E' refs cs s = diversify_reference_set E refs cs s.
  Proof.
    intros refs cs s. unfold diversify_reference_set. apply bind_cong; [reflexivity|]. intros a a' G.
    unfold get in G. injection G as <- <-. cbv zeta. set (pop := p_population (ss_params s)).
    apply bind_cong; [apply gen_sched|]. intros c0 s1 _. apply bind_cong.
    - destruct cs as [|g cs]; [reflexivity|]. apply bind_cong; [apply refill_sched|]. intros [c1 a] s2 _. reflexivity.
    - intros cands s2 _. rewrite greedy_sched. f_equal. f_equal. apply map_ext. intros [i c]. apply min_distance_sched.
  Qed.
  Lemma initial_fold : forall P s, filter (is_feasible (pb_constraints P)) (seed_points (ss_lower s) (ss_upper s)) ++
      match ss_custom s with Some c => filter (is_feasible (pb_constraints P)) c | None => [] end = initial_points P s.
  Proof. intros. unfold initial_points, custom_points. destruct (ss_custom s); reflexivity. Qed.
  Lemma init_sched : forall s, Nat.max (p_population (ss_params s)) (length (initial_points (e_problem E) s)) < 20 \/
      (forall p, exists v, pb_objective (e_problem E) p = inl v) \/ ss_parallel s = false ->
    initialize_reference_set E' s = initialize_reference_set E s.
  Proof.
    intros s H. unfold initialize_reference_set. apply bind_cong; [reflexivity|]. intros a a' G.
    unfold get in G. injection G as <- <-. cbv zeta. change (e_problem E') with (e_problem E).
    rewrite initial_fold. apply bind_cong; [apply diversify_sched|]. intros refs s1 Hdiv.
    destruct (div_spec E (initial_points (e_problem E) s) (pb_constraints (e_problem E)) s) as (rng & l & r & Hd & _ & Hdv & _).
    assert (Hd' := eq_trans (eq_sym Hdiv) Hd). injection Hd' as <- ->.
    assert (Hn : length refs = Nat.max (p_population (ss_params s)) (length (initial_points (e_problem E) s)))
      by (inversion Hdv; auto).
    assert (Hc : ss_parallel s && (20 <=? length refs) = true ->
      collect_par (e_err_pick E' [ss_ctx s; 0]) (map (pb_objective (e_problem E)) refs) =
      collect_par (e_err_pick E [ss_ctx s; 0]) (map (pb_objective (e_problem E)) refs)).
    { intro G. apply andb_true_iff in G as [G1 G2]. apply Nat.leb_le in G2.
      destruct H as [H|[H|H]]; [lia| |congruence]. unfold collect_par.
      assert (He : errors_of (map (pb_objective (e_problem E)) refs) = []).
      { clear -H. induction refs as [|p refs IH]; simpl; auto. destruct (H p) as [v ->]. exact IH. }
      rewrite He. reflexivity. }
    destruct (ss_parallel s && (20 <=? length refs)); [rewrite Hc by auto|]; reflexivity.
  Qed.
  Lemma perturb_sched : forall p lo hi r, perturb E' r lo hi p = perturb E r lo hi p.
  Proof.
    induction p as [|x p IH]; intros [|l lo] [|h hi] r; simpl; auto.
    destruct (e_perturb E r) as [u r1]. rewrite IH. reflexivity.
  Qed.
  Lemma combine_sched : forall lo hi a b sd, combine_points E' lo hi a b sd = combine_points E lo hi a b sd.
  Proof.
    intros. unfold combine_points. change (e_seed_from E') with (e_seed_from E). rewrite perturb_sched.
    destruct (perturb E _ _ _ _) as [[p1 r1]|]; auto. rewrite perturb_sched. reflexivity.
  Qed.
  Lemma trials_sched : forall s, generate_trial_points E' s = generate_trial_points E s.
  Proof.
    intro s. unfold generate_trial_points, bind, get. cbv beta iota zeta. rewrite draw_sched.
    destruct (draw_seeds E _ (ss_rng s)) as [seeds rng]. unfold modify. cbv beta iota.
    match goal with |- context [map ?f _] => match goal with |- context [map ?g _] =>
      assert (X : forall c, f c = g c) end end.
    { intros [[i j] sd]. destruct (nth_error (ss_ref s) i), (nth_error (ss_ref s) j); auto. }
    match goal with |- match unwrap (all_some ?a) _ with _ => _ end = match unwrap (all_some ?b) _ with _ => _ end =>
      assert (Y : a = b) end.
    { apply map_ext. intros [[i j] sd]. destruct (nth_error (ss_ref s) i), (nth_error (ss_ref s) j); auto. apply combine_sched. }
    rewrite Y. reflexivity.
  Qed.
  Lemma best_sched : forall s, ss_best_solution E' s = ss_best_solution E s.
  Proof.
    intro s. unfold ss_best_solution, bind, get. cbv beta iota zeta.
    rewrite !best_tree. reflexivity.
  Qed.
  Lemma threshold_sched : forall s, length (ss_ref s) <= 8 \/ ss_parallel s = false -> dist_threshold E' s = dist_threshold E s.
  Proof.
    intros s H. unfold dist_threshold. destruct (length (ss_ref s) <? 2) eqn:H2; auto.
    destruct (all_some _) as [ds|] eqn:Ha; auto. destruct (ss_parallel s); auto.
    destruct H as [H|H]; [|discriminate].
    apply all_some_spec in Ha.
    assert (L : length ds <= 2).
    { apply (f_equal (@length _)) in Ha. rewrite !map_length, seq_length in Ha. rewrite <- Ha. apply Nat.ltb_ge in H2. rewrite ksel_sqrt by lia.
      unfold sample_size. destruct (length (ss_ref s)) as [|[|[|[|[|[|[|[|[|n]]]]]]]]]; simpl in *; lia. }
    assert (N : Forall nonneg ds).
    { apply Forall_forall. intros d Hd. apply (in_map Some) in Hd. rewrite <- Ha in Hd. apply in_map_iff in Hd as (i & Hd & _).
      destruct (nth_error (ss_ref s) i); [|discriminate].
      destruct (nth_error (ss_ref s) (S i mod length (ss_ref s))); [|discriminate]. injection Hd as <-. apply dist2_nonneg_sign. }
    rewrite !tree_sum_short by auto. reflexivity.
  Qed.
  Lemma update_sched : forall trials s, length (ss_ref s) <= 8 \/ ss_parallel s = false ->
    update_reference_set E' trials s = update_reference_set E trials s.
  Proof.
    intros trials s H. unfold update_reference_set. destruct trials; auto. unfold bind, get. cbv beta iota zeta.
    rewrite (threshold_sched s H). reflexivity.
  Qed.
  Lemma run_sched : env_ok E -> forall s,
    Nat.max (p_population (ss_params s)) (length (initial_points (e_problem E) s)) <= 8 \/ ss_parallel s = false ->
    ss_run E' s = ss_run E s.
  Proof.
    intros HE s H. unfold ss_run. apply bind_cong.
    { apply init_sched. destruct H; [left; lia|auto]. }
    intros [] s1 Hrun. pose proof (rt_eq _ _ _ _ _ _ (init_spec E s) Hrun) as Hi.
    assert (H1 : length (ss_ref s1) <= 8 \/ ss_parallel s1 = false).
    { destruct (init_view _ _ _ Hi) as (_ & _ & _ & Hpar & _). destruct (init_members E HE s s1 Hi) as (_ & Z & _).
      destruct H; [left; lia|right; congruence]. }
    clear Hi Hrun. revert s1 H1.
    assert (Hobs : forall A f (k k' : unit -> M ss ss_error A) s0,
      (forall s', noisy s0 s' -> k tt s' = k' tt s') -> bind (ss_obs f) k s0 = bind (ss_obs f) k' s0).
    { intros A f k k' s0 G. apply bind_cong; [reflexivity|]. intros [] s' G1. apply G.
      destruct (noisy_obs f s0) as [_ G2]. rewrite G1 in G2. exact G2. }
    assert (Hcall : forall A (k k' : unit -> M ss ss_error A) s0,
      (forall s', noisy s0 s' -> k tt s' = k' tt s') -> bind (ss_callback E') k s0 = bind (ss_callback E) k' s0).
    { intros A k k' s0 G. apply bind_cong; [reflexivity|]. intros [] s' G1. apply G.
      destruct (noisy_callback E s0) as [_ G2]. rewrite G1 in G2. exact G2. }
    intros s1 H1. apply Hobs. intros a1 N1. apply Hcall. intros a2 N2. apply bind_cong; [reflexivity|]. intros x a2' G.
    unfold get in G. injection G as <- <-. apply Hobs. intros a3 N3. apply Hcall. intros s2 N4.
    assert (N : noisy s1 s2) by (eapply noisy_trans; [eapply noisy_trans; [eapply noisy_trans|]|]; eauto).
    clear a1 N1 N2 a3 N3 N4. destruct (noisy_view _ _ N) as (_ & V2 & _ & _ & _ & V6 & _).
    apply bind_cong; [apply trials_sched|]. intros trials s3 G.
    pose proof (rt_eq _ _ _ _ _ _ (gen_trials_spec E s2) G) as [[r ->] _].
    apply bind_cong; [apply update_sched; cbn [ss_with_rng ss_ref ss_parallel]; rewrite V2, V6; exact H1|].
    intros [] s4 _. apply bind_cong; [reflexivity|]. intros y s5 G5. unfold get in G5. injection G5 as <- <-.
    apply Hobs. intros s6 _. apply Hcall. intros s7 _. apply bind_cong; [apply best_sched|]. reflexivity.
  Qed.
End Sched.
