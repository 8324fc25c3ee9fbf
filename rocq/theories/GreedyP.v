(** * Diversification: sampling, retrying and greedy selection *)
From Coq Require Import ZArith NArith List Bool Arith Lia Permutation.
From Verif Require Import F64 F64Order F64Alg Base Builders Types Runner Observer Env EnvSpec ScatterSearch
  Spec SpecStage1 DistP.
Import ListNotations.

(** ** swap_remove *)
Lemma swap_remove_map : forall A B (f : A -> B) i l,
  swap_remove i (map f l) = option_map (fun r => (f (fst r), map f (snd r))) (swap_remove i l).
Proof.
  intros A B f i l. unfold swap_remove. rewrite nth_error_map, <- map_rev, map_length.
  destruct (nth_error l i) as [x|]; [|reflexivity]. cbn [option_map].
  destruct (rev l) as [|y r]; [reflexivity|]. cbn [map].
  destruct (i =? length l - 1); cbn [option_map fst snd];
    rewrite ?map_app; cbn [map]; rewrite ?firstn_map, ?skipn_map, ?firstn_map; reflexivity.
Qed.
Lemma swap_remove_some : forall A i (l : list A), i < length l -> exists x l', swap_remove i l = Some (x, l').
Proof.
  intros A i l H. unfold swap_remove. destruct (nth_error l i) as [x|] eqn:Hn; [|apply nth_error_None in Hn; lia].
  destruct (rev l) as [|y r] eqn:Hr.
  - apply (f_equal (@length A)) in Hr. rewrite rev_length in Hr. simpl in Hr. lia.
  - destruct (i =? length l - 1); eauto.
Qed.
Lemma swap_remove_spec : forall A i (l : list A) x l', swap_remove i l = Some (x, l') ->
  nth_error l i = Some x /\ Permutation l (x :: l').
Proof.
  intros A i l x l'. unfold swap_remove. destruct (nth_error l i) as [y|] eqn:Hn; [|discriminate].
  destruct (rev l) as [|z r] eqn:Hr; [discriminate|].
  assert (Hl : l = rev r ++ [z]) by (rewrite <- (rev_involutive l), Hr; reflexivity).
  assert (Hlen : length l = S (length r)) by (rewrite Hl, app_length, rev_length; simpl; lia).
  pose proof (nth_error_split l i Hn) as (l1 & l2 & Hs & H1).
  assert (Hi : i < length l) by (apply nth_error_Some; congruence).
  destruct (i =? length l - 1) eqn:Hb.
  - apply Nat.eqb_eq in Hb. intro H; injection H as <- <-. split; auto.
    assert (l2 = []) as ->.
    { rewrite Hs, app_length in Hlen, Hb. simpl in *. destruct l2; auto. simpl in *. lia. }
    rewrite Hs. rewrite <- H1, firstn_app, Nat.sub_diag, firstn_all, app_nil_r.
    symmetry. apply Permutation_cons_append.
  - apply Nat.eqb_neq in Hb.
    assert (Hz : exists m, l2 = m ++ [z]).
    { destruct l2 as [|w l2 _] using rev_ind.
      - rewrite Hs, app_length in Hb. simpl in Hb. lia.
      - exists l2. rewrite Hl in Hs. change (l1 ++ y :: l2 ++ [w]) with (l1 ++ (y :: l2) ++ [w]) in Hs.
        rewrite app_assoc in Hs. apply app_inj_tail in Hs as [_ ->]. reflexivity. }
    destruct Hz as [m ->].
    assert (Hf : firstn i l = l1) by (rewrite Hs, <- H1, firstn_app, Nat.sub_diag, firstn_all, app_nil_r; reflexivity).
    assert (Hk : skipn (S i) l = m ++ [z]).
    { rewrite Hs. replace (S i) with (length (l1 ++ [y])) by (rewrite app_length; simpl; lia).
      replace (l1 ++ y :: m ++ [z]) with ((l1 ++ [y]) ++ m ++ [z]) by (rewrite <- app_assoc; reflexivity).
      rewrite skipn_app, skipn_all, Nat.sub_diag. reflexivity. }
    assert (Hm : length l - 2 - i = length m).
    { rewrite Hs, app_length. simpl. rewrite app_length. simpl. lia. }
    rewrite Hf, Hk, Hm, firstn_app, Nat.sub_diag, firstn_all, app_nil_r.
    intro H; injection H as <- <-. split; auto. rewrite Hs.
    etransitivity; [symmetry; apply Permutation_middle|]. apply perm_skip, Permutation_app_head.
    symmetry. apply Permutation_cons_append.
Qed.

(** ** Cached distances *)
Definition cached (par : bool) (set : list point) (c : point) (m : f64) : Prop :=
  nearest set c m \/ (par = false /\ m = f0 /\ exists d, nearest set c d /\ flt d lit_1e_14 = true).
Lemma nearest_exists : forall set c, exists d, nearest set c d.
Proof. intros. exists (min_distance_par SLeaf c set). apply min_par_nearest. Qed.
Lemma nearest_number : forall set c d, nearest set c d -> is_nan d = false /\ nonneg d.
Proof. intros set c d H. split; [apply H|]. eapply least_nonneg; [apply dists_nonneg|exact H]. Qed.
Lemma cached_number : forall par set c m, cached par set c m -> is_nan m = false /\ nonneg m.
Proof. intros par set c m [H | (_ & -> & _)]; [apply (nearest_number _ _ _ H)|split; reflexivity]. Qed.
Lemma min_cached : forall par t c set, cached par set c (min_distance par t c set).
Proof.
  intros [] t c set; unfold min_distance; [left; apply min_par_nearest|].
  destruct (min_seq_spec c set) as [[H _] | (-> & q & Hq & Hd)]; [left; auto|right].
  split; auto. split; auto. destruct (nearest_exists set c) as [d Hn]. exists d. split; auto.
  destruct Hn as (N & I & L). eapply fle_lt_trans; [|exact Hd]. apply L.
  - apply in_map; auto.
  - eapply flt_nan_l; eauto.
Qed.
Lemma refresh_cached : forall par set far c m, cached par set c m ->
  cached par (set ++ [far]) c (if flt (dist2 c far) m then dist2 c far else m).
Proof.
  intros par set far c m H. destruct H as [H | (-> & -> & d & Hd & Hlt)].
  - left. unfold nearest in *. rewrite map_app. pose proof (least_snoc _ _ (dist2 c far) H) as G.
    unfold fmin in G. destruct H as (N & _ & _). rewrite N in G. cbn [map].
    destruct (is_nan (dist2 c far)) eqn:Hn; auto.
    replace (flt (dist2 c far) m) with false; auto. unfold flt. rewrite fcmp_nan_l; auto.
  - right. rewrite (nonneg_not_neg (dist2 c far)) by apply dist2_nonneg_sign. split; auto. split; auto.
    exists (fmin d (dist2 c far)). split.
    + unfold nearest. rewrite map_app. apply least_snoc. auto.
    + destruct Hd as (N & _ & _). destruct (fmin_cases d (dist2 c far) N) as [[-> _] | (-> & _ & G)]; auto.
      eapply fle_lt_trans; eauto.
Qed.
Definition preferred (par : bool) : list point -> point -> point -> Prop :=
  if par then not_farther else not_farther_upto.
Lemma cached_preferred : forall par set c p m d, cached par set c m -> cached par set p d ->
  total_le m d = true -> preferred par set c p.
Proof.
  intros par set c p m d Hc Hp Hle.
  destruct (cached_number _ _ _ _ Hc) as [Nm Pm]. destruct (cached_number _ _ _ _ Hp) as [Nd Pd].
  apply total_le_fle in Hle; auto.
  destruct par; unfold preferred.
  - intros dc dp H1 H2. destruct Hc as [Hc | (E & _)]; [|discriminate]. destruct Hp as [Hp | (E & _)]; [|discriminate].
    rewrite (nearest_unique _ _ _ _ H1 Hc), (nearest_unique _ _ _ _ H2 Hp). auto.
  - intros dc dp H1 H2. destruct Hc as [Hc | (_ & -> & x & Hx & Hlt)].
    + left. rewrite (nearest_unique _ _ _ _ H1 Hc). destruct Hp as [Hp | (_ & -> & _)].
      * rewrite (nearest_unique _ _ _ _ H2 Hp). auto.
      * destruct (nearest_number _ _ _ H2) as [N P]. eapply fle_trans; [exact Hle|].
        destruct dp; simpl in P; subst; try discriminate; reflexivity.
    + right. rewrite (nearest_unique _ _ _ _ H1 Hx). auto.
Qed.

(** ** The greedy loop *)
Lemma refresh_map : forall far z,
  refresh far (map fst z) (map snd z) = map (fun cm => if flt (dist2 (fst cm) far) (snd cm) then dist2 (fst cm) far else snd cm) z.
Proof. intros. unfold refresh. induction z as [|[c m] z IH]; simpl; auto. rewrite IH. reflexivity. Qed.
Lemma chosen_perm : forall R set cands final left, chosen R set cands final left ->
  Permutation (final ++ left) (set ++ cands).
Proof.
  induction 1 as [|set cands p rest final left Hp Hc H IH]; auto.
  etransitivity; [exact IH|]. rewrite <- app_assoc. apply Permutation_app_head. simpl. symmetry. auto.
Qed.
Lemma chosen_prefix : forall R set cands final left, chosen R set cands final left -> exists new, final = set ++ new.
Proof.
  induction 1 as [|set cands p rest final left Hp Hc H [new ->]]; [exists []; rewrite app_nil_r; auto|].
  exists (p :: new). rewrite <- app_assoc. reflexivity.
Qed.
Lemma greedy_spec : forall E ctx par n z set,
  Forall (fun cm => cached par set (fst cm) (snd cm)) z -> n <= length z ->
  exists final left, greedy E ctx par n set (map fst z) (map snd z) = Ok final /\
    chosen (preferred par) set (map fst z) final left /\ length final = length set + n.
Proof.
  intros E ctx par. induction n as [|n IH]; intros z set Hz Hn.
  - exists set, (map fst z). repeat split; [constructor|lia].
  - cbn [greedy]. pose proof (argmax_spec par (e_sched E [ctx; 1; S n]) (map snd z)) as Ha.
    destruct (argmax par _ _) as [i|] eqn:Harg; [|apply map_eq_nil in Ha; subst; simpl in Hn; lia].
    destruct Ha as (d & Hd & Hmax).
    assert (Hi : i < length z).
    { rewrite <- (map_length snd). apply nth_error_Some. congruence. }
    destruct (swap_remove_some _ i z Hi) as ([c m] & z' & Hs).
    rewrite !swap_remove_map, Hs. cbn [option_map fst snd].
    apply swap_remove_spec in Hs as [Hnth Hperm].
    rewrite nth_error_map, Hnth in Hd. injection Hd as <-. rewrite Forall_forall in Hz.
    rewrite refresh_map.
    set (z2 := map (fun cm => (fst cm, if flt (dist2 (fst cm) c) (snd cm) then dist2 (fst cm) c else snd cm)) z').
    assert (E1 : map fst z2 = map fst z') by (unfold z2; rewrite map_map; apply map_ext; reflexivity).
    assert (E2 : map snd z2 = map (fun cm => if flt (dist2 (fst cm) c) (snd cm) then dist2 (fst cm) c else snd cm) z')
      by (unfold z2; rewrite map_map; apply map_ext; reflexivity).
    rewrite <- E1, <- E2. destruct (IH z2 (set ++ [c])) as (final & left & G1 & G2 & G3).
    + apply Forall_forall. intros [c' m'] Hin. unfold z2 in Hin. apply in_map_iff in Hin as ([c0 m0] & Heq & Hin).
      injection Heq as <- <-. cbn [fst snd]. apply refresh_cached. apply (Hz (c0, m0)).
      eapply Permutation_in; [symmetry; exact Hperm|right; auto].
    + unfold z2. rewrite map_length. apply Permutation_length in Hperm. simpl in Hperm. lia.
    + exists final, left. split; [exact G1|]. split.
      * apply chosen_one with (p := c) (rest := map fst z').
        -- apply (Permutation_map fst) in Hperm. exact Hperm.
        -- intros c' Hc'. apply in_map_iff in Hc' as ([c0 m0] & <- & Hin). cbn [fst].
           apply cached_preferred with (m := m0) (d := m).
           ++ apply (Hz (c0, m0)); auto.
           ++ apply (Hz (c, m)). eapply Permutation_in; [symmetry; exact Hperm|left; auto].
           ++ apply Hmax. apply in_map_iff. exists (c0, m0). auto.
        -- rewrite <- E1. exact G2.
      * rewrite G3, app_length. simpl. lia.
Qed.

(** ** Sampling *)
Definition sampled (E : env) (lo hi p : point) : Prop := exists rng, sample_point E rng lo hi = Some p.
Lemma all_some_spec : forall A (l : list (option A)) r, all_some l = Some r -> l = map Some r.
Proof.
  induction l as [|[a|] l IH]; simpl; intros r H; try discriminate; [injection H as <-; reflexivity|].
  destruct (all_some l) as [x|]; [|discriminate]. injection H as <-. simpl. f_equal. auto.
Qed.
Lemma all_some_none : forall A (l : list (option A)), all_some l = None -> In None l.
Proof.
  induction l as [|[a|] l IH]; simpl; intro H; try discriminate; [|left; auto]. right. apply IH.
  destruct (all_some l); [discriminate|auto].
Qed.
Lemma draw_length : forall E n rng, length (fst (draw_seeds E n rng)) = n.
Proof.
  intros E. induction n as [|n IH]; intro rng; simpl; auto. destruct (e_next E rng) as [x r1].
  specialize (IH r1). destruct (draw_seeds E n r1) as [xs r2]. simpl in *. lia.
Qed.
(** the state after the generator moved and [l] was drawn *)
Definition drew (rng : N) (l : list point) (s : ss) : ss :=
  mk_ss (ss_params s) (ss_ref s) (ss_objs s) (ss_lower s) (ss_upper s) rng (ss_parallel s)
    (ss_observer s) (ss_custom s) (ss_ctx s) (rev (map SsSample l) ++ ss_log s).
Lemma drew_drew : forall r l r' l' s, drew r' l' (drew r l s) = drew r' (l ++ l') s.
Proof. intros. unfold drew. simpl. rewrite map_app, rev_app_distr, app_assoc. reflexivity. Qed.
Lemma gen_spec : forall E n s, exists rng, 
  (exists l, generate_stratified_samples E n s = (Ok l, drew rng l s) /\ length l = n /\
     Forall (sampled E (ss_lower s) (ss_upper s)) l) \/
  (generate_stratified_samples E n s = (Panic, drew rng [] s) /\
   exists r, sample_point E r (ss_lower s) (ss_upper s) = None).
Proof.
  intros E n s. unfold generate_stratified_samples, bind, get, modify, ret, unwrap, panic.
  pose proof (draw_length E n (ss_rng s)) as Hl. destruct (draw_seeds E n (ss_rng s)) as [seeds rng].
  simpl in Hl. exists rng.
  destruct (all_some _) as [l|] eqn:Ha.
  - left. exists l. split; [reflexivity|]. apply all_some_spec in Ha. split.
    + apply (f_equal (@length _)) in Ha. rewrite !map_length in Ha. lia.
    + apply Forall_forall. intros p Hp. apply (in_map Some) in Hp. rewrite <- Ha in Hp.
      apply in_map_iff in Hp as (sd & Hp & _). exists (e_seed_from E sd). exact Hp.
  - right. split; [reflexivity|]. apply all_some_none in Ha. apply in_map_iff in Ha as (sd & Hp & _). eauto.
Qed.

(** ** The retry loop *)
Lemma refill_spec : forall E pop cs fuel att cands s, exists rng l, Forall (sampled E (ss_lower s) (ss_upper s)) l /\
  ((exists a, refill E pop cs fuel att cands s = (Ok (cands ++ filter (is_feasible cs) l, a), drew rng l s) /\
     att <= a <= att + fuel /\ length l = (a - att) * (pop * 2) /\
     (length (cands ++ filter (is_feasible cs) l) < pop -> a = att + fuel))
  \/ (refill E pop cs fuel att cands s = (Panic, drew rng l s) /\ length l <= fuel * (pop * 2) /\
      exists r, sample_point E r (ss_lower s) (ss_upper s) = None)).
Proof.
  intros E pop cs. induction fuel as [|fuel IH]; intros att cands s.
  - exists (ss_rng s), []. split; [constructor|]. left. exists att. cbn [refill filter]. rewrite app_nil_r.
    split; [destruct s; reflexivity|]. repeat split; simpl; lia.
  - cbn [refill]. destruct (length cands <? pop) eqn:Hb.
    + unfold bind. destruct (gen_spec E (pop * 2) s) as (rng & [(l & -> & Hl & Hs) | (-> & Hp)]).
      * specialize (IH (S att) (cands ++ filter (is_feasible cs) l) (drew rng l s)).
        destruct IH as (rng2 & l2 & Hs2 & [(a & -> & Ha & Hl2 & Hf) | (-> & Hl2 & Hp)]).
        -- exists rng2, (l ++ l2). split; [apply Forall_app; auto|]. left. exists a.
           rewrite drew_drew, filter_app, app_assoc. split; [reflexivity|].
           split; [lia|]. split; [|intro G; specialize (Hf G); lia].
           rewrite app_length, Hl, Hl2. replace (a - att) with (S (a - S att)) by lia. simpl. lia.
        -- exists rng2, (l ++ l2). split; [apply Forall_app; auto|]. right.
           rewrite drew_drew. split; [reflexivity|]. split; [rewrite app_length; simpl; lia|exact Hp].
      * exists rng, []. split; [constructor|]. right. split; [reflexivity|]. split; [simpl; lia|exact Hp].
    + apply Nat.ltb_ge in Hb. exists (ss_rng s), []. split; [constructor|]. left. exists att. cbn [filter].
      rewrite app_nil_r. split; [destruct s; reflexivity|]. repeat split; simpl; try lia.
Qed.

(** ** Diversification *)
Lemma feasible_b : forall P p, is_feasible (pb_constraints P) p = true <-> feasible P p.
Proof.
  intros P p. unfold is_feasible, feasible. rewrite forallb_forall. split; intros H g Hg.
  - apply negb_true_iff. auto.
  - apply negb_true_iff. auto.
Qed.
Lemma filter_all : forall A (f : A -> bool) l, (forall x, In x l -> f x = true) -> filter f l = l.
Proof. induction l as [|x l IH]; simpl; intro H; auto. rewrite H by auto. f_equal. auto. Qed.
Lemma combine_fst : forall A B (l : list A) (r : list B), length l = length r -> map fst (combine l r) = l.
Proof. induction l as [|x l IH]; intros [|y r] H; simpl in *; auto; try discriminate. f_equal. auto. Qed.
Lemma combine_snd : forall A B (l : list A) (r : list B), length l = length r -> map snd (combine l r) = r.
Proof. induction l as [|x l IH]; intros [|y r] H; simpl in *; auto; try discriminate. f_equal. auto. Qed.
Lemma enum_length : forall A (l : list A) m, length (enumerate_from m l) = length l.
Proof. induction l; intros; simpl; auto. Qed.
Lemma first_distances : forall E par ctx refs cands,
  let ds := map (fun ic => min_distance par (e_sched E [ctx; 0; fst ic]) (snd ic) refs) (enumerate cands) in
  length ds = length cands /\ Forall (fun cm => cached par refs (fst cm) (snd cm)) (combine cands ds).
Proof.
  intros E par ctx refs cands ds. subst ds. unfold enumerate. generalize 0 at 1 4.
  induction cands as [|c cands IH]; intro m; simpl; split; auto.
  - f_equal. rewrite map_length, enum_length. auto.
  - constructor; [apply min_cached|]. apply IH.
Qed.
(** what diversification computes from the feasible samples *)
Inductive diversified (E : env) (refs : list point) (cs : list (point -> f64)) (s : ss) (l : list point)
    : outcome ss_error (list point) -> Prop :=
| div_ok : forall final left, let cands := filter (is_feasible cs) l in
    chosen (preferred (ss_parallel s)) refs cands final left ->
    length final = Nat.max (p_population (ss_params s)) (length refs) ->
    p_population (ss_params s) <= length refs + length cands ->
    cs = [] \/ cands <> [] ->
    diversified E refs cs s l (Ok final)
| div_fail : forall a, cs <> [] -> a <= 10 ->
    length (filter (is_feasible cs) l) < p_population (ss_params s) \/ p_population (ss_params s) = 0 ->
    (length (filter (is_feasible cs) l) < p_population (ss_params s) -> a = 10) ->
    filter (is_feasible cs) l = [] \/ length refs + length (filter (is_feasible cs) l) < p_population (ss_params s) ->
    diversified E refs cs s l (Err (NoFeasibleCandidates a (length (ss_lower s))))
| div_panic : forall r, sample_point E r (ss_lower s) (ss_upper s) = None -> diversified E refs cs s l Panic.
Definition effort (pop : nat) (cs : list (point -> f64)) (n : nat) : Prop :=
  n <= pop + (match cs with [] => 0 | _ => 20 * pop end).
Lemma div_spec : forall E refs cs s, exists rng l r,
  diversify_reference_set E refs cs s = (r, drew rng l s) /\
  Forall (sampled E (ss_lower s) (ss_upper s)) l /\ diversified E refs cs s l r /\
  effort (p_population (ss_params s)) cs (length l) /\
  (r <> Panic -> exists k, length l = p_population (ss_params s) + k * (2 * p_population (ss_params s))) /\
  (r <> Panic -> cs <> [] -> length (filter (is_feasible cs) l) < p_population (ss_params s) ->
     length l = 21 * p_population (ss_params s)).
Proof.
  intros E refs cs s. unfold diversify_reference_set, bind at 1, get. unfold bind at 1.
  set (pop := p_population (ss_params s)).
  destruct (gen_spec E pop s) as (rng & [(l & -> & Hl & Hs) | (-> & rr & Hp)]).
  2:{ exists rng, [], Panic. split; [reflexivity|]. split; [constructor|]. split; [eapply div_panic; eauto|].
      split; [unfold effort; simpl; lia|]. split; congruence. }
  assert (Hgreedy : forall cands (s2 : ss), pop <= length refs + length cands ->
    exists final left, of_result (greedy E (ss_ctx s) (ss_parallel s) (pop - length refs) refs cands
      (map (fun ic => min_distance (ss_parallel s) (e_sched E [ss_ctx s; 0; fst ic]) (snd ic) refs) (enumerate cands))) s2
      = (Ok final, s2) /\ chosen (preferred (ss_parallel s)) refs cands final left /\
      length final = Nat.max pop (length refs)).
  { intros cands s2 Hlen. pose proof (first_distances E (ss_parallel s) (ss_ctx s) refs cands) as Hd. cbv zeta in Hd.
    destruct Hd as [Hd1 Hd2]. set (ds := map _ (enumerate cands)) in *.
    destruct (greedy_spec E (ss_ctx s) (ss_parallel s) (pop - length refs) (combine cands ds) refs Hd2)
      as (final & left & G1 & G2 & G3).
    { rewrite combine_length, Hd1. lia. }
    rewrite combine_fst, ?combine_snd in * by auto. rewrite ?combine_snd in G1 by auto.
    exists final, left. split; [unfold of_result; rewrite G1; reflexivity|]. split; auto. lia. }
  unfold bind at 1. destruct cs as [|g cs].
  - cbn [ret]. destruct (Hgreedy l (drew rng l s)) as (final & left & G1 & G2 & G3); [lia|].
    exists rng, l, (Ok final). split; [exact G1|]. split; [auto|]. 
    assert (Hf : filter (is_feasible []) l = l) by (apply filter_all; reflexivity).
    split; [apply div_ok with (left := left); rewrite ?Hf; auto; fold pop; lia|].
    split; [unfold effort; lia|]. split; [intros _; exists 0; simpl; lia|congruence].
  - set (css := g :: cs) in *. unfold bind at 1.
    destruct (refill_spec E pop css 10 0 (filter (is_feasible css) l) (drew rng l s))
      as (rng2 & l2 & Hs2 & [(a & -> & Ha & Hl2 & Hf) | (-> & Hl2 & r & Hp)]).
    2:{ exists rng2, (l ++ l2), Panic. rewrite drew_drew. split; [reflexivity|].
        split; [apply Forall_app; auto|]. split; [eapply div_panic; eauto|].
        split; [unfold effort, css; rewrite app_length; lia|]. split; congruence. }
    rewrite drew_drew. rewrite <- filter_app in *.
    exists rng2, (l ++ l2). assert (Heff : effort pop css (length (l ++ l2))) by (unfold effort, css; rewrite app_length; nia).
    assert (Hk : exists k, length (l ++ l2) = pop + k * (2 * pop)) by (exists a; rewrite app_length; nia).
    assert (H21 : length (filter (is_feasible css) (l ++ l2)) < pop -> length (l ++ l2) = 21 * pop).
    { intro G. specialize (Hf G). rewrite app_length. nia. }
    remember (filter (is_feasible css) (l ++ l2)) as cands eqn:Hc. destruct cands as [|c cands].
    + cbn [fail]. eexists. split; [reflexivity|]. split; [apply Forall_app; auto|].
      split; [|repeat split; auto; intros; auto].
      apply div_fail; rewrite <- ?Hc; [discriminate|lia| | |left; auto]; simpl in *; fold pop; try lia.
    + destruct (length refs + length (c :: cands) <? pop) eqn:Hb.
      * apply Nat.ltb_lt in Hb. cbn [fail]. eexists. split; [reflexivity|]. split; [apply Forall_app; auto|].
        split; [|repeat split; auto; intros; auto].
        apply div_fail; rewrite <- ?Hc; [discriminate|lia| | |right; auto]; fold pop; try lia.
      * apply Nat.ltb_ge in Hb. cbn [ret].
        destruct (Hgreedy (c :: cands) (drew rng2 (l ++ l2) s)) as (final & left & G1 & G2 & G3); [auto|].
        exists (Ok final). split; [exact G1|]. split; [apply Forall_app; auto|].
        split; [|repeat split; auto; intros; auto].
        apply div_ok with (left := left); rewrite <- ?Hc; auto. right; discriminate.
Qed.
