(** * Consequences for whole Stage 1 runs *)
From Coq Require Import ZArith NArith List Bool Arith Lia Permutation Sorted.
From Verif Require Import F64 F64Order F64Alg F64Real Base Builders Types Runner Observer Env EnvSpec
  ScatterSearch Spec SpecStage1 DistP GreedyP SampleP Stage1P.
Import ListNotations.

(** ** Where a run starts *)
Lemma bad_bound_none : forall b i, bad_bound i b = None -> Forall (fun lh => fle (snd lh) (fst lh) = false) b.
Proof.
  induction b as [|[lo hi] b IH]; intros i H; [constructor|]. cbn [bad_bound] in H. unfold fge in H.
  destruct (fle hi lo) eqn:Hf; [discriminate|]. constructor; eauto.
Qed.
Lemma built_view : forall E p s, built E p s -> ss_params s = p /\ ss_ref s = [] /\ ss_objs s = [] /\
  ss_lower s = map fst (pb_bounds (e_problem E)) /\ ss_upper s = map snd (pb_bounds (e_problem E)) /\ ss_log s = [] /\
  Forall (fun lh => fle (snd lh) (fst lh) = false) (pb_bounds (e_problem E)).
Proof.
  intros E p s H. induction H as [ctx s H|b s H IH|o s H IH|c s H IH]; auto.
  unfold ss_new in H. destruct (bad_bound 0 (pb_bounds (e_problem E))) eqn:Hb; [discriminate|].
  injection H as <-. apply bad_bound_none in Hb. repeat split; auto.
Qed.
Lemma seed_points_eq : forall b, seed_points (map fst b) (map snd b) = [lower_corner b; upper_corner b; centre b].
Proof.
  intro b. unfold seed_points, lower_corner, upper_corner, centre. do 3 f_equal. unfold pdiv, padd.
  induction b as [|[lo hi] b IH]; simpl; auto. f_equal. auto.
Qed.
Lemma initial_eq : forall E p s, built E p s ->
  initial_points (e_problem E) s = starting_points (e_problem E) (custom_points s).
Proof.
  intros E p s H. destruct (built_view _ _ _ H) as (_ & _ & _ & Hl & Hu & _).
  unfold initial_points, starting_points. rewrite Hl, Hu, seed_points_eq, <- filter_app. reflexivity.
Qed.
Lemma feasibleb_eq : forall P p, feasibleb P p = true <-> feasible P p.
Proof. intros. apply feasible_b. Qed.
Lemma starting_length : forall P c, length (starting_points P c) <= 3 + length c.
Proof.
  intros P c. unfold starting_points. set (l := _ ++ c). assert (L : length l = 3 + length c) by reflexivity.
  rewrite <- L. clear. induction l as [|x l IH]; simpl; auto. destruct (feasibleb P x); simpl; lia.
Qed.

(** ** Members *)
Lemma members_length : forall l : list (point * f64), length (map fst l) = length (map snd l).
Proof. intros. rewrite !map_length. reflexivity. Qed.
Lemma combine_fst_snd : forall A B (l : list (A * B)), combine (map fst l) (map snd l) = l.
Proof. induction l as [|[a b] l IH]; simpl; auto. f_equal. auto. Qed.
Lemma keep_best_some : forall E, env_ok E -> forall pop all kept, keep_best E pop all = Some kept ->
  1 <= pop /\ exists dropped, keeps_best pop all kept dropped.
Proof.
  intros E HE pop all kept H.
  assert (Hp : 1 <= pop).
  { destruct pop; [|lia]. unfold keep_best, ksel in H. rewrite Nat.min_0_r in H. discriminate. }
  split; auto.
  destruct (le_lt_dec pop (length all)) as [Hl|Hl].
  - destruct (keep_best_spec E HE pop all Hp Hl) as (k & d & Hk & Hd). rewrite H in Hk. injection Hk as <-. eauto.
  - exfalso. unfold keep_best in H. destruct (ksel pop =? 0); [discriminate|].
    unfold select_nth in H. destruct (ksel pop - 1 <? length all) eqn:Hb; [|discriminate]. apply Nat.ltb_lt in Hb.
    destruct (eo_select E HE (ksel pop - 1) all Hb) as [Hperm _]. apply Permutation_length in Hperm.
    rewrite app_length in H.
    assert (L : length (e_sort E (firstn (ksel pop) (e_select E (ksel pop - 1) all))) =
                length (firstn (ksel pop) (e_select E (ksel pop - 1) all)))
      by (apply Permutation_length, (eo_sort E HE)).
    rewrite L, <- app_length, firstn_skipn, Hperm in H.
    destruct (pop - 1 <? length all) eqn:Hc; [apply Nat.ltb_lt in Hc; lia|discriminate].
Qed.
Lemma init_members : forall E, env_ok E -> forall s s1, initialized E s (Ok tt) s1 ->
  length (ss_ref s1) = length (ss_objs s1) /\
  length (ss_ref s1) = Nat.max (p_population (ss_params s)) (length (initial_points (e_problem E) s)) /\
  StronglySorted le_snd (members s1) /\
  forall p v, In (p, v) (members s1) -> pb_objective (e_problem E) p = inl v /\
    (In p (initial_points (e_problem E) s) \/
     (sampled E (ss_lower s) (ss_upper s) p /\ is_feasible (pb_constraints (e_problem E)) p = true)).
Proof.
  intros E HE s s1 H. inversion H as [rng l refs objs Hs Hd Hm He| | |]; subst. clear H.
  destruct (mapped_pairs _ _ _ Hm) as [Hl Hp].
  destruct (eo_sort E HE (combine refs objs)) as [Hperm Hsort].
  unfold members. cbn [ss_ref ss_objs ss_with_ref]. rewrite combine_fst_snd.
  split; [apply members_length|]. split; [|split; [auto|]].
  - rewrite map_length, (Permutation_length Hperm), combine_length, <- Hl, Nat.min_id.
    inversion Hd; subst. auto.
  - intros p v Hin. apply (Permutation_in _ Hperm) in Hin. split; [apply Hp; auto|].
    apply in_combine_l in Hin. inversion Hd as [final left cands Hch Hlen Hpop Hne| |]; subst.
    apply chosen_perm in Hch. assert (Hi : In p (initial_points (e_problem E) s ++ cands)).
    { eapply Permutation_in; [exact Hch|]. apply in_or_app; auto. }
    apply in_app_or in Hi as [Hi|Hi]; auto. right. unfold cands in Hi. apply filter_In in Hi as [Hi Hf].
    rewrite Forall_forall in Hs. auto.
Qed.
Lemma updated_members : forall E, env_ok E -> forall s trials s', length (ss_ref s) = length (ss_objs s) ->
  updated E s trials s' -> exists thr accepted,
    (if length (ss_ref s) <? 2 then thr = f0 else tenth_of_mean (ss_ref s) (ksel (length (ss_ref s))) thr) /\
    (forall p v, In (p, v) accepted <-> In p trials /\ enters E (ss_ref s) (last (ss_objs s) pinf) thr p v) /\
    length (ss_ref s') = length (ss_objs s') /\
    (accepted = [] -> ss_ref s' = ss_ref s /\ ss_objs s' = ss_objs s) /\
    (accepted <> [] -> 1 <= p_population (ss_params s) /\
       exists dropped, keeps_best (p_population (ss_params s)) (members s ++ accepted) (members s') dropped).
Proof.
  intros E HE s trials s' Hl (thr & accepted & evs & Hthr & Hacc & _ & H). exists thr, accepted.
  split; [exact Hthr|]. split; [exact Hacc|].
  destruct H as [[-> ->] | (Hne & kept & Hk & ->)].
  - cbn [ss_emit ss_ref ss_objs]. split; [auto|]. split; [auto|contradiction].
  - unfold members at 2. cbn [ss_with_ref ss_emit ss_ref ss_objs]. rewrite combine_fst_snd.
    split; [apply members_length|]. split; [contradiction|]. intros _. apply (keep_best_some E HE _ _ _ Hk).
Qed.
Lemma trials_in : forall E lo hi refs trials, trials_of E lo hi refs trials -> forall p, In p trials ->
  exists a b seed g, In a refs /\ In b refs /\ combine_points E lo hi a b seed = Some g /\ In p g.
Proof.
  intros E lo hi refs trials (groups & -> & H) p Hp. apply in_concat in Hp as (g & Hg & Hp).
  revert Hg. induction H as [|ij g' idx gs (sd & a & b & H1 & H2 & H3) H IH]; intro Hg; [contradiction|].
  destruct Hg as [->|Hg]; auto. exists a, b, sd, g. apply nth_error_In in H1, H2. auto.
Qed.

(** every pair a run returns: an initial or sampled point, or a trial of such points *)
Record run_facts (E : env) (s : ss) (pts : list (point * f64)) (best : point) (s' : ss) : Prop := {
  rf_pts : pts = members s';
  rf_len : length (ss_ref s') = length (ss_objs s');
  rf_best : exists v, In (best, v) pts /\ least_value pts v;
  rf_size : p_population (ss_params s) <= length pts <=
    Nat.max (p_population (ss_params s)) (length (initial_points (e_problem E) s));
  rf_origin : exists refs1, (forall q, In q refs1 -> In q (initial_points (e_problem E) s) \/
        (sampled E (ss_lower s) (ss_upper s) q /\ is_feasible (pb_constraints (e_problem E)) q = true)) /\
    (forall p v, In (p, v) pts -> pb_objective (e_problem E) p = inl v /\
       (In p refs1 \/ (feasible (e_problem E) p /\ exists a b seed g, In a refs1 /\ In b refs1 /\
          combine_points E (ss_lower s) (ss_upper s) a b seed = Some g /\ In p g))) }.
Lemma members_fst : forall s, length (ss_ref s) = length (ss_objs s) -> map fst (members s) = ss_ref s.
Proof. intros. apply combine_fst; auto. Qed.
Lemma members_view : forall s s', noisy s s' -> members s' = members s.
Proof. intros s s' H. destruct (noisy_view _ _ H) as (_ & H1 & H2 & _). unfold members. congruence. Qed.
Lemma run_ok_facts : forall E, env_ok E -> forall s pts best s', ss_run E s = (Ok (pts, best), s') ->
  run_facts E s pts best s'.
Proof.
  intros E HE s pts best s' H. pose proof (rt_eq _ _ _ _ _ _ (run_ends E s) H) as He.
  inversion He as [| | | |s1 s2 trials s3 s'' r Hi N1 Ht Hu N2 Hend Heq]; subst.
  destruct (init_members E HE s s1 Hi) as (L1 & Z1 & S1 & M1).
  destruct (noisy_view _ _ N1) as (V1 & V2 & V3 & _). destruct (noisy_view _ _ N2) as (W1 & W2 & W3 & _).
  destruct (init_view _ _ _ Hi) as (I1 & _).
  assert (L2 : length (ss_ref s2) = length (ss_objs s2)) by congruence.
  assert (M2 : members s2 = members s1) by (apply members_view; auto).
  assert (Hfin : length (ss_ref s3) = length (ss_objs s3) /\
    p_population (ss_params s) <= length (members s3) <=
      Nat.max (p_population (ss_params s)) (length (initial_points (e_problem E) s)) /\
    (forall p v, In (p, v) (members s3) -> In (p, v) (members s1) \/
       (In p trials /\ feasible (e_problem E) p /\ pb_objective (e_problem E) p = inl v))).
  { assert (Hsame : length (ss_ref s3) = length (ss_objs s3) -> members s3 = members s1 ->
      length (ss_ref s3) = length (ss_objs s3) /\
      p_population (ss_params s) <= length (members s3) <=
        Nat.max (p_population (ss_params s)) (length (initial_points (e_problem E) s)) /\
      (forall p v, In (p, v) (members s3) -> In (p, v) (members s1) \/
         (In p trials /\ feasible (e_problem E) p /\ pb_objective (e_problem E) p = inl v))).
    { intros G1 G2. split; auto. rewrite G2. split; [|auto]. unfold members. rewrite combine_length. lia. }
    destruct Hu as [[-> ->] | Hu]; [apply Hsame; auto|].
    destruct (updated_members E HE s2 trials s3 L2 Hu) as (thr & acc & _ & Ha & L3 & H0 & H1).
    destruct acc as [|x acc].
    - destruct (H0 eq_refl) as [G1 G2]. apply Hsame; auto. rewrite <- M2. unfold members. congruence.
    - set (acc' := x :: acc) in *. destruct (H1 ltac:(discriminate)) as (Hp & dropped & P & Lk & _).
      rewrite V1, I1 in *. split; auto. split; [lia|].
      intros p v Hin. assert (G : In (p, v) (members s2 ++ acc')).
      { eapply Permutation_in; [symmetry; exact P|]. apply in_or_app; auto. }
      apply in_app_or in G as [G|G]; [left; rewrite <- M2; auto|right]. apply Ha in G as (G1 & G2 & _ & G3 & _). auto. }
  destruct Hfin as (L3 & Z3 & M3).
  assert (Mf : members s' = members s3) by (apply members_view; auto).
  assert (Lf : length (ss_ref s') = length (ss_objs s')) by congruence.
  pose proof (min_by_spec (ss_objs s')) as Hmin.
  destruct (min_by cmp_snd (enumerate (ss_objs s'))) as [[i v]|]; [|discriminate].
  destruct (nth_error (ss_ref s') i) as [b|] eqn:Hb; [|discriminate]. injection Hend as -> ->.
  destruct Hmin as [Hv Hmin].
  constructor; auto.
  - exists v. split.
    + apply (nth_error_In _ i). unfold members. rewrite combine_nth, Hb, Hv. reflexivity.
    + intros q w Hin. apply Hmin. unfold members in Hin. eapply in_combine_r; eauto.
  - rewrite Mf. auto.
  - exists (ss_ref s1). split.
    + intros q Hq. rewrite <- (members_fst s1 L1) in Hq. apply in_map_iff in Hq as ([q' w] & <- & Hq). apply (M1 _ _ Hq).
    + intros p w Hin. rewrite Mf in Hin. destruct (M3 _ _ Hin) as [G | (G1 & G2 & G3)].
      * split; [apply (M1 _ _ G)|left]. unfold members in G. eapply in_combine_l; eauto.
      * split; auto. right. split; auto. apply (trials_in _ _ _ _ _ Ht); auto.
Qed.

(** ** The properties *)
Lemma not_ge_le : forall b, Forall finite_bound b -> Forall (fun lh => fle (snd lh) (fst lh) = false) b ->
  Forall (fun lh => fle (fst lh) (snd lh) = true) b.
Proof.
  intros b H. induction H as [|[lo hi] b (W1 & W2 & F1 & F2 & F3) H IH]; intro G; [constructor|].
  inversion G; subst. constructor; [|apply IH; auto]. simpl in *. apply flt_fle, not_fle_flt; auto using finite_not_nan.
Qed.
Lemma tame_finite : forall b, Forall tame_bound b -> Forall finite_bound b.
Proof. intros b H. eapply Forall_impl; [|exact H]. intros lh. unfold tame_bound, finite_bound. tauto. Qed.
Lemma corners_inside : forall b, Forall tame_bound b -> Forall (fun lh => fle (fst lh) (snd lh) = true) b ->
  in_box b (lower_corner b) /\ in_box b (upper_corner b) /\ in_box b (centre b) /\
  canonical (lower_corner b) /\ canonical (upper_corner b) /\ canonical (centre b).
Proof.
  intros b H. induction H as [|[lo hi] b (W1 & W2 & F1 & F2 & F3 & F4) H IH]; intro G.
  - repeat split; constructor.
  - inversion G as [|? ? Hle G']; subst. cbn [fst snd] in *. destruct (IH G') as (A1 & A2 & A3 & A4 & A5 & A6).
    destruct (mid_inside lo hi) as [M1 M2]; auto.
    assert (Nl : is_nan lo = false) by auto using finite_not_nan. assert (Nh : is_nan hi = false) by auto using finite_not_nan.
    repeat split; constructor; auto; cbn [fst snd]; try (split; cbn [fst snd]; auto using fle_refl).
    apply fdiv_wf; auto using fadd_wf.
Qed.
Lemma c08 : forall E p s pts best s', env_ok E -> built E p s -> Forall tame_bound (pb_bounds (e_problem E)) ->
  Forall (fun c => in_box (pb_bounds (e_problem E)) c /\ canonical c) (custom_points s) ->
  ss_run E s = (Ok (pts, best), s') ->
  in_box (pb_bounds (e_problem E)) best /\ Forall (fun m => in_box (pb_bounds (e_problem E)) (fst m)) pts.
Proof.
  intros E p s pts best s' HE Hb Hbd Hc Hrun. destruct (run_ok_facts E HE _ _ _ _ Hrun) as [Hp Hl Hbest Hsz Hor].
  destruct (built_view _ _ _ Hb) as (_ & _ & _ & Elo & Ehi & _ & Hnb). set (b := pb_bounds (e_problem E)) in *.
  pose proof (tame_finite _ Hbd) as Hfin. pose proof (not_ge_le _ Hfin Hnb) as Hle.
  assert (Hall : forall q v, In (q, v) pts -> in_box b q).
  { destruct Hor as (refs1 & H1 & H2).
    assert (G : forall q, In q refs1 -> in_box b q /\ canonical q).
    { intros q Hq. destruct (H1 q Hq) as [Hi | [Hs _]].
      - rewrite (initial_eq E p s Hb) in Hi. unfold starting_points in Hi. apply filter_In in Hi as [Hi _].
        destruct (corners_inside b Hbd Hle) as (A1 & A2 & A3 & A4 & A5 & A6). fold b in Hi.
        apply in_app_or in Hi as [[<- | [<- | [<- | []]]] | Hi]; auto. rewrite Forall_forall in Hc. auto.
      - rewrite Elo, Ehi in Hs. eapply sampled_inside; eauto. }
    intros q v Hin. destruct (H2 _ _ Hin) as [_ [Hq | (_ & a & c & sd & g & Ha & Hcc & Hg & Hq)]]; [apply G; auto|].
    rewrite Elo, Ehi in Hg. destruct (G a Ha) as [Ba Ca]. destruct (G c Hcc) as [Bc Cc].
    destruct (combine_points_spec E b a c sd (in_box_length _ _ Ba) (in_box_length _ _ Bc)) as [G1 _].
    destruct (G1 g Hg) as (_ & _ & G2). specialize (G2 HE Hfin Ba Bc Ca Cc). rewrite Forall_forall in G2. apply G2; auto. }
  split.
  - destruct Hbest as (v & Hin & _). eauto.
  - apply Forall_forall. intros [q v] Hin. simpl. eauto.
Qed.
Lemma c11 : forall E p s pts best s', env_ok E -> built E p s -> ss_run E s = (Ok (pts, best), s') ->
  feasible (e_problem E) best /\ Forall (fun m => feasible (e_problem E) (fst m)) pts.
Proof.
  intros E p s pts best s' HE Hb Hrun. destruct (run_ok_facts E HE _ _ _ _ Hrun) as [Hp Hl Hbest Hsz Hor].
  assert (Hall : forall q v, In (q, v) pts -> feasible (e_problem E) q).
  { destruct Hor as (refs1 & H1 & H2). intros q v Hin. destruct (H2 _ _ Hin) as [_ [Hq | [Hf _]]]; auto.
    destruct (H1 q Hq) as [Hi | [_ Hf]].
    - rewrite (initial_eq E p s Hb) in Hi. apply filter_In in Hi as [_ Hi]. apply feasibleb_eq; auto.
    - apply feasible_b; auto. }
  split; [destruct Hbest as (v & Hin & _); eauto|]. apply Forall_forall. intros [q v] Hin. simpl. eauto.
Qed.
Lemma c12_size : forall E p s pts best s', env_ok E -> built E p s -> ss_run E s = (Ok (pts, best), s') ->
  p_population p <= length pts <= Nat.max (p_population p) (length (starting_points (e_problem E) (custom_points s))).
Proof.
  intros E p s pts best s' HE Hb Hrun. destruct (run_ok_facts E HE _ _ _ _ Hrun) as [_ _ _ Hsz _].
  rewrite (initial_eq E p s Hb) in Hsz. destruct (built_view _ _ _ Hb) as (Ep & _). rewrite Ep in Hsz. auto.
Qed.
Lemma run_err : forall E, env_ok E -> forall s e s', 1 <= p_population (ss_params s) -> ss_run E s = (Err e, s') ->
  initialized E s (Err e) s'.
Proof.
  intros E HE s e s' Hp H. pose proof (rt_eq _ _ _ _ _ _ (run_ends E s) H) as He.
  inversion He as [| | | |s1 s2 trials s3 s'' r Hi N1 Ht Hu N2 Hend Heq]; subst; auto. exfalso.
  destruct (init_members E HE s s1 Hi) as (L1 & Z1 & _ & _).
  destruct (noisy_view _ _ N1) as (V1 & V2 & V3 & _). destruct (noisy_view _ _ N2) as (W1 & W2 & W3 & _).
  destruct (init_view _ _ _ Hi) as (I1 & _).
  assert (L3 : length (ss_objs s3) >= 1).
  { assert (L2 : length (ss_ref s2) = length (ss_objs s2)) by congruence.
    destruct Hu as [[-> ->] | Hu]; [rewrite V3; lia|].
    destruct (updated_members E HE s2 trials s3 L2 Hu) as (thr & acc & _ & Ha & L3 & H0 & H1).
    destruct acc as [|x acc].
    - destruct (H0 eq_refl) as [G1 G2]. rewrite G2, V3. lia.
    - destruct (H1 ltac:(discriminate)) as (_ & dropped & _ & Lk & _).
      unfold members in Lk. rewrite combine_length, V1, I1 in Lk. lia. }
  pose proof (min_by_spec (ss_objs s')) as Hmin.
  destruct (min_by cmp_snd (enumerate (ss_objs s'))) as [[i v]|].
  - destruct (nth_error (ss_ref s') i); discriminate.
  - rewrite W3 in Hmin. rewrite Hmin in L3. simpl in L3. lia.
Qed.
Lemma c12_errors : forall E p s e s', env_ok E -> built E p s -> 1 <= p_population p -> ss_run E s = (Err e, s') ->
  (exists x q, e = EvaluationError x /\ pb_objective (e_problem E) q = inr x) \/
  (pb_constraints (e_problem E) <> [] /\ exists a d, e = NoFeasibleCandidates a d).
Proof.
  intros E p s e s' HE Hb Hp H. destruct (built_view _ _ _ Hb) as (Ep & _).
  apply run_err in H; auto; [|congruence]. inversion H as [|rng l refs evs q x Hs Hd Hin Ho Heff Heq|rng l e' Hs Hd Heff H21 Heq|]; subst.
  - left. eauto.
  - right. inversion Hd; subst. eauto.
Qed.
Lemma c14 : forall E s pts best s', env_ok E -> ss_run E s = (Ok (pts, best), s') ->
  Forall (fun m => pb_objective (e_problem E) (fst m) = inl (snd m)) pts.
Proof.
  intros E s pts best s' HE Hrun. destruct (run_ok_facts E HE _ _ _ _ Hrun) as [_ _ _ _ (refs1 & _ & H)].
  apply Forall_forall. intros [q v] Hin. apply (H _ _ Hin).
Qed.
Lemma c16 : forall E s pts best s', env_ok E -> ss_run E s = (Ok (pts, best), s') ->
  exists v, In (best, v) pts /\ least_value pts v.
Proof. intros E s pts best s' HE Hrun. apply (rf_best _ _ _ _ _ (run_ok_facts E HE _ _ _ _ Hrun)). Qed.

Lemma c15 : forall E s trials s', env_ok E -> length (ss_ref s) = length (ss_objs s) ->
  update_reference_set E trials s = (Ok tt, s') -> trials <> [] ->
  exists thr accepted,
    (if length (ss_ref s) <? 2 then thr = f0 else tenth_of_mean (ss_ref s) (ksel (length (ss_ref s))) thr) /\
    (forall p v, In (p, v) accepted <-> In p trials /\ enters E (ss_ref s) (last (ss_objs s) pinf) thr p v) /\
    (accepted = [] -> members s' = members s) /\
    (accepted <> [] -> exists dropped, Permutation (members s ++ accepted) (members s' ++ dropped) /\
       length (members s') = p_population (ss_params s) /\
       forall a b, In a (members s') -> In b dropped -> total_le (snd a) (snd b) = true) /\
    (forall p v, In (p, v) (members s) -> exists q w, In (q, w) (members s') /\ total_le w v = true).
Proof.
  intros E s trials s' HE Hl H Hne. pose proof (rt_eq _ _ _ _ _ _ (update_spec E trials s) H) as Hu. cbv beta iota in Hu.
  destruct Hu as [[-> _] | Hu]; [contradiction|].
  destruct (updated_members E HE s trials s' Hl Hu) as (thr & acc & Hthr & Ha & L3 & H0 & H1).
  exists thr, acc. split; [auto|]. split; [auto|]. split; [|split].
  - intro G. destruct (H0 G) as [G1 G2]. unfold members. congruence.
  - intro G. destruct (H1 G) as (Hp & dropped & P & Lk & O). eauto.
  - intros q v Hin. destruct acc as [|x acc].
    + destruct (H0 eq_refl) as [G1 G2]. exists q, v. split; [|apply total_le_refl]. unfold members in *. congruence.
    + destruct (H1 ltac:(discriminate)) as (Hp & dropped & P & Lk & O).
      assert (G : In (q, v) (members s' ++ dropped)) by (eapply Permutation_in; [exact P|apply in_or_app; auto]).
      apply in_app_or in G as [G|G]; [exists q, v; split; auto using total_le_refl|].
      destruct (members s') as [|[a w] ms] eqn:Em; [simpl in Lk; lia|]. exists a, w. split; [left; auto|].
      apply (O (a, w) (q, v)); [left; auto|auto].
Qed.

(** samples drawn *)
Lemma drawn_samples : forall l s, drawn (rev (map SsSample l) ++ ss_log s) = drawn (ss_log s) ++ l.
Proof.
  intros. rewrite drawn_app. f_equal. unfold drawn. rewrite rev_involutive.
  induction l as [|x l IH]; simpl; auto. f_equal. auto.
Qed.
Lemma drawn_evals : forall l, drawn (rev (map SsEval l)) = [].
Proof. intros. unfold drawn. rewrite rev_involutive. induction l; simpl; auto. Qed.
Lemma drawn_noisy : forall s s', noisy s s' -> drawn (ss_log s') = drawn (ss_log s).
Proof. intros s s' H. apply (noisy_view _ _ H). Qed.
Lemma drawn_updated : forall E s trials s', updated E s trials s' -> drawn (ss_log s') = drawn (ss_log s).
Proof.
  intros E s trials s' (thr & acc & evs & _ & _ & _ & [[_ ->] | (_ & kept & _ & ->)]);
    cbn [ss_log ss_emit ss_with_ref]; rewrite drawn_app, drawn_evals, app_nil_r; reflexivity.
Qed.
(** the samples of a run are those of its initialization *)
Definition init_draws (E : env) (s : ss) (r : outcome ss_error (list (point * f64) * point)) (l : list point) : Prop :=
  effort (p_population (ss_params s)) (pb_constraints (e_problem E)) (length l) /\
  (r <> Panic -> exists r1, diversified E (initial_points (e_problem E) s) (pb_constraints (e_problem E)) s l r1 /\
     match r1 with
     | Ok refs => forall a d, r <> Err (NoFeasibleCandidates a d)
     | Err e => r = Err e /\
        (length (filter (is_feasible (pb_constraints (e_problem E))) l) < p_population (ss_params s) ->
         length l = 21 * p_population (ss_params s))
     | Panic => False
     end).
Lemma run_draws : forall E s r s', ss_log s = [] -> ss_run E s = (r, s') ->
  r = Panic \/ init_draws E s r (drawn (ss_log s')).
Proof.
  intros E s r s' Hlog H. pose proof (rt_eq _ _ _ _ _ _ (run_ends E s) H) as He.
  inversion He as [e s'' Hi| | | |s1 s2 trials s3 s'' r' Hi N1 Ht Hu N2 Hend Heq]; subst; try (left; reflexivity).
  - right. inversion Hi as [|rng l refs evs q x Hs Hd Hin Ho Heff Heq|rng l e' Hs Hd Heff H21 Heq|]; subst.
    + cbn [ss_log ss_emit drew]. rewrite drawn_app, drawn_evals, app_nil_r, drawn_samples, Hlog. simpl.
      split; auto. intros _. exists (Ok refs). split; auto. discriminate.
    + cbn [ss_log drew]. rewrite drawn_samples, Hlog. simpl. split; auto. intros _. exists (Err e). auto.
  - destruct r as [[pts best]|e|]; [right|right|left; reflexivity];
      (assert (Hd : drawn (ss_log s') = drawn (ss_log s1));
       [rewrite (drawn_noisy _ _ N2), <- (drawn_noisy _ _ N1); destruct Hu as [[_ ->] | Hu]; [auto|eapply drawn_updated; eauto]|]);
      inversion Hi as [rng l refs objs Hs Hdv Hm Heff| | |]; subst;
      rewrite Hd; cbn [ss_log ss_emit drew ss_with_ref]; rewrite drawn_app, drawn_evals, app_nil_r, drawn_samples, Hlog; simpl;
      (split; [auto|]); intros _; exists (Ok refs); (split; [auto|]); try discriminate.
    intros a d G. rewrite G in Hend. destruct (min_by cmp_snd (enumerate (ss_objs s'))) as [[i v]|];
      [destruct (nth_error (ss_ref s') i)|]; discriminate.
Qed.
Lemma filter_feasible : forall P l, filter (is_feasible (pb_constraints P)) l = filter (feasibleb P) l.
Proof. reflexivity. Qed.
Lemma c18 : forall E p s r s', built E p s -> pb_constraints (e_problem E) <> [] -> ss_run E s = (r, s') -> r <> Panic ->
  let samples := drawn (ss_log s') in
  let good := filter (feasibleb (e_problem E)) samples in
  let start := starting_points (e_problem E) (custom_points s) in
  length samples <= p_population p + 20 * p_population p /\
  (forall a d, r = Err (NoFeasibleCandidates a d) -> a <= 10 /\ d = length (pb_bounds (e_problem E)) /\
     (length good < p_population p -> a = 10 /\ length samples = 21 * p_population p)) /\
  ((exists a d, r = Err (NoFeasibleCandidates a d)) <-> (good = [] \/ length start + length good < p_population p)).
Proof.
  intros E p s r s' Hb Hcs Hrun Hnp samples good start.
  destruct (built_view _ _ _ Hb) as (Ep & _ & _ & Elo & _ & Elog & _).
  destruct (run_draws E s r s' Elog Hrun) as [->|[Heff Hdr]]; [contradiction|].
  destruct (Hdr Hnp) as (r1 & Hd & Hm). rewrite (initial_eq E p s Hb) in Hd. rewrite Ep in *.
  split; [unfold effort in Heff; destruct (pb_constraints (e_problem E)); [contradiction|exact Heff]|].
  destruct r1 as [refs|e|]; [| |contradiction].
  - split; [intros a d G; exfalso; eapply Hm; eauto|]. split.
    + intros (a & d & G). exfalso; eapply Hm; eauto.
    + intro G. exfalso. inversion Hd as [final left cands Hch Hlen Hpop Hne| |]; subst.
      fold samples in cands. unfold cands in *. rewrite filter_feasible in *. fold good in Hpop, Hne. fold start in Hpop.
      destruct G as [G|G]; [destruct Hne; contradiction|]. rewrite ?Ep in *. lia.
  - destruct Hm as [-> H21]. inversion Hd as [|a0 Hne Ha Hlt H10 Hf|]; subst. rewrite ?Ep in *.
    rewrite Elo, map_length in *. split.
    + intros a d G. injection G as <- <-. split; auto.
    + split; [intros _; exact Hf|eauto].
Qed.

(** ** Greedy selection *)
Lemma c17 : forall E refs cs s out s', diversify_reference_set E refs cs s = (Ok out, s') -> ss_log s = [] ->
  let cands := filter (is_feasible cs) (drawn (ss_log s')) in
  exists left, chosen (preferred (ss_parallel s)) refs cands out left.
Proof.
  intros E refs cs s out s' H Hlog.
  destruct (div_spec E refs cs s) as (rng & l & r & Hd & _ & Hdiv & _). rewrite H in Hd. injection Hd as <- ->.
  cbn [ss_log drew]. rewrite drawn_samples, Hlog. simpl. inversion Hdiv; subst. eauto.
Qed.

(** ** No panic *)
Lemma run_no_panic : forall E p s, env_ok E -> built E p s -> 1 <= p_population p ->
  Forall finite_bound (pb_bounds (e_problem E)) ->
  Forall (fun c => length c = length (pb_bounds (e_problem E))) (custom_points s) ->
  fst (ss_run E s) <> Panic.
Proof.
  intros E p s HE Hb Hp Hfin Hc Hpanic. destruct (ss_run E s) as [r s'] eqn:Hrun. simpl in Hpanic. subst r.
  destruct (built_view _ _ _ Hb) as (Ep & _ & _ & Elo & Ehi & _ & Hnb). set (b := pb_bounds (e_problem E)) in *.
  pose proof (not_ge_le _ Hfin Hnb) as Hle.
  pose proof (rt_eq _ _ _ _ _ _ (run_ends E s) Hrun) as He.
  assert (Hlen : forall s1, initialized E s (Ok tt) s1 -> forall q, In q (ss_ref s1) -> length q = length b).
  { intros s1 Hi q Hq. destruct (init_members E HE s s1 Hi) as (L1 & _ & _ & M1).
    rewrite <- (members_fst s1 L1) in Hq. apply in_map_iff in Hq as ([q' w] & <- & Hq). simpl.
    destruct (M1 _ _ Hq) as [_ [Hin | [Hs _]]].
    - rewrite (initial_eq E p s Hb) in Hin. unfold starting_points in Hin. apply filter_In in Hin as [Hin _]. fold b in Hin.
      apply in_app_or in Hin as [[<- | [<- | [<- | []]]] | Hin]; [unfold lower_corner, upper_corner, centre; rewrite map_length; auto..|].
      rewrite Forall_forall in Hc. auto.
    - rewrite Elo, Ehi in Hs. apply in_box_length. eapply sampled_inside; eauto. }
  inversion He as [|s'' Hi|s1 s'' a c sd Hi N Ha Hcc Hcomb|s1 s'' acc Hi Hne Hk|s1 s2 trials s3 s'' r' Hi N1 Ht Hu N2 Hend Heq]; subst.
  - inversion Hi as [| | |rng l rr Hr]; subst. rewrite Elo, Ehi in Hr.
    destruct (sample_total E b HE Hfin Hle rr) as [q Hq]. congruence.
  - rewrite Elo, Ehi in Hcomb.
    destruct (combine_points_spec E b a c sd (Hlen _ Hi _ Ha) (Hlen _ Hi _ Hcc)) as [_ G].
    destruct (G Hle) as [l Hl]. congruence.
  - destruct (init_members E HE s s1 Hi) as (L1 & Z1 & _).
    destruct (keep_best_spec E HE (p_population (ss_params s)) (members s1 ++ acc)) as (k & d & Hkk & _); [auto| |congruence].
    rewrite app_length. unfold members. rewrite combine_length. lia.
  - destruct (init_members E HE s s1 Hi) as (L1 & Z1 & _ & _).
    destruct (noisy_view _ _ N1) as (V1 & V2 & V3 & _). destruct (noisy_view _ _ N2) as (W1 & W2 & W3 & _).
    assert (L2 : length (ss_ref s2) = length (ss_objs s2)) by congruence.
    assert (L3 : length (ss_ref s3) = length (ss_objs s3)).
    { destruct Hu as [[-> ->] | Hu]; [auto|]. destruct (updated_members E HE s2 trials s3 L2 Hu) as (thr & acc & _ & Ha & L3 & _). auto. }
    pose proof (min_by_spec (ss_objs s')) as Hmin.
    destruct (min_by cmp_snd (enumerate (ss_objs s'))) as [[i v]|]; [|discriminate].
    destruct Hmin as [Hv _]. assert (Hi' : i < length (ss_ref s')).
    { rewrite W2, L3, <- W3. apply nth_error_Some. congruence. }
    apply nth_error_Some in Hi'. destruct (nth_error (ss_ref s') i); [discriminate|contradiction].
Qed.
