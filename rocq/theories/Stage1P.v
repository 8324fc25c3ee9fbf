(** * The phases of Stage 1 and the whole run *)
From Coq Require Import ZArith NArith List Bool Arith Lia Permutation Sorted.
From Verif Require Import F64 F64Order F64Alg F64Real Base Builders Types Runner Observer Env EnvSpec
  ScatterSearch Spec SpecStage1 DistP GreedyP SampleP.
Import ListNotations.

(** ** Running a computation to an outcome *)
Definition run_to {A} (m : M ss ss_error A) (s : ss) (Q : outcome ss_error A -> ss -> Prop) : Prop :=
  Q (fst (m s)) (snd (m s)).
Lemma rt_bind : forall A B (m : M ss ss_error A) (k : A -> M ss ss_error B) s Q,
  run_to m s (fun r s1 => match r with Ok a => run_to (k a) s1 Q | Err e => Q (Err e) s1 | Panic => Q Panic s1 end) ->
  run_to (bind m k) s Q.
Proof. intros A B m k s Q H. unfold run_to, bind in *. destruct (m s) as [[a|e|] s1]; auto. Qed.
Lemma rt_conseq : forall A (m : M ss ss_error A) s (Q Q' : outcome ss_error A -> ss -> Prop),
  run_to m s Q -> (forall r s', Q r s' -> Q' r s') -> run_to m s Q'.
Proof. intros. unfold run_to in *. auto. Qed.
Lemma rt_eq : forall A (m : M ss ss_error A) s Q r s', run_to m s Q -> m s = (r, s') -> Q r s'.
Proof. intros A m s Q r s' H Hm. unfold run_to in H. rewrite Hm in H. exact H. Qed.

(** ** Collecting results *)
Lemma errors_nil : forall A (l : list (A + N)), errors_of l = [] -> l = map inl (values_of l).
Proof. induction l as [|[a|e] l IH]; simpl; intro H; auto; [|discriminate]. f_equal. auto. Qed.
Lemma errors_in : forall A (l : list (A + N)) e, In e (errors_of l) -> In (inr e) l.
Proof. induction l as [|[a|x] l IH]; simpl; intros e H; auto. destruct H as [->|H]; auto. Qed.
Lemma collect_ok : forall A (par : bool) pick (l : list (A + N)) vs,
  (if par then collect_par pick l else collect_seq l) = inl vs -> l = map inl vs.
Proof.
  intros A par pick l vs H. unfold collect_par, collect_seq in H.
  destruct (errors_of l) as [|e r] eqn:He; [|destruct par; discriminate].
  rewrite (errors_nil _ l He). destruct par; injection H as <-; reflexivity.
Qed.
Lemma collect_err : forall A (par : bool) pick (l : list (A + N)) e,
  (if par then collect_par pick l else collect_seq l) = inr e -> In (inr e) l.
Proof.
  intros A par pick l e H. apply errors_in. unfold collect_par, collect_seq in H.
  destruct (errors_of l) as [|x r] eqn:He; [destruct par; discriminate|].
  assert (Hn : forall k, In (nth (k mod length (x :: r)) (x :: r) x) (x :: r))
    by (intro; apply nth_In, Nat.mod_upper_bound; discriminate).
  specialize (Hn pick). set (y := nth _ _ _) in *. clearbody y.
  destruct par; injection H as <-; [exact Hn|left; reflexivity].
Qed.
Lemma upto_all : forall (f : point -> f64 + N) l vs, map f l = map inl vs -> upto_error f l = l.
Proof.
  induction l as [|p l IH]; intros [|v vs] H; try discriminate; auto. simpl in H. injection H as H1 H2.
  simpl. rewrite H1. f_equal. eauto.
Qed.
Lemma mapped_pairs : forall (f : point -> f64 + N) l vs, map f l = map inl vs ->
  length l = length vs /\ forall p v, In (p, v) (combine l vs) -> f p = inl v.
Proof.
  induction l as [|x l IH]; intros [|y vs] H; try discriminate; [split; [auto|intros ? ? []]|].
  simpl in H. injection H as H1 H2. destruct (IH vs H2) as [L G]. split; [simpl; lia|].
  intros p v [E|Hin]; [injection E as <- <-; auto|auto].
Qed.

(** ** Initialization *)
Definition initial_points (P : problem) (s : ss) : list point :=
  filter (is_feasible (pb_constraints P)) (seed_points (ss_lower s) (ss_upper s)) ++
  filter (is_feasible (pb_constraints P)) (custom_points s).
Definition logged (l : list ss_event) (s : ss) : ss := ss_emit l s.
(** what initialization leaves: the sorted pairs *)
Inductive initialized (E : env) (s : ss) : outcome ss_error unit -> ss -> Prop :=
| init_ok : forall rng l refs objs, Forall (sampled E (ss_lower s) (ss_upper s)) l ->
    diversified E (initial_points (e_problem E) s) (pb_constraints (e_problem E)) s l (Ok refs) ->
    map (pb_objective (e_problem E)) refs = map inl objs ->
    effort (p_population (ss_params s)) (pb_constraints (e_problem E)) (length l) ->
    initialized E s (Ok tt)
      (ss_with_ref (map fst (e_sort E (combine refs objs))) (map snd (e_sort E (combine refs objs)))
         (ss_emit (map SsEval refs) (drew rng l s)))
| init_eval : forall rng l refs evs p e, Forall (sampled E (ss_lower s) (ss_upper s)) l ->
    diversified E (initial_points (e_problem E) s) (pb_constraints (e_problem E)) s l (Ok refs) ->
    In p refs -> pb_objective (e_problem E) p = inr e ->
    effort (p_population (ss_params s)) (pb_constraints (e_problem E)) (length l) ->
    initialized E s (Err (EvaluationError e)) (ss_emit (map SsEval evs) (drew rng l s))
| init_fail : forall rng l e, Forall (sampled E (ss_lower s) (ss_upper s)) l ->
    diversified E (initial_points (e_problem E) s) (pb_constraints (e_problem E)) s l (Err e) ->
    effort (p_population (ss_params s)) (pb_constraints (e_problem E)) (length l) ->
    (length (filter (is_feasible (pb_constraints (e_problem E))) l) < p_population (ss_params s) ->
       length l = 21 * p_population (ss_params s)) ->
    initialized E s (Err e) (drew rng l s)
| init_panic : forall rng l r, sample_point E r (ss_lower s) (ss_upper s) = None ->
    effort (p_population (ss_params s)) (pb_constraints (e_problem E)) (length l) ->
    initialized E s Panic (drew rng l s).
Lemma init_spec : forall E s, run_to (initialize_reference_set E) s (initialized E s).
Proof.
  intros E s. unfold initialize_reference_set. apply rt_bind. unfold run_to at 1, get. cbn [fst snd].
  apply rt_bind.
  replace (match ss_custom s with Some c => filter (is_feasible (pb_constraints (e_problem E))) c | None => [] end)
    with (filter (is_feasible (pb_constraints (e_problem E))) (custom_points s))
    by (unfold custom_points; destruct (ss_custom s); reflexivity).
  fold (initial_points (e_problem E) s).
  destruct (div_spec E (initial_points (e_problem E) s) (pb_constraints (e_problem E)) s)
    as (rng & l & r & Hd & Hs & Hdiv & Heff & _ & H21).
  unfold run_to at 1. rewrite Hd. cbn [fst snd].
  destruct r as [refs|e|].
  - apply rt_bind. unfold run_to at 1, modify. cbn [fst snd].
    match goal with |- context [match (if ?p then collect_par ?k ?l else collect_seq ?l) with _ => _ end] =>
      set (par := p); destruct (if par then collect_par k l else collect_seq l) as [objs|e] eqn:Hc end.
    + apply collect_ok in Hc. unfold run_to, modify. cbn [fst snd].
      replace (if par then refs else upto_error (pb_objective (e_problem E)) refs) with refs
        by (destruct par; [auto|symmetry; eapply upto_all; eauto]).
      apply init_ok; auto.
    + apply collect_err in Hc. apply in_map_iff in Hc as (p & Hp & Hin). unfold run_to, fail. cbn [fst snd].
      eapply init_eval; eauto.
  - apply init_fail; auto. apply H21; [discriminate|]. intro Hcs. inversion Hdiv. contradiction.
  - inversion Hdiv as [| |r0 Hr0]; subst. eapply init_panic; eauto.
Qed.

(** ** Trial points *)
Lemma pairs_in : forall k i j, In (i, j) (pairs k) <-> i < j < k.
Proof.
  intros k i j. unfold pairs. rewrite in_flat_map. split.
  - intros (x & Hx & H). apply in_map_iff in H as (y & Heq & Hy). injection Heq as -> ->.
    apply in_seq in Hx, Hy. lia.
  - intro H. exists i. split; [apply in_seq; lia|]. apply in_map_iff. exists j. split; auto. apply in_seq. lia.
Qed.
Lemma pairs_nodup : forall k, NoDup (pairs k).
Proof.
  intro k. unfold pairs. generalize (seq_NoDup k 0). generalize (seq 0 k) as l.
  induction l as [|i l IH]; intro H; simpl; [constructor|]. inversion H as [|? ? Hi Hl]; subst.
  assert (Hd : forall A (a b : list A), NoDup a -> NoDup b -> (forall x, In x a -> ~ In x b) -> NoDup (a ++ b)).
  { induction a as [|x a IHa]; intros b Ha Hb Hx; simpl; auto. inversion Ha; subst. constructor.
    - intro G. apply in_app_or in G as [G|G]; auto. apply (Hx x); [left; auto|auto].
    - apply IHa; auto. intros y Hy. apply Hx. right; auto. }
  apply Hd; auto.
  - apply FinFun.Injective_map_NoDup; [intros x y E; injection E; auto|apply seq_NoDup].
  - intros [a b] Ha Hb. apply in_map_iff in Ha as (y & E & _). injection E as <- _.
    apply in_flat_map in Hb as (x & Hx & Hb). apply in_map_iff in Hb as (z & E & _). injection E as -> _. contradiction.
Qed.
Lemma pairs_length : forall k, 2 * length (pairs k) = k * (k - 1).
Proof.
  intro k. unfold pairs.
  assert (H : forall n m, n + m = k -> 2 * length (flat_map (fun i => map (fun j => (i, j)) (seq (S i) (k - S i))) (seq m n)) = n * (n - 1)).
  { induction n as [|n IH]; intros m Hm; [reflexivity|]. cbn [seq flat_map].
    rewrite app_length, map_length, seq_length. specialize (IH (S m) ltac:(lia)).
    replace (k - S m) with n by lia. nia. }
  apply (H k 0). lia.
Qed.
(** trial points of a list of members *)
Definition trials_of (E : env) (lo hi : point) (refs : list point) (trials : list point) : Prop :=
  exists groups, trials = concat groups /\
    Forall2 (fun ij g => exists seed a b, nth_error refs (fst ij) = Some a /\ nth_error refs (snd ij) = Some b /\
                         combine_points E lo hi a b seed = Some g) (pairs (ksel (length refs))) groups.
Lemma combine_nth : forall A B (l : list A) (r : list B) n, nth_error (combine l r) n =
  match nth_error l n, nth_error r n with Some a, Some b => Some (a, b) | _, _ => None end.
Proof.
  induction l as [|x l IH]; intros [|y r] [|n]; simpl; auto.
  - destruct (nth_error l n); auto.
Qed.
Lemma ksel_le : forall n, ksel n <= n.
Proof. intro. unfold ksel. lia. Qed.
Lemma gen_trials_spec : forall E s, run_to (generate_trial_points E) s (fun r s' =>
  (exists rng, s' = ss_with_rng rng s) /\
  match r with
  | Ok trials => trials_of E (ss_lower s) (ss_upper s) (ss_ref s) trials
  | Err _ => False
  | Panic => exists a b seed, In a (ss_ref s) /\ In b (ss_ref s) /\
               combine_points E (ss_lower s) (ss_upper s) a b seed = None
  end).
Proof.
  intros E s. unfold generate_trial_points. apply rt_bind. unfold run_to at 1, get. cbn [fst snd].
  pose proof (draw_length E (length (pairs (ksel (length (ss_ref s))))) (ss_rng s)) as Hl.
  destruct (draw_seeds E _ (ss_rng s)) as [seeds rng]. simpl in Hl.
  apply rt_bind. unfold run_to at 1, modify. cbn [fst snd]. apply rt_bind. unfold run_to at 1, unwrap.
  set (f := fun c : nat * nat * N => match c with (i, j, sd) =>
        match nth_error (ss_ref s) i, nth_error (ss_ref s) j with
        | Some a, Some b => combine_points E (ss_lower s) (ss_upper s) a b sd
        | _, _ => None end end).
  assert (Hx : forall i j sd, In (i, j, sd) (combine (pairs (ksel (length (ss_ref s)))) seeds) ->
     exists a b, nth_error (ss_ref s) i = Some a /\ nth_error (ss_ref s) j = Some b).
  { intros i j sd Hin. apply in_combine_l in Hin. apply pairs_in in Hin. pose proof (ksel_le (length (ss_ref s))).
    destruct (nth_error (ss_ref s) i) as [a|] eqn:Ha; [|apply nth_error_None in Ha; lia].
    destruct (nth_error (ss_ref s) j) as [b|] eqn:Hb; [|apply nth_error_None in Hb; lia]. eauto. }
  destruct (all_some (map f _)) as [groups|] eqn:Ha.
  - unfold ret. cbn [fst snd]. unfold run_to. cbn [fst snd]. split; [eauto|].
    exists groups. split; auto. apply all_some_spec in Ha. symmetry in Hl.
    revert Ha Hl Hx. generalize (pairs (ksel (length (ss_ref s)))) as idx. clear.
    intros idx. revert seeds groups. induction idx as [|[i j] idx IH]; intros [|sd seeds] [|g groups] Ha Hl Hx; try discriminate;
      [constructor|]. cbn [combine map] in Ha. injection Ha as Hf Ha. simpl in Hl. injection Hl as Hl. constructor.
    + destruct (Hx i j sd) as (a & b & H1 & H2); [left; auto|]. cbn [fst snd].
      exists sd, a, b. rewrite H1, H2 in *. auto.
    + eapply IH; eauto. intros. eapply Hx. right; eauto.
  - unfold panic. cbn [fst snd]. split; [eauto|]. apply all_some_none in Ha.
    apply in_map_iff in Ha as ([[i j] sd] & Hf & Hin). destruct (Hx i j sd Hin) as (a & b & H1 & H2).
    exists a, b, sd. unfold f in Hf. rewrite H1, H2 in Hf. eauto using nth_error_In.
Qed.

(** ** Updating the reference set *)
(** the conditions under which a trial enters *)
Definition enters (E : env) (refs : list point) (worst thr : f64) (p : point) (v : f64) : Prop :=
  feasible (e_problem E) p /\ (forall r, In r (firstn 5 refs) -> flt thr (dist2 p r) = true) /\
  pb_objective (e_problem E) p = inl v /\ flt v worst = true.
Lemma evaluate_spec : forall E refs worst thr p v,
  snd (evaluate_trial E refs worst thr p) = Some (p, v) <-> enters E refs worst thr p v.
Proof.
  intros E refs worst thr p v. unfold evaluate_trial, enters. rewrite <- feasible_b.
  destruct (is_feasible (pb_constraints (e_problem E)) p) eqn:Hf; cbn [negb].
  2:{ split; [discriminate|intros (H & _); discriminate]. }
  destruct (forallb _ (firstn 5 refs)) eqn:Hd; cbn [negb].
  2:{ split; [discriminate|]. intros (_ & H & _). exfalso.
      assert (forallb (fun r => fgt (dist2 p r) thr) (firstn 5 refs) = true) by (apply forallb_forall; exact H). congruence. }
  rewrite forallb_forall in Hd.
  destruct (pb_objective (e_problem E) p) as [o|e]; cbn [snd].
  - destruct (flt o worst) eqn:Ho; split.
    + intro H; injection H as ->. repeat split; auto.
    + intros (_ & _ & H & _). injection H as ->. reflexivity.
    + discriminate.
    + intros (_ & _ & H & H2). injection H as ->. congruence.
  - split; [discriminate|]. intros (_ & _ & H & _). discriminate.
Qed.
Lemma evaluate_fst : forall E refs worst thr p q v,
  snd (evaluate_trial E refs worst thr p) = Some (q, v) -> q = p.
Proof.
  intros E refs worst thr p q v. unfold evaluate_trial.
  destruct (negb _); [discriminate|]. destruct (negb _); [discriminate|].
  destruct (pb_objective _ p) as [o|e]; [|discriminate]. cbn [snd]. destruct (flt o worst); [|discriminate].
  intro H; injection H as <- _. reflexivity.
Qed.
(** the best [pop] of a list, the rest dropped *)
Definition keeps_best (pop : nat) (all kept dropped : list (point * f64)) : Prop :=
  Permutation all (kept ++ dropped) /\ length kept = pop /\
  forall a b, In a kept -> In b dropped -> total_le (snd a) (snd b) = true.
Lemma select_spec : forall E, env_ok E -> forall i l, i < length l ->
  exists l', select_nth E i l = Some l' /\ Permutation l l' /\
    forall a b, In a (firstn (S i) l') -> In b (skipn (S i) l') -> le_snd a b.
Proof.
  intros E HE i l Hi. unfold select_nth. apply Nat.ltb_lt in Hi as Hb. rewrite Hb.
  destruct (eo_select E HE i l Hi) as [Hp Ho]. exists (e_select E i l). split; [auto|]. split; [symmetry; auto|].
  intros a b Ha Hb'. apply In_nth_error in Ha as [j Hj]. apply In_nth_error in Hb' as [k Hk].
  assert (Hjl : j < S i).
  { assert (Hx : j < length (firstn (S i) (e_select E i l))) by (apply nth_error_Some; congruence).
    rewrite firstn_length in Hx. lia. }
  apply (Ho j (S i + k)); try lia.
  - rewrite <- Hj. symmetry. rewrite <- (firstn_skipn (S i) (e_select E i l)) at 2.
    rewrite nth_error_app1; auto. apply nth_error_Some. congruence.
  - rewrite <- Hk. rewrite <- (firstn_skipn (S i) (e_select E i l)) at 1.
    rewrite nth_error_app2; rewrite firstn_length, (Permutation_length Hp), Nat.min_l by lia; [|lia]. f_equal. lia.
Qed.
Lemma ksel_pos : forall n, 1 <= n -> 1 <= ksel n.
Proof. intros. unfold ksel. lia. Qed.
Lemma keep_best_spec : forall E, env_ok E -> forall pop all, 1 <= pop -> pop <= length all ->
  exists kept dropped, keep_best E pop all = Some kept /\ keeps_best pop all kept dropped.
Proof.
  intros E HE pop all Hp Ha. unfold keep_best.
  pose proof (ksel_pos pop Hp). pose proof (ksel_le pop).
  destruct (ksel pop =? 0) eqn:Hk; [apply Nat.eqb_eq in Hk; lia|].
  destruct (select_spec E HE (ksel pop - 1) all) as (l1 & -> & P1 & _); [lia|].
  set (l2 := e_sort E (firstn (ksel pop) l1) ++ skipn (ksel pop) l1).
  assert (P2 : Permutation l1 l2).
  { unfold l2. rewrite <- (firstn_skipn (ksel pop) l1) at 1. apply Permutation_app_tail.
    symmetry. apply (eo_sort E HE). }
  assert (L2 : length l2 = length all) by (rewrite <- (Permutation_length P2), <- (Permutation_length P1); auto).
  destruct (select_spec E HE (pop - 1) l2) as (l3 & -> & P3 & O3); [lia|].
  replace (S (pop - 1)) with pop in O3 by lia.
  exists (firstn pop l3), (skipn pop l3). split; [auto|]. split; [|split].
  - rewrite firstn_skipn. etransitivity; [exact P1|]. etransitivity; eauto.
  - rewrite firstn_length, <- (Permutation_length P3). lia.
  - exact O3.
Qed.
Lemma dist_threshold_spec : forall E s, exists thr, dist_threshold E s = Some thr /\
  (if length (ss_ref s) <? 2 then thr = f0
   else exists t, thr = fmul (fdiv (tree_sum t (neighbour_distances (ss_ref s) (ksel (length (ss_ref s)))))
                               (of_nat (ksel (length (ss_ref s))))) (lit 10 100)).
Proof.
  intros E s. unfold dist_threshold. destruct (length (ss_ref s) <? 2) eqn:Hn; [eauto|].
  apply Nat.ltb_ge in Hn.
  assert (Hex : forall l, (forall i, In i l -> i < length (ss_ref s)) ->
    all_some (map (fun i => match nth_error (ss_ref s) i, nth_error (ss_ref s) (S i mod length (ss_ref s)) with
      | Some a, Some b => Some (dist2 a b) | _, _ => None end) l) =
    Some (map (fun i => dist2 (nth i (ss_ref s) []) (nth (S i mod length (ss_ref s)) (ss_ref s) [])) l)).
  { induction l as [|i l IH]; intro H; [reflexivity|]. cbn [map all_some].
    assert (Hi : i < length (ss_ref s)) by (apply H; left; auto).
    rewrite (nth_error_nth' (ss_ref s) [] Hi).
    rewrite (nth_error_nth' (ss_ref s) []) by (apply Nat.mod_upper_bound; lia).
    rewrite IH; [reflexivity|]. intros. apply H. right; auto. }
  rewrite Hex.
  2:{ intros i Hi. apply in_seq in Hi. pose proof (ksel_le (length (ss_ref s))). lia. }
  eexists. split; [reflexivity|]. fold (neighbour_distances (ss_ref s) (ksel (length (ss_ref s)))).
  destruct (ss_parallel s); [eexists; reflexivity|]. exists SLeaf. reflexivity.
Qed.
(** the outcome of an update: unchanged when no trial enters *)
Definition updated (E : env) (s : ss) (trials : list point) (s' : ss) : Prop :=
  exists thr accepted evs,
    (if length (ss_ref s) <? 2 then thr = f0
     else exists t, thr = fmul (fdiv (tree_sum t (neighbour_distances (ss_ref s) (ksel (length (ss_ref s)))))
                               (of_nat (ksel (length (ss_ref s))))) (lit 10 100)) /\
    (forall p v, In (p, v) accepted <-> In p trials /\ enters E (ss_ref s) (last (ss_objs s) pinf) thr p v) /\
    Forall (fun p => In p trials) evs /\
    ((accepted = [] /\ s' = ss_emit (map SsEval evs) s) \/
     (accepted <> [] /\ exists kept, keep_best E (p_population (ss_params s)) (members s ++ accepted) = Some kept /\
        s' = ss_with_ref (map fst kept) (map snd kept) (ss_emit (map SsEval evs) s))).
Lemma ss_emit_nil : forall s, ss_emit [] s = s.
Proof. intros []; reflexivity. Qed.
Lemma update_spec : forall E trials s, run_to (update_reference_set E trials) s (fun r s' =>
  match r with
  | Ok _ => trials = [] /\ s' = s \/ updated E s trials s'
  | Err _ => False
  | Panic => exists accepted, accepted <> [] /\
      keep_best E (p_population (ss_params s)) (members s ++ accepted) = None
  end).
Proof.
  intros E trials s. unfold update_reference_set. destruct trials as [|t0 trials]; [left; auto|].
  set (ts := t0 :: trials). apply rt_bind. unfold run_to at 1, get. cbn [fst snd]. apply rt_bind.
  destruct (dist_threshold_spec E s) as (thr & -> & Hthr). unfold run_to at 1, unwrap, ret. cbn [fst snd].
  apply rt_bind. unfold run_to at 1, modify. cbn [fst snd].
  set (worst := last (ss_objs s) pinf).
  set (res := map (fun p => (p, evaluate_trial E (ss_ref s) worst thr p)) ts).
  set (evs := map fst (filter (fun r => fst (snd r)) res)).
  replace (map (fun r : point * (bool * option (point * f64)) => SsEval (fst r)) (filter (fun r => fst (snd r)) res))
    with (map SsEval evs) by (unfold evs; rewrite map_map; reflexivity).
  set (accepted := flat_map (fun r : point * (bool * option (point * f64)) => match snd (snd r) with Some x => [x] | None => [] end) res).
  assert (Hacc : forall p v, In (p, v) accepted <-> In p ts /\ enters E (ss_ref s) worst thr p v).
  { intros p v. unfold accepted. rewrite in_flat_map. split.
    - intros (r & Hr & Hin). unfold res in Hr. apply in_map_iff in Hr as (q & <- & Hq). cbn [snd] in Hin.
      destruct (snd (evaluate_trial E (ss_ref s) worst thr q)) as [[q' v']|] eqn:He; [|contradiction].
      destruct Hin as [Hin|[]]. injection Hin as -> ->.
      pose proof (evaluate_fst _ _ _ _ _ _ _ He); subst. split; auto. apply evaluate_spec; auto.
    - intros [Hq He]. apply evaluate_spec in He. exists (p, evaluate_trial E (ss_ref s) worst thr p).
      split; [apply in_map_iff; eauto|]. cbn [snd]. rewrite He. left; auto. }
  assert (Hev : Forall (fun p => In p ts) evs).
  { apply Forall_forall. intros p Hp. unfold evs in Hp. apply in_map_iff in Hp as ([q x] & <- & Hin).
    apply filter_In in Hin as [Hin _]. unfold res in Hin. apply in_map_iff in Hin as (q' & E' & Hq). injection E' as <- _. auto. }
  clearbody evs accepted. destruct (match accepted with [] => true | _ => false end) eqn:Ha.
  - assert (accepted = []) as -> by (destruct accepted; [auto|discriminate]).
    unfold run_to, ret. cbn [fst snd]. right. exists thr, [], evs.
    split; [auto|]. split; [exact Hacc|]. split; [auto|]. left; auto.
  - assert (Hne : accepted <> []) by (destruct accepted; [discriminate|discriminate]).
    apply rt_bind. unfold run_to at 1, unwrap, ret, panic. fold (members s).
    destruct (keep_best E _ (members s ++ accepted)) as [kept|] eqn:Hk; cbn [fst snd].
    + unfold run_to, modify. cbn [fst snd]. right. exists thr, accepted, evs.
      split; [auto|]. split; [auto|]. split; [auto|]. right. split; [auto|]. exists kept. auto.
    + exists accepted. auto.
Qed.

(** ** The whole run *)
(** only the generator, the observer and callback events differ *)
Definition noisy (s s' : ss) : Prop := exists rng ob evs,
  s' = mk_ss (ss_params s) (ss_ref s) (ss_objs s) (ss_lower s) (ss_upper s) rng (ss_parallel s) ob
         (ss_custom s) (ss_ctx s) (evs ++ ss_log s) /\ drawn evs = [] /\ evaluations evs = [].
Lemma drawn_app : forall a b, drawn (a ++ b) = drawn b ++ drawn a.
Proof. intros. unfold drawn. rewrite rev_app_distr, flat_map_app. reflexivity. Qed.
Lemma evaluations_app : forall a b, evaluations (a ++ b) = evaluations b ++ evaluations a.
Proof. intros. unfold evaluations. rewrite rev_app_distr, flat_map_app. reflexivity. Qed.
Lemma noisy_refl : forall s, noisy s s.
Proof. intros []. exists ss_rng, ss_observer, []. auto. Qed.
Lemma noisy_trans : forall a b c, noisy a b -> noisy b c -> noisy a c.
Proof.
  intros a b c (r1 & o1 & e1 & -> & D1 & V1) (r2 & o2 & e2 & -> & D2 & V2).
  exists r2, o2, (e2 ++ e1). cbn [ss_params ss_ref ss_objs ss_lower ss_upper ss_rng ss_parallel ss_observer ss_custom ss_ctx ss_log].
  rewrite app_assoc. split; auto. rewrite drawn_app, evaluations_app, D1, D2, V1, V2. auto.
Qed.
Lemma noisy_rng : forall r s, noisy s (ss_with_rng r s).
Proof. intros. exists r, (ss_observer s), []. auto. Qed.
Lemma noisy_obs : forall f s, fst (ss_obs f s) = Ok tt /\ noisy s (snd (ss_obs f s)).
Proof. intros f s. split; [reflexivity|]. exists (ss_rng s), (option_map f (ss_observer s)), []. auto. Qed.
Lemma noisy_callback : forall E s, fst (ss_callback E s) = Ok tt /\ noisy s (snd (ss_callback E s)).
Proof.
  intros E s. unfold ss_callback, bind, get, ret, modify.
  destruct (ss_observer s) as [o|] eqn:Ho; [|split; [reflexivity|apply noisy_refl]].
  destruct (ob_callback o); [|split; [reflexivity|apply noisy_refl]].
  destruct (invoke_callback (e_callback E) o) as [o' msgs]. cbn [fst snd]. split; [reflexivity|].
  exists (ss_rng s), (Some o'), (rev (SsCallback o :: map SsPrint msgs)). split; [reflexivity|].
  unfold drawn, evaluations. rewrite rev_involutive. cbn [flat_map app].
  assert (H : forall A (f : ss_event -> list A), (forall m, f (SsPrint m) = []) -> flat_map f (map SsPrint msgs) = []).
  { intros A f Hf. induction msgs as [|m msgs IH]; simpl; auto. rewrite Hf, IH. auto. }
  split; apply H; reflexivity.
Qed.

Inductive stage1_ends (E : env) (s : ss) : outcome ss_error (list (point * f64) * point) -> ss -> Prop :=
| ends_early : forall e s', initialized E s (Err e) s' -> stage1_ends E s (Err e) s'
| ends_panic : forall s', initialized E s Panic s' -> stage1_ends E s Panic s'
| ends_trial_panic : forall s1 s' a b seed, initialized E s (Ok tt) s1 -> noisy s1 s' -> In a (ss_ref s1) -> In b (ss_ref s1) ->
    combine_points E (ss_lower s) (ss_upper s) a b seed = None -> stage1_ends E s Panic s'
| ends_update_panic : forall s1 s' accepted, initialized E s (Ok tt) s1 -> accepted <> [] ->
    keep_best E (p_population (ss_params s)) (members s1 ++ accepted) = None -> stage1_ends E s Panic s'
| ends_later : forall s1 s2 trials s3 s' r, initialized E s (Ok tt) s1 -> noisy s1 s2 ->
    trials_of E (ss_lower s) (ss_upper s) (ss_ref s1) trials ->
    trials = [] /\ s3 = s2 \/ updated E s2 trials s3 -> noisy s3 s' ->
    match min_by cmp_snd (enumerate (ss_objs s')) with
    | None => r = Err NoCandidates
    | Some (i, _) => match nth_error (ss_ref s') i with
                     | Some best => r = Ok (members s', best)
                     | None => r = Panic
                     end
    end -> stage1_ends E s r s'.
Ltac rt_noise L := apply rt_bind; eapply rt_conseq; [exact L|];
  let Hr := fresh "Hr" in let Hn := fresh "Hn" in intros ? ? [Hr Hn]; rewrite Hr; clear Hr.
Lemma noisy_view : forall s s', noisy s s' -> ss_params s' = ss_params s /\ ss_ref s' = ss_ref s /\ ss_objs s' = ss_objs s /\
  ss_lower s' = ss_lower s /\ ss_upper s' = ss_upper s /\ ss_parallel s' = ss_parallel s /\ ss_ctx s' = ss_ctx s /\
  drawn (ss_log s') = drawn (ss_log s) /\ evaluations (ss_log s') = evaluations (ss_log s).
Proof.
  intros s s' (r & o & e & -> & D & V). cbn [ss_params ss_ref ss_objs ss_lower ss_upper ss_rng ss_parallel ss_observer ss_custom ss_ctx ss_log].
  rewrite drawn_app, evaluations_app, D, V, !app_nil_r. repeat split.
Qed.
Lemma init_view : forall E s s1, initialized E s (Ok tt) s1 -> ss_params s1 = ss_params s /\
  ss_lower s1 = ss_lower s /\ ss_upper s1 = ss_upper s /\ ss_parallel s1 = ss_parallel s /\ ss_ctx s1 = ss_ctx s.
Proof. intros E s s1 H. inversion H; subst. repeat split. Qed.
Lemma best_eq : forall E s, ss_best_solution E s =
  match min_by cmp_snd (enumerate (ss_objs s)) with
  | None => (Err NoCandidates, s)
  | Some (i, _) => match nth_error (ss_ref s) i with Some b => (Ok b, s) | None => (Panic, s) end
  end.
Proof.
  intros E s. unfold ss_best_solution, bind, get. rewrite best_tree.
  destruct (min_by cmp_snd (enumerate (ss_objs s))) as [[i v]|]; [|reflexivity].
  destruct (nth_error (ss_ref s) i); reflexivity.
Qed.
Lemma run_ends : forall E s, run_to (ss_run E) s (stage1_ends E s).
Proof.
  intros E s. unfold ss_run. apply rt_bind. eapply rt_conseq; [apply init_spec|].
  intros [[]|e|] s1 H1; [|apply ends_early; auto|apply ends_panic; auto].
  destruct (init_view _ _ _ H1) as (I1 & I2 & I3 & I4 & I5).
  assert (Hobs : forall A f (k : unit -> M ss ss_error A) s0 Q,
    (forall s', noisy s0 s' -> run_to (k tt) s' Q) -> run_to (bind (ss_obs f) k) s0 Q).
  { intros A f k s0 Q H. apply rt_bind. destruct (noisy_obs f s0) as [G1 G2]. unfold run_to at 1. rewrite G1. auto. }
  assert (Hcall : forall A (k : unit -> M ss ss_error A) s0 Q,
    (forall s', noisy s0 s' -> run_to (k tt) s' Q) -> run_to (bind (ss_callback E) k) s0 Q).
  { intros A k s0 Q H. apply rt_bind. destruct (noisy_callback E s0) as [G1 G2]. unfold run_to at 1. rewrite G1. auto. }
  apply Hobs. intros a1 N1. apply Hcall. intros a2 N2. apply rt_bind. unfold run_to at 1, get. cbn [fst snd].
  apply Hobs. intros a3 N3. apply Hcall. intros s2 N4.
  assert (N : noisy s1 s2) by (eapply noisy_trans; [eapply noisy_trans; [eapply noisy_trans|]|]; eauto).
  clear a1 N1 a2 N2 a3 N3 N4. destruct (noisy_view _ _ N) as (V1 & V2 & V3 & V4 & V5 & V6 & _).
  apply rt_bind. eapply rt_conseq; [apply gen_trials_spec|]. cbv beta.
  intros r s3 [[rng Hs3] Hr]. assert (N3 : noisy s1 s3) by (eapply noisy_trans; [exact N|subst s3; apply noisy_rng]).
  rewrite V4, V5, I2, I3, V2 in Hr. destruct r as [trials|e|]; [|contradiction|].
  2:{ destruct Hr as (a & b & sd & Ha & Hb & Hc). eapply (ends_trial_panic E s s1 s3 a b sd); auto. }
  clear Hs3 rng. destruct (noisy_view _ _ N3) as (W1 & W2 & W3 & W4 & W5 & W6 & _).
  apply rt_bind. eapply rt_conseq; [apply update_spec|]. cbv beta. intros r s4 Hu.
  destruct r as [[]|e|]; [|contradiction|].
  2:{ destruct Hu as (acc & Hne & Hk). eapply ends_update_panic; [exact H1|exact Hne|].
      unfold members in *. rewrite W1, W2, W3, I1 in Hk. exact Hk. }
  apply rt_bind. unfold run_to at 1, get. cbn [fst snd].
  apply Hobs. intros a1 N1. apply Hcall. intros s5 N2.
  assert (N5 : noisy s4 s5) by (eapply noisy_trans; eauto).
  apply rt_bind. unfold run_to at 1. rewrite best_eq.
  assert (Hend : forall r, match min_by cmp_snd (enumerate (ss_objs s5)) with
    | None => r = Err NoCandidates
    | Some (i, _) => match nth_error (ss_ref s5) i with
                     | Some best => r = Ok (members s5, best)
                     | None => r = Panic
                     end
    end -> stage1_ends E s r s5) by (intros; eapply ends_later with (s1 := s1) (s2 := s3) (trials := trials) (s3 := s4); eauto).
  destruct (min_by cmp_snd (enumerate (ss_objs s5))) as [[i v]|] eqn:Hm; cbn [fst snd]; [|apply Hend; reflexivity].
  destruct (nth_error (ss_ref s5) i) as [best|] eqn:Hi; cbn [fst snd]; apply Hend; reflexivity.
Qed.
