(** * Proofs about filters, solution sets, construction, builders, solver dispatch *)
From Coq Require Import ZArith NArith List Bool Arith Lia Permutation String Ascii.
From Verif Require Import F64 F64Order Base Builders Types Filters Runner Observer Env ScatterSearch
  Codec Checkpoint Oqnlp Spec.
Import ListNotations.

(** ** Filters *)
Lemma last_cons_default : forall A (l : list A) a d, last (a :: l) d = last l a.
Proof.
  induction l as [|b l IH]; intros a d; [reflexivity|].
  change (last (a :: b :: l) d) with (last (b :: l) d). rewrite IH. rewrite IH. reflexivity.
Qed.
Lemma merit_after : forall ts f v,
  mf_check (fold_left mf_update ts f) v = fle v (last ts (mf_threshold f)).
Proof.
  induction ts as [|t ts IH]; intros f v; [reflexivity|].
  simpl fold_left. rewrite IH, last_cons_default. reflexivity.
Qed.
Lemma fle_nan_false_l : forall v t, is_nan v = true -> fle v t = false.
Proof.
  intros v t H. destruct (fle v t) eqn:E; auto. apply fle_nan_l in E. congruence.
Qed.
Lemma fle_nan_false_r : forall v t, is_nan t = true -> fle v t = false.
Proof.
  intros v t H. destruct (fle v t) eqn:E; auto. apply fle_nan_r in E. congruence.
Qed.
Lemma merit_all : forall ts v,
  (mf_check (fold_left mf_update ts mf_new) v = true <-> fle v (last_written pinf ts) = true) /\
  (mf_check mf_new v = true <-> is_nan v = false) /\
  (is_nan v = true -> mf_check (fold_left mf_update ts mf_new) v = false) /\
  (is_nan (last_written pinf ts) = true -> mf_check (fold_left mf_update ts mf_new) v = false).
Proof.
  intros ts v. rewrite merit_after. change (mf_threshold mf_new) with pinf.
  unfold last_written. repeat split; auto.
  - intro H. unfold mf_check in H. eapply fle_nan_l; eauto.
  - intro H. apply fle_pinf; auto.
  - apply fle_nan_false_l.
  - apply fle_nan_false_r.
Qed.

Lemma df_after : forall ls f,
  df_solutions (fold_left df_add ls f) = df_solutions f ++ ls /\
  df_params (fold_left df_add ls f) = df_params f.
Proof.
  induction ls as [|s ls IH]; intro f; simpl.
  - rewrite app_nil_r; auto.
  - destruct (IH (df_add f s)) as [H1 H2]. rewrite H1, H2. simpl. rewrite <- app_assoc. auto.
Qed.
Lemma df_new_inv : forall p f, df_new p = inl f -> df_solutions f = [] /\ df_params f = p /\
  flt (fp_distance_factor p) f0 = false.
Proof.
  unfold df_new; intros p f H. destruct (flt _ _) eqn:E; inversion H; subst; auto.
Qed.
Lemma df_check_iff : forall p f ls q, df_new p = inl f ->
  df_check (fold_left df_add ls f) q = true <->
  forall s, In s ls ->
    flt (fmul (fp_distance_factor p) (fp_distance_factor p)) (dist2 q (ls_point s)) = true.
Proof.
  intros p f ls q H. apply df_new_inv in H as (H1 & H2 & _).
  unfold df_check. destruct (df_after ls f) as [-> ->]. rewrite H1, H2. simpl.
  rewrite forallb_forall. reflexivity.
Qed.
Lemma df_perm : forall p f ls ls' q, df_new p = inl f -> Permutation ls ls' ->
  df_check (fold_left df_add ls f) q = df_check (fold_left df_add ls' f) q.
Proof.
  intros p f ls ls' q H P. apply eq_true_iff_eq.
  rewrite (df_check_iff p f ls q H), (df_check_iff p f ls' q H).
  split; intros K s I; apply K; [apply Permutation_sym in P|]; eapply Permutation_in; eassumption.
Qed.
Lemma df_monotone : forall f s q, df_check f q = false -> df_check (df_add f s) q = false.
Proof.
  intros f s q H. unfold df_check, df_add in *; simpl. rewrite forallb_app, H. reflexivity.
Qed.
Lemma df_new_fails : forall p v, df_new p = inr v <->
  (flt (fp_distance_factor p) f0 = true /\ v = fp_distance_factor p).
Proof.
  unfold df_new; intros p v. destruct (flt _ _) eqn:E; split; intro H; try congruence.
  - inversion H; auto.
  - destruct H as [_ ->]; reflexivity.
  - destruct H as [H _]; discriminate.
Qed.

(** ** Reductions by comparison *)
Section MinBy.
Context {A : Type} (key : A -> f64).
Let cmp (a b : A) := total_cmp (key a) (key b).
Lemma fold_pick_min : forall l x,
  exists n y, nth_error (x :: l) n = Some y /\ fold_left (pick_min cmp) l x = y /\
    (forall j z, nth_error (x :: l) j = Some z ->
       total_le (key y) (key z) = true /\ (j < n -> total_lt (key y) (key z) = true)).
Proof.
  induction l as [|a l IH]; intro x; simpl fold_left.
  - exists 0, x. split; [reflexivity|]. split; [reflexivity|].
    intros [|j] z H; simpl in H.
    + inversion H; subst. split; [apply total_le_refl | lia].
    + destruct j; discriminate.
  - unfold pick_min at 2. unfold cmp at 2.
    destruct (total_cmp (key x) (key a)) eqn:E.
    + destruct (IH x) as (n & y & H1 & H2 & H3).
      assert (Hxa : total_le (key x) (key a) = true) by (unfold total_le; rewrite E; reflexivity).
      exists (match n with 0 => 0 | S m => S (S m) end), y. split.
      * destruct n; exact H1.
      * split; [exact H2|]. intros [|[|j]] z Hz; simpl in Hz.
        -- destruct (H3 0 z) as [K1 K2]; [exact Hz|]. split; auto. destruct n; [lia|]. intros _. apply K2. lia.
        -- inversion Hz; subst z. destruct (H3 0 x eq_refl) as [K1 K2]. split.
           ++ eapply total_le_trans; eauto.
           ++ destruct n; [lia|]. intros _.
              apply total_cmp_eq in E. rewrite <- E. apply K2. lia.
        -- destruct (H3 (S j) z) as [K1 K2]; [exact Hz|]. split; auto.
           destruct n; [lia|]. intro. apply K2. lia.
    + destruct (IH x) as (n & y & H1 & H2 & H3).
      assert (Hxa : total_lt (key x) (key a) = true) by (unfold total_lt; rewrite E; reflexivity).
      exists (match n with 0 => 0 | S m => S (S m) end), y. split.
      * destruct n; exact H1.
      * split; [exact H2|]. intros [|[|j]] z Hz; simpl in Hz.
        -- destruct (H3 0 z) as [K1 K2]; [exact Hz|]. split; auto. destruct n; [lia|]. intros _. apply K2. lia.
        -- inversion Hz; subst z. destruct (H3 0 x eq_refl) as [K1 K2]. split.
           ++ eapply total_le_trans; [exact K1|]. apply total_lt_le; auto.
           ++ destruct n; [lia|]. intros _. rewrite total_lt_iff in *.
              eapply lex_lt_trans; [apply K2; lia | exact Hxa].
        -- destruct (H3 (S j) z) as [K1 K2]; [exact Hz|]. split; auto.
           destruct n; [lia|]. intro. apply K2. lia.
    + destruct (IH a) as (n & y & H1 & H2 & H3).
      assert (Hax : total_lt (key a) (key x) = true).
      { unfold total_lt. rewrite total_cmp_antisym, E. reflexivity. }
      exists (S n), y. split; [exact H1|]. split; [exact H2|].
      intros [|j] z Hz; simpl in Hz.
      * inversion Hz; subst z. destruct (H3 0 a eq_refl) as [K1 _].
        assert (total_lt (key y) (key x) = true).
        { rewrite total_lt_iff, total_le_iff in *. eapply lex_le_lt_trans; eauto. }
        split; auto. apply total_lt_le; auto.
      * destruct (H3 j z Hz) as [K1 K2]. split; auto. intro. apply K2. lia.
Qed.
Lemma min_by_spec : forall l,
  match min_by cmp l with
  | None => l = []
  | Some y => exists n, nth_error l n = Some y /\
      forall j z, nth_error l j = Some z ->
        total_le (key y) (key z) = true /\ (j < n -> total_lt (key y) (key z) = true)
  end.
Proof.
  intros [|x l]; simpl; [reflexivity|].
  destruct (fold_pick_min l x) as (n & y & H1 & H2 & H3). fold cmp.
  rewrite H2. exists n. split; auto.
Qed.
End MinBy.

Lemma best_solution_spec : forall s,
  match best_solution s with
  | None => s = []
  | Some y => exists n, nth_error s n = Some y /\
      forall j z, nth_error s j = Some z ->
        total_le (ls_obj y) (ls_obj z) = true /\ (j < n -> total_lt (ls_obj y) (ls_obj z) = true)
  end.
Proof. intro s. exact (min_by_spec ls_obj s). Qed.
Lemma best_solution_none : forall s, best_solution s = None <-> s = [].
Proof.
  intros s. split; intro H; [|subst; reflexivity].
  pose proof (best_solution_spec s) as K. rewrite H in K. exact K.
Qed.
Lemma total_le_neg_nan : forall b z, is_nan b = true -> is_nan z = false -> total_le b z = true ->
  b = NaN true.
Proof.
  intros b z Hb Hz H. destruct b as [| |[]|]; try discriminate; auto.
  exfalso. apply total_le_iff in H. destruct z as [[]|[]|[]|[] ? ?]; try discriminate;
    unfold lex_le, lex_lt in H; simpl in H; destruct H as [H|H]; try discriminate; lia.
Qed.
Lemma best_solution_no_better : forall s y z, best_solution s = Some y -> In z s ->
  flt (ls_obj z) (ls_obj y) = true -> False.
Proof.
  intros s y z H I L. pose proof (best_solution_spec s) as K. rewrite H in K.
  destruct K as (n & _ & K). apply In_nth_error in I as [j I].
  destruct (K j z I) as [K1 _]. apply flt_total_lt in L.
  rewrite total_lt_not_le, K1 in L. discriminate.
Qed.

(** ** Construction *)
Lemma oq_new_spec : forall p,
  ((exists o, oq_new p = Ok o) <-> valid_params p) /\
  (forall e, oq_new p = Err e <-> first_violation p e) /\
  oq_new p <> Panic /\
  (forall o, oq_new p = Ok o -> fresh_optimizer p o).
Proof.
  intro p. unfold oq_new, df_new, valid_params. simpl.
  destruct (Nat.leb_spec (p_population p) 3) as [Hp|Hp];
  [|destruct (Nat.ltb_spec (p_population p) (p_iterations p)) as [Hi|Hi];
  [|destruct (fle (p_threshold_factor p) f0) eqn:Et;
  [|destruct (flt (p_distance_factor p) f0) eqn:Ed]]].
  1-4: split; [split; [intros [o Ho]; discriminate | intros (? & ? & ? & ?); try lia; discriminate]|];
       split; [intro e; split; [intro He; inversion He; subst; constructor; auto; lia
                               | intro He; inversion He; subst; try lia; try congruence; reflexivity]|];
       split; [discriminate | intros o Ho; discriminate].
  split; [split; [intros _; repeat split; auto | eauto]|].
  split; [intro e; split; [discriminate | intro He; inversion He; subst; try lia; congruence]|].
  split; [discriminate|]. intros o Ho; injection Ho as <-. constructor; repeat split; reflexivity.
Qed.

(** ** Custom points *)
Lemma within_bounds_spec : forall p b, List.length p = List.length b ->
  (within_bounds b p = Some true <-> Forall2 not_outside b p) /\
  (within_bounds b p = Some false <-> ~ Forall2 not_outside b p).
Proof.
  induction p as [|x p IH]; intros [|[lo hi] b] H; try discriminate; simpl.
  - split; split; intro K; auto; try discriminate. exfalso; apply K; constructor.
  - injection H as H. destruct (IH b H) as [I1 I2]. unfold fgt.
    destruct (flt x lo) eqn:E1; simpl.
    { split; split; intro K; auto; try discriminate.
      - inversion K; subst. destruct H3; simpl in *; congruence.
      - intro F; inversion F; subst. destruct H3; simpl in *; congruence. }
    destruct (flt hi x) eqn:E2; simpl.
    { split; split; intro K; auto; try discriminate.
      - inversion K; subst. destruct H3; simpl in *; congruence.
      - intro F; inversion F; subst. destruct H3; simpl in *; congruence. }
    assert (HF : Forall2 not_outside ((lo, hi) :: b) (x :: p) <-> Forall2 not_outside b p).
    { split; intro K; [inversion K; auto | constructor; auto; split; auto]. }
    rewrite HF. auto.
Qed.
Lemma within_bounds_some : forall p b, List.length p = List.length b ->
  exists r, within_bounds b p = Some r.
Proof.
  intros p b H. destruct (within_bounds b p) eqn:E; [eauto|]. exfalso.
  revert b H E; induction p as [|x p IH]; intros [|[lo hi] b] H E; try discriminate.
  injection H as H. simpl in E. destruct (_ || _); try discriminate. eauto.
Qed.
Lemma check_points_spec : forall b l k,
  match check_points b k l with
  | Ok _ => Forall (row_ok b) l
  | Err e => exists i row, first_such (fun p => ~ row_ok b p) l i row /\
      e = (if List.length row =? List.length b then CustomPointOutOfBounds (k + i)
           else InvalidCustomPointsDimension (k + i) (List.length b) (List.length row))
  | Panic => False
  end.
Proof.
  intros b l; induction l as [|p l IH]; intro k; simpl; [constructor|].
  destruct (Nat.eqb_spec (List.length p) (List.length b)) as [Hl|Hl].
  - destruct (within_bounds_spec p b Hl) as [W1 W2].
    destruct (within_bounds_some p b Hl) as [[] Hr]; rewrite Hr.
    + specialize (IH (S k)). destruct (check_points b (S k) l).
      * constructor; auto. split; auto. apply W1; auto.
      * destruct IH as (i & row & (F1 & F2 & F3) & ->). exists (S i), row.
        split; [|replace (k + S i) with (S k + i) by lia; reflexivity].
        split; [exact F1|]. split; [exact F2|].
        intros [|j] y Hj Hy; simpl in Hy.
        -- inversion Hy; subst y. intro K; apply K. split; auto. apply W1; auto.
        -- apply (F3 j y); auto; lia.
      * exact IH.
    + exists 0, p. rewrite Nat.add_0_r, (proj2 (Nat.eqb_eq _ _) Hl). split; [|reflexivity].
      split; [reflexivity|]. split; [|intros j y Hj; lia]. intros [_ K]. apply W2 in Hr. auto.
  - exists 0, p. rewrite Nat.add_0_r, (proj2 (Nat.eqb_neq _ _) Hl). split; [|reflexivity].
    split; [reflexivity|]. split; [|intros j y Hj; lia]. intros [K _]; auto.
Qed.
Lemma with_points_spec : forall E l o,
  match with_points E l o with
  | Ok o' => Forall (row_ok (pb_bounds (e_problem E))) l /\ o' = set_o_custom (Some l) o
  | Err e => exists i row, first_such (fun p => ~ row_ok (pb_bounds (e_problem E)) p) l i row /\
      (e = InvalidCustomPointsDimension i (List.length (pb_bounds (e_problem E))) (List.length row) /\
         List.length row <> List.length (pb_bounds (e_problem E)) \/
       e = CustomPointOutOfBounds i /\ List.length row = List.length (pb_bounds (e_problem E)))
  | Panic => False
  end.
Proof.
  intros E l o. unfold with_points.
  pose proof (check_points_spec (pb_bounds (e_problem E)) l 0) as K.
  destruct (check_points _ _ _); auto.
  destruct K as (i & row & F & ->). exists i, row. split; auto. simpl.
  destruct (Nat.eqb_spec (List.length row) (List.length (pb_bounds (e_problem E)))); auto.
Qed.
Lemma with_points_ok_iff : forall E l o,
  (exists o', with_points E l o = Ok o') <-> Forall (row_ok (pb_bounds (e_problem E))) l.
Proof.
  intros E l o. pose proof (with_points_spec E l o) as K. destruct (with_points E l o).
  - split; [intros _; apply K | eauto].
  - destruct K as (i & row & (F1 & F2 & _) & _). split; [intros [? H]; discriminate|].
    intro H. exfalso. apply F2. rewrite Forall_forall in H. apply H. eapply nth_error_In; eauto.
  - contradiction.
Qed.

(** ** Bounds *)
Lemma bad_bound_spec : forall b k,
  match bad_bound k b with
  | None => Forall (fun x => ~ empty_or_inverted x) b
  | Some e => exists i lo hi, first_such empty_or_inverted b i (lo, hi) /\ e = InvalidBounds (k + i) lo hi
  end.
Proof.
  induction b as [|[lo hi] b IH]; intro k; simpl; [constructor|].
  destruct (fge lo hi) eqn:E.
  - exists 0, lo, hi. rewrite Nat.add_0_r. split; auto. split; [reflexivity|].
    split; [exact E|]. intros; lia.
  - specialize (IH (S k)). destruct (bad_bound (S k) b).
    + destruct IH as (i & l & h & (F1 & F2 & F3) & ->). exists (S i), l, h.
      split; [|f_equal; lia]. split; [exact F1|]. split; [exact F2|].
      intros [|j] y Hj Hy; simpl in Hy.
      * inversion Hy; subst. unfold empty_or_inverted, fge in *; simpl in *; congruence.
      * apply (F3 j y); auto; lia.
    + constructor; auto. unfold empty_or_inverted, fge in *; simpl in *; congruence.
Qed.
Lemma ss_new_spec : forall E p ctx,
  match ss_new E p ctx with
  | Ok s => Forall (fun b => ~ empty_or_inverted b) (pb_bounds (e_problem E)) /\
            ss_lower s = map fst (pb_bounds (e_problem E)) /\
            ss_upper s = map snd (pb_bounds (e_problem E))
  | Err e => exists i lo hi, first_such empty_or_inverted (pb_bounds (e_problem E)) i (lo, hi) /\
             e = InvalidBounds i lo hi
  | Panic => False
  end.
Proof.
  intros E p ctx. unfold ss_new. pose proof (bad_bound_spec (pb_bounds (e_problem E)) 0) as K.
  destruct (bad_bound 0 _); simpl; auto.
Qed.
Lemma nan_not_rejected : forall lo hi, is_nan lo = true \/ is_nan hi = true ->
  ~ empty_or_inverted (lo, hi).
Proof.
  intros lo hi [H|H] K; unfold empty_or_inverted in K; simpl in K.
  - apply fle_nan_r in K; congruence.
  - apply fle_nan_l in K; congruence.
Qed.

Lemma best_solution_nan : forall s y z, best_solution s = Some y -> In z s ->
  is_nan (ls_obj y) = true -> is_nan (ls_obj z) = false -> ls_obj y = NaN true.
Proof.
  intros s y z H I Hy Hz. pose proof (best_solution_spec s) as K. rewrite H in K.
  destruct K as (n & _ & K). apply In_nth_error in I as [j I].
  destruct (K j z I) as [K1 _]. eapply total_le_neg_nan; eauto.
Qed.
Lemma population_three_rejected : forall p, p_population p = 3 ->
  oq_new p = Err (InvalidPopulationSize 3).
Proof. intros p H. unfold oq_new. rewrite H. reflexivity. Qed.
Lemma population_three_unusable : ~ (forall p, p_population p = 3 -> p_iterations p <= 3 ->
  fle (p_threshold_factor p) f0 = false -> flt (p_distance_factor p) f0 = false ->
  exists o, oq_new p = Ok o).
Proof.
  intro H. destruct (H (mk_params 3 3 15 (lit 2 10) (lit 75 100) COBYLA (cb_build cb_default) 0)) as [o Ho];
    try reflexivity. discriminate.
Qed.
Lemma population_four_ok : forall p, 4 <= p_population p ->
  p_iterations p <= p_population p -> fle (p_threshold_factor p) f0 = false ->
  flt (p_distance_factor p) f0 = false -> exists o, oq_new p = Ok o.
Proof. intros p H1 H2 H3 H4. apply oq_new_spec. repeat split; auto. Qed.
