(** * Minimum distances, greedy choice and reductions along trees *)
From Coq Require Import ZArith NArith List Bool Arith Lia Permutation.
From Verif Require Import F64 F64Order F64Alg Base Builders Types Runner Observer Env ScatterSearch Spec SpecStage1.
Import ListNotations.

(** ** Reductions along a tree *)
Lemma fold_op : forall A (op : A -> A -> A), (forall x y z, op (op x y) z = op x (op y z)) ->
  forall l a b, fold_left op l (op a b) = op a (fold_left op l b).
Proof. intros A op Ha. induction l as [|z l IH]; intros; simpl; auto. rewrite Ha. apply IH. Qed.
Lemma reduce_app : forall A (op : A -> A -> A), (forall x y z, op (op x y) z = op x (op y z)) ->
  forall l r, reduce op (l ++ r) = opt_op op (reduce op l) (reduce op r).
Proof.
  intros A op Ha l r. destruct l as [|x l]; [destruct r; reflexivity|]. cbn [app reduce opt_op].
  destruct r as [|y r]; [rewrite app_nil_r; reflexivity|]. cbn [reduce]. f_equal.
  rewrite fold_left_app. cbn [fold_left]. apply fold_op; auto.
Qed.
Lemma tree_reduce_with_assoc : forall A (op : A -> A -> A), (forall x y z, op (op x y) z = op x (op y z)) ->
  forall t l, tree_reduce_with op t l = reduce op l.
Proof.
  intros A op Ha. unfold tree_reduce_with. induction t as [|k a IHa b IHb]; intro l; simpl; auto.
  rewrite IHa, IHb, <- reduce_app by auto. rewrite firstn_skipn. reflexivity.
Qed.

(** ** Choosing by value *)
Lemma pick_max_le : forall A (a b : A * f64), pick_max cmp_snd a b = if total_le (snd a) (snd b) then b else a.
Proof. intros. unfold pick_max, cmp_snd, total_le. destruct (total_cmp _ _); reflexivity. Qed.
Lemma pick_min_le : forall A (a b : A * f64), pick_min cmp_snd a b = if total_le (snd a) (snd b) then a else b.
Proof. intros. unfold pick_min, cmp_snd, total_le. destruct (total_cmp _ _); reflexivity. Qed.
Ltac by_order x y z :=
  destruct (total_le (snd x) (snd y)) eqn:?; destruct (total_le (snd y) (snd z)) eqn:?;
  destruct (total_le (snd x) (snd z)) eqn:?;
  repeat match goal with H : total_le _ _ = _ |- _ => rewrite H end; auto;
  exfalso; repeat match goal with H : total_le ?a ?b = false |- _ =>
    let G := fresh in assert (G : total_le b a = true)
      by (destruct (total_le_total a b); congruence); revert H end; intros;
  match goal with H : total_le ?a ?b = false, H1 : total_le ?a ?c = true, H2 : total_le ?c ?b = true |- _ =>
    rewrite (total_le_trans a c b H1 H2) in H; discriminate end.
Lemma pick_max_assoc : forall A (x y z : A * f64),
  pick_max cmp_snd (pick_max cmp_snd x y) z = pick_max cmp_snd x (pick_max cmp_snd y z).
Proof. intros. rewrite !pick_max_le. by_order x y z. Qed.
Lemma pick_min_assoc : forall A (x y z : A * f64),
  pick_min cmp_snd (pick_min cmp_snd x y) z = pick_min cmp_snd x (pick_min cmp_snd y z).
Proof. intros. rewrite !pick_min_le. by_order x y z. Qed.

Lemma fold_max : forall A (l : list (A * f64)) a, let r := fold_left (pick_max cmp_snd) l a in
  In r (a :: l) /\ forall x, In x (a :: l) -> total_le (snd x) (snd r) = true.
Proof.
  induction l as [|b l IH]; intros a r.
  - simpl in r. subst r. split; [left; auto|]. intros x [<-|[]]. apply total_le_refl.
  - subst r. cbn [fold_left]. specialize (IH (pick_max cmp_snd a b)). cbv zeta in IH. destruct IH as [H1 H2].
    assert (Hp : pick_max cmp_snd a b = a \/ pick_max cmp_snd a b = b)
      by (rewrite pick_max_le; destruct (total_le _ _); auto).
    split.
    + destruct H1 as [H1|H1]; [|right; right; auto]. rewrite <- H1. destruct Hp as [-> | ->]; [left|right; left]; auto.
    + assert (Hle : total_le (snd (pick_max cmp_snd a b)) (snd (fold_left (pick_max cmp_snd) l (pick_max cmp_snd a b))) = true)
        by (apply H2; left; auto).
      assert (Ha : total_le (snd a) (snd (pick_max cmp_snd a b)) = true /\ total_le (snd b) (snd (pick_max cmp_snd a b)) = true).
      { rewrite pick_max_le. destruct (total_le (snd a) (snd b)) eqn:Hc; split; auto using total_le_refl.
        destruct (total_le_total (snd a) (snd b)); congruence. }
      intros x [<- | [<- | Hx]]; [eapply total_le_trans; [apply Ha|exact Hle]..|]. apply H2. right; auto.
Qed.
Lemma fold_min : forall A (l : list (A * f64)) a, let r := fold_left (pick_min cmp_snd) l a in
  In r (a :: l) /\ forall x, In x (a :: l) -> total_le (snd r) (snd x) = true.
Proof.
  induction l as [|b l IH]; intros a r.
  - simpl in r. subst r. split; [left; auto|]. intros x [<-|[]]. apply total_le_refl.
  - subst r. cbn [fold_left]. specialize (IH (pick_min cmp_snd a b)). cbv zeta in IH. destruct IH as [H1 H2].
    assert (Hp : pick_min cmp_snd a b = a \/ pick_min cmp_snd a b = b)
      by (rewrite pick_min_le; destruct (total_le _ _); auto).
    split.
    + destruct H1 as [H1|H1]; [|right; right; auto]. rewrite <- H1. destruct Hp as [-> | ->]; [left|right; left]; auto.
    + assert (Hle : total_le (snd (fold_left (pick_min cmp_snd) l (pick_min cmp_snd a b))) (snd (pick_min cmp_snd a b)) = true)
        by (apply H2; left; auto).
      assert (Ha : total_le (snd (pick_min cmp_snd a b)) (snd a) = true /\ total_le (snd (pick_min cmp_snd a b)) (snd b) = true).
      { rewrite pick_min_le. destruct (total_le (snd a) (snd b)) eqn:Hc; split; auto using total_le_refl.
        destruct (total_le_total (snd a) (snd b)); congruence. }
      intros x [<- | [<- | Hx]]; [eapply total_le_trans; [exact Hle|apply Ha]..|]. apply H2. right; auto.
Qed.

Lemma in_enumerate_from : forall A (l : list A) m i x, In (i, x) (enumerate_from m l) <->
  m <= i /\ nth_error l (i - m) = Some x.
Proof.
  induction l as [|y l IH]; intros m i x; simpl.
  - split; [contradiction|]. intros [_ H]. destruct (i - m); discriminate.
  - rewrite IH. split.
    + intros [H|[H1 H2]].
      * injection H as <- <-. replace (m - m) with 0 by lia. auto.
      * split; [lia|]. replace (i - m) with (S (i - S m)) by lia. auto.
    + intros [H1 H2]. destruct (Nat.eq_dec m i) as [->|Hn].
      * left. replace (i - i) with 0 in H2 by lia. injection H2 as ->. auto.
      * right. split; [lia|]. replace (i - m) with (S (i - S m)) in H2 by lia. auto.
Qed.
Lemma in_enumerate : forall A (l : list A) i x, In (i, x) (enumerate l) <-> nth_error l i = Some x.
Proof.
  intros. unfold enumerate. rewrite in_enumerate_from. rewrite Nat.sub_0_r. split; [tauto|]. intro; split; [lia|auto].
Qed.

Lemma argmax_tree : forall par t ds, argmax par t ds = option_map fst (reduce (pick_max cmp_snd) (enumerate ds)).
Proof.
  intros [] t ds; unfold argmax, max_by; [|reflexivity].
  rewrite tree_reduce_with_assoc; [reflexivity|]. apply pick_max_assoc.
Qed.
Lemma argmax_spec : forall par t ds,
  match argmax par t ds with
  | None => ds = []
  | Some i => exists d, nth_error ds i = Some d /\ forall x, In x ds -> total_le x d = true
  end.
Proof.
  intros par t ds. rewrite argmax_tree. destruct ds as [|d ds]; [reflexivity|].
  cbn [enumerate enumerate_from reduce option_map].
  pose proof (fold_max _ (enumerate_from 1 ds) (0, d)) as H. cbv zeta in H. destruct H as [H1 H2].
  set (r := fold_left _ _ _) in *. destruct r as [i x]. cbn [fst snd] in *.
  change ((0, d) :: enumerate_from 1 ds) with (enumerate (d :: ds)) in *.
  apply in_enumerate in H1. exists x. split; auto.
  intros y Hy. apply In_nth_error in Hy as [j Hj]. apply (H2 (j, y)). apply in_enumerate; auto.
Qed.
Lemma best_tree : forall (par : bool) t (l : list (nat * f64)),
  (if par then tree_reduce_with (pick_min cmp_snd) t l else min_by cmp_snd l) = min_by cmp_snd l.
Proof. intros [] t l; [|reflexivity]. unfold min_by. apply tree_reduce_with_assoc. apply pick_min_assoc. Qed.
Lemma min_by_spec : forall (vs : list f64),
  match min_by cmp_snd (enumerate vs) with
  | None => vs = []
  | Some (i, v) => nth_error vs i = Some v /\ forall w, In w vs -> total_le v w = true
  end.
Proof.
  intros vs. destruct vs as [|d ds]; [reflexivity|].
  unfold min_by. cbn [enumerate enumerate_from reduce].
  pose proof (fold_min _ (enumerate_from 1 ds) (0, d)) as H. cbv zeta in H. destruct H as [H1 H2].
  set (r := fold_left _ _ _) in *. destruct r as [i x]. cbn [fst snd] in *.
  change ((0, d) :: enumerate_from 1 ds) with (enumerate (d :: ds)) in *.
  apply in_enumerate in H1. split; auto.
  intros y Hy. apply In_nth_error in Hy as [j Hj]. apply (H2 (j, y)). apply in_enumerate; auto.
Qed.

(** ** The least of a list of squared distances *)
Lemma nonneg_antisym : forall a b, nonneg a -> nonneg b -> fle a b = true -> fle b a = true -> a = b.
Proof.
  intros a b Ha Hb H1 H2.
  assert (E : feq a b = true).
  { unfold fle in *. destruct (fcmp a b) as [[]|] eqn:C; try discriminate.
    - unfold feq. rewrite C. reflexivity.
    - apply fle_not_flt in H2. unfold flt in H2. rewrite C in H2. discriminate. }
  apply feq_iff in E as (Na & Nb & E).
  destruct a as [s|s|s|s m e], b as [s'|s'|s'|s' m' e']; cbn [nonneg] in *; subst; try discriminate; auto.
  unfold nkey, sgz in E. injection E; intros; subst. reflexivity.
Qed.
Lemma least_nonneg : forall ds m, Forall nonneg ds -> least ds m -> nonneg m.
Proof.
  intros ds m H (_ & [-> | Hi] & _); [reflexivity|]. rewrite Forall_forall in H; auto.
Qed.
Lemma least_unique : forall ds m m', Forall nonneg ds -> least ds m -> least ds m' -> m = m'.
Proof.
  intros ds m m' Hn H H'. apply nonneg_antisym; try (eapply least_nonneg; eauto);
    destruct H as (N & I & L), H' as (N' & I' & L').
  - destruct I' as [-> | I']; [apply fle_pinf; auto|apply L; auto].
  - destruct I as [-> | I]; [apply fle_pinf; auto|apply L'; auto].
Qed.
Lemma dists_nonneg : forall p set, Forall nonneg (map (dist2 p) set).
Proof. intros. apply Forall_forall. intros x Hx. apply in_map_iff in Hx as (q & <- & _). apply dist2_nonneg_sign. Qed.
Lemma nearest_unique : forall set p m m', nearest set p m -> nearest set p m' -> m = m'.
Proof. intros set p m m'. apply least_unique, dists_nonneg. Qed.
Lemma least_nil : least [] pinf.
Proof. split; [reflexivity|]. split; [left; auto|]. intros d []. Qed.
Lemma fmin_cases : forall a b, is_nan a = false ->
  (fmin a b = a /\ (is_nan b = true \/ fle a b = true)) \/ (fmin a b = b /\ is_nan b = false /\ fle b a = true).
Proof.
  intros a b Ha. unfold fmin. rewrite Ha. destruct (is_nan b) eqn:Hb; [left; auto|].
  destruct (flt b a) eqn:H; [right; auto using flt_fle|left]. split; auto. right. apply not_flt_fle; auto.
Qed.
Lemma least_app : forall a b m m', least a m -> least b m' -> least (a ++ b) (fmin m m').
Proof.
  intros a b m m' (N & I & L) (N' & I' & L').
  destruct (fmin_cases m m' N) as [[-> [H|H]] | [-> [_ H]]]; [congruence| |].
  - split; [auto|]. split; [destruct I; auto; right; apply in_or_app; auto|].
    intros d Hd Hn. apply in_app_or in Hd as [Hd|Hd]; auto. eapply fle_trans; [exact H|]. auto.
  - split; [auto|]. split; [destruct I'; auto; right; apply in_or_app; auto|].
    intros d Hd Hn. apply in_app_or in Hd as [Hd|Hd]; auto. eapply fle_trans; [exact H|]. auto.
Qed.
Lemma least_snoc : forall a m d, least a m -> least (a ++ [d]) (fmin m d).
Proof.
  intros a m d (N & I & L).
  destruct (fmin_cases m d N) as [[-> [H|H]] | [-> [Hn H]]].
  - split; [auto|]. split; [destruct I; auto; right; apply in_or_app; auto|].
    intros x Hx Hnx. apply in_app_or in Hx as [Hx|[<-|[]]]; auto. congruence.
  - split; [auto|]. split; [destruct I; auto; right; apply in_or_app; auto|].
    intros x Hx Hnx. apply in_app_or in Hx as [Hx|[<-|[]]]; auto.
  - split; [auto|]. split; [right; apply in_or_app; right; left; auto|].
    intros x Hx Hnx. apply in_app_or in Hx as [Hx|[<-|[]]]; [|apply fle_refl; auto].
    eapply fle_trans; [exact H|]. auto.
Qed.
Lemma least_fold : forall l a m, least a m -> least (a ++ l) (fold_left fmin l m).
Proof.
  induction l as [|d l IH]; intros a m H; simpl; [rewrite app_nil_r; auto|].
  replace (a ++ d :: l) with ((a ++ [d]) ++ l) by (rewrite <- app_assoc; reflexivity).
  apply IH, least_snoc; auto.
Qed.
Lemma least_tree : forall t l, least l (tree_reduce (fun l => fold_left fmin l pinf) fmin t l).
Proof.
  induction t as [|k a IHa b IHb]; intro l; simpl.
  - apply (least_fold l [] pinf least_nil).
  - rewrite <- (firstn_skipn k l) at 1. apply least_app; auto.
Qed.
Lemma min_par_nearest : forall t p refs, nearest refs p (min_distance_par t p refs).
Proof. intros. apply least_tree. Qed.
Lemma min_par_any : forall t t' p refs, min_distance_par t p refs = min_distance_par t' p refs.
Proof. intros. eapply nearest_unique; apply min_par_nearest. Qed.

(** the sequential version *)
Definition clear (ds : list f64) : Prop := forall d, In d ds -> flt d lit_1e_14 = false.
Lemma clear_least : forall ds m, least ds m -> clear ds -> flt m lit_1e_14 = false.
Proof. intros ds m (_ & [-> | H] & _) Hc; [vm_compute; reflexivity|auto]. Qed.
Lemma seq_go_spec : forall p refs a m, least a m -> clear a ->
  let ds := a ++ map (dist2 p) refs in
  let x := min_distance_seq_go m p refs in
  (clear ds /\ least ds x) \/ (x = f0 /\ exists d, In d ds /\ flt d lit_1e_14 = true).
Proof.
  intros p. induction refs as [|q r IH]; intros a m Hl Hc; cbn [map min_distance_seq_go].
  - rewrite app_nil_r. left; auto.
  - cbv zeta in IH |- *. specialize (IH (a ++ [dist2 p q])).
    rewrite <- !app_assoc in IH. cbn [app] in IH.
    pose proof (least_snoc a m (dist2 p q) Hl) as Hs. unfold fmin in Hs.
    destruct Hl as (N & I & L). rewrite N in Hs.
    destruct (flt (dist2 p q) m) eqn:Hlt.
    + destruct (is_nan (dist2 p q)) eqn:Hnd; [apply flt_nan_l in Hlt; congruence|].
      destruct (flt (dist2 p q) lit_1e_14) eqn:Hs14.
      * right. split; auto. exists (dist2 p q). split; auto. apply in_or_app; right; left; auto.
      * apply IH; auto. intros d Hd. apply in_app_or in Hd as [Hd|[<-|[]]]; auto.
    + assert (Hs' : least (a ++ [dist2 p q]) m) by (destruct (is_nan (dist2 p q)); exact Hs).
      apply IH; auto. intros d Hd. apply in_app_or in Hd as [Hd|[<-|[]]]; auto.
      destruct (is_nan (dist2 p q)) eqn:Hnd.
      { destruct (flt (dist2 p q) lit_1e_14) eqn:G; auto. apply flt_nan_l in G. congruence. }
      assert (Hge : flt m lit_1e_14 = false) by (eapply clear_least; [split; eauto|auto]).
      destruct (flt (dist2 p q) lit_1e_14) eqn:G; auto.
      assert (Hle : fle m (dist2 p q) = true) by (apply not_flt_fle; auto).
      rewrite (fle_lt_trans _ _ _ Hle G) in Hge. discriminate.
Qed.
Lemma min_seq_spec : forall p refs,
  nearest refs p (min_distance_seq p refs) /\ clear (map (dist2 p) refs) \/
  min_distance_seq p refs = f0 /\ exists q, In q refs /\ flt (dist2 p q) lit_1e_14 = true.
Proof.
  intros p refs. pose proof (seq_go_spec p refs [] pinf least_nil) as H. cbv zeta in H. cbn [app] in H.
  destruct H as [[H1 H2] | (H1 & d & H2 & H3)]; [intros d []|left; split; auto|right].
  split; auto. apply in_map_iff in H2 as (q & <- & Hq). eauto.
Qed.
