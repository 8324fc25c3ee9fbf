(** * The leading objective over histories and runs (C25) *)
From Coq Require Import ZArith NArith List Bool Arith Lia String.
From Verif Require Import F64 F64Order F64Alg F64Real Base Builders Types Filters Runner Observer Env ScatterSearch
  Codec Checkpoint Oqnlp Spec BasicP SolverP Wp Actions RunP SetP.
Import ListNotations.

Lemma leads_fun : forall set v w, leads set v -> leads set w -> v = w.
Proof. intros set v w (x & r & -> & ->) (y & r' & H & ->). congruence. Qed.
Lemma not_worse_trans : forall a b c, not_worse a b -> not_worse b c -> not_worse a c.
Proof.
  intros a b c (v & w & H1 & H2 & H3) (v' & w' & H4 & H5 & H6).
  rewrite (leads_fun b _ _ H4 H2) in *. exists v, w'. split; [auto|split;[auto|]]. eapply fle_trans; eauto.
Qed.
Lemma not_worse_refl : forall a, numeric_set a -> not_worse a a.
Proof.
  intros [|x r] [H1 H2]; [congruence|]. exists (ls_obj x), (ls_obj x).
  assert (leads (x :: r) (ls_obj x)) by (exists x, r; auto). split; [auto|split;[auto|]].
  apply fle_refl. apply H2. left; auto.
Qed.

Lemma fmax_ge_l : forall a b, is_nan a = false -> fle a (fmax a b) = true.
Proof.
  intros a b Ha. unfold fmax. rewrite Ha. destruct (is_nan b) eqn:Hb; [apply fle_refl; auto|].
  destruct (flt a b) eqn:Hl; [apply flt_fle; auto | apply fle_refl; auto].
Qed.
Lemma tolerance_ok : forall o a b, tolerances_ok o -> wf a = true -> wf b = true ->
  wf (tol_of (o_abs_tol o) (o_rel_tol o) a b) = true /\ fle f0 (tol_of (o_abs_tol o) (o_rel_tol o) a b) = true.
Proof.
  intros o a b (H1 & H2 & H3) Ha Hb. unfold tol_of. split.
  - apply fmax_wf; auto. apply fmul_wf; auto. apply fmax_wf; apply fabs_wf; auto.
  - eapply fle_trans; [exact H3|]. apply fmax_ge_l. eapply fle_nan_r; eauto.
Qed.
(** a solution never beats itself by a tolerance *)
Lemma not_better_self : forall o v, tolerances_ok o -> number v ->
  flt v (fsub v (tol_of (o_abs_tol o) (o_rel_tol o) v v)) = false.
Proof.
  intros o v Ht [Hw Hn]. destruct (tolerance_ok o v v Ht Hw Hw) as [T1 T2].
  destruct (is_nan (fsub v (tol_of (o_abs_tol o) (o_rel_tol o) v v))) eqn:Hs.
  - destruct (flt v _) eqn:Hf; auto. apply flt_nan_r in Hf. congruence.
  - apply fle_not_flt. apply fsub_le; auto.
Qed.
Lemma better_lt : forall o v w, tolerances_ok o -> number v -> number w ->
  flt v (fsub w (tol_of (o_abs_tol o) (o_rel_tol o) v w)) = true -> flt v w = true.
Proof.
  intros o v w Ht [Hv Hvn] [Hw Hwn] H. destruct (tolerance_ok o v w Ht Hv Hw) as [T1 T2].
  eapply flt_le_trans; [exact H|]. apply fsub_le; auto. eapply flt_nan_r; eauto.
Qed.

(** what a processed solution does to the leader *)
Lemma numeric_app : forall a x, numeric_set a -> number (ls_obj x) -> numeric_set (a ++ [x]).
Proof.
  intros a x [H1 H2] Hx. split; [destruct a; simpl; congruence|].
  intros y Hy. apply in_app_or in Hy as [Hy|[<-|[]]]; auto.
Qed.
Lemma transition_leader : forall E o x set, tolerances_ok o -> number (ls_obj x) ->
  (forall s0, o_set o = Some s0 -> numeric_set s0) -> transition E o x set ->
  numeric_set set /\ (forall s0, o_set o = Some s0 -> not_worse set s0).
Proof.
  intros E o x set Ht Hx Hs Htr.
  assert (Hone : numeric_set [x]) by (split; [congruence|intros y [<-|[]]; auto]).
  destruct Htr as [Hn|cur rest Hset Hb|cur rest Hset _ _ _].
  - split; auto. congruence.
  - split; auto. intros s0 H0. rewrite Hset in H0. injection H0 as <-.
    assert (Hc : number (ls_obj cur)) by (apply (Hs _ Hset); left; auto).
    exists (ls_obj x), (ls_obj cur). split; [exists x, []; auto|]. split; [exists cur, rest; auto|].
    apply flt_fle. eapply better_lt; eauto.
  - split; [apply numeric_app; auto|]. intros s0 H0. rewrite Hset in H0. injection H0 as <-.
    assert (Hc : number (ls_obj cur)) by (apply (Hs _ Hset); left; auto).
    exists (ls_obj cur), (ls_obj cur). split; [exists cur, (rest ++ [x]); auto|]. split; [exists cur, rest; auto|].
    apply fle_refl. apply Hc.
Qed.

(** ** Inside the bounds, both ways *)
Lemma inside_within : forall b p, (List.length p <= List.length b /\
  forall i v lh, nth_error p i = Some v -> nth_error b i = Some lh -> not_outside lh v) ->
  within_bounds b p = Some true.
Proof.
  induction b as [|[lo hi] b IH]; intros [|x p] [Hl Hn]; simpl in *; auto; try lia.
  destruct (Hn 0 x (lo, hi) eq_refl eq_refl) as [H1 H2]. unfold fgt. simpl in H1, H2. rewrite H1, H2. simpl.
  apply IH. split; [lia|]. intros i v lh Hv Hb. apply (Hn (S i) v lh); auto.
Qed.
Lemma admissible_iff : forall E o x, admissible E o x <-> not_excluded E o x.
Proof.
  intros E o x. unfold admissible, not_excluded, solution_inside. split; (intros [H|H]; [left; auto|right]).
  - apply within_bounds_inside; auto.
  - apply inside_within; auto.
Qed.

Lemma fmul_zero : forall z y, is_nan (fmul (Zero z) y) = true \/ exists b, fmul (Zero z) y = Zero b.
Proof. intros z [s|s|s|s m e]; simpl; cbn; eauto. Qed.
Lemma zero_tol_zero : forall o a b, zero_tol o -> exists z, tol_of (o_abs_tol o) (o_rel_tol o) a b = Zero z.
Proof.
  intros o a b [[z1 ->] [z2 ->]]. unfold tol_of.
  destruct (fmul_zero z2 (fmax (fabs a) (fabs b))) as [H|[bb ->]].
  - unfold fmax at 1. change (is_nan (Zero z1)) with false. cbv iota. rewrite H. eauto.
  - unfold fmax. simpl. destruct (flt (Zero z1) (Zero bb)); eauto.
Qed.
Lemma fsub_zero : forall x z, is_nan x = false -> nkey (fsub x (Zero z)) = nkey x /\ is_nan (fsub x (Zero z)) = false.
Proof. intros [s|s|s|s m e] z H; try discriminate; destruct s, z; simpl; auto. Qed.
Lemma zero_not_better : forall o v w, zero_tol o -> number v -> number w ->
  flt v (fsub w (tol_of (o_abs_tol o) (o_rel_tol o) v w)) = false -> fle w v = true.
Proof.
  intros o v w Hz [_ Hv] [_ Hw] H. destruct (zero_tol_zero o v w Hz) as [z Ez]. rewrite Ez in H.
  destruct (fsub_zero w z Hw) as [K N].
  assert (H' : flt v w = false).
  { destruct (flt v w) eqn:Hf; auto. apply flt_iff in Hf as (_ & _ & Hl).
    assert (flt v (fsub w (Zero z)) = true) by (apply flt_iff; rewrite K; auto). congruence. }
  apply not_flt_fle; auto.
Qed.

(** ** One processed solution *)
Lemma pls_leader : forall E x s b s1, process_local_solution E x s = (b, s1) ->
  tolerances_ok (s_o s) -> number (ls_obj x) -> (forall s0, o_set (s_o s) = Some s0 -> numeric_set s0) ->
  (forall s0, o_set (s_o s1) = Some s0 -> numeric_set s0) /\
  (forall s0, o_set (s_o s) = Some s0 -> exists set, o_set (s_o s1) = Some set /\ not_worse set s0) /\
  (not_excluded E (s_o s) x -> exists set v, o_set (s_o s1) = Some set /\ leads set v /\
     flt (ls_obj x) (fsub v (tol_of (o_abs_tol (s_o s)) (o_rel_tol (s_o s)) (ls_obj x) v)) = false).
Proof.
  intros E x s b s1 Hp Ht Hx Hs. rewrite <- admissible_iff.
  pose proof (pls_cases E x s) as Hc. rewrite Hp in Hc. simpl in Hc.
  destruct Hc as [(-> & _ & Hpan)|[(Hex & Hwb & -> & _)|[_ [(Hn & -> & _)|
    (cur & rest & Hset & [(Hb & _ & ob & ->)|[(Hnb & Hd & Hu & _ & ob & ->)|(Hnb & _ & _ & ->)]])]]]];
  cbn [changed noted s_o s_w o_set set_o_set set_o_df set_o_merit set_o_observer].
  - split; [auto|]. split; [intros s0 H0; exists s0; split; auto; apply not_worse_refl; auto|].
    intros [Ha|Ha].
    + destruct Hpan as [[? ?]|Hemp]; [congruence|]. destruct (Hs _ Hemp). congruence.
    + destruct Hpan as [[? ?]|Hemp]; [congruence|]. destruct (Hs _ Hemp). congruence.
  - split; [auto|]. split; [intros s0 H0; exists s0; split; auto; apply not_worse_refl; auto|].
    intros [Ha|Ha]; congruence.
  - destruct (transition_leader E (s_o s) x [x] Ht Hx Hs (TrFirst _ _ _ Hn)) as [T1 T2].
    split; [intros s0 H0; injection H0 as <-; auto|]. split; [intros s0 H0; congruence|].
    intros _. exists [x], (ls_obj x). split; [auto|]. split; [exists x, []; auto|]. apply not_better_self; auto.
  - destruct (transition_leader E (s_o s) x [x] Ht Hx Hs (TrBetter _ _ _ _ _ Hset Hb)) as [T1 T2].
    split; [intros s0 H0; injection H0 as <-; auto|]. split; [intros s0 H0; exists [x]; split; auto|].
    intros _. exists [x], (ls_obj x). split; [auto|]. split; [exists x, []; auto|]. apply not_better_self; auto.
  - destruct (transition_leader E (s_o s) x _ Ht Hx Hs (TrSimilar _ _ _ _ _ Hset Hnb Hd Hu)) as [T1 T2].
    split; [intros s0 H0; injection H0 as <-; auto|]. split; [intros s0 H0; eexists; split; [reflexivity|auto]|].
    intros _. eexists _, (ls_obj cur). split; [reflexivity|]. split; [exists cur, (rest ++ [x]); auto|]. auto.
  - split; [auto|]. split; [intros s0 H0; exists s0; split; auto; apply not_worse_refl; auto|].
    intros _. exists (cur :: rest), (ls_obj cur). split; [auto|]. split; [exists cur, rest; auto|]. auto.
Qed.

(** ** Histories *)
Lemma tol_config : forall o o', same_config o o' -> tolerances_ok o -> tolerances_ok o'.
Proof.
  unfold same_config, tolerances_ok; intros o o' H.
  destruct H as (_ & _ & _ & _ & _ & _ & _ & _ & _ & _ & -> & -> & _). auto.
Qed.
Lemma zero_config : forall o o', same_config o o' -> zero_tol o -> zero_tol o'.
Proof.
  unfold same_config, zero_tol; intros o o' H.
  destruct H as (_ & _ & _ & _ & _ & _ & _ & _ & _ & _ & -> & -> & _). auto.
Qed.
Lemma excl_config : forall E o o' x, same_config o o' -> not_excluded E o x -> not_excluded E o' x.
Proof.
  unfold same_config, not_excluded; intros E o o' x H. destruct H as (_ & _ & _ & _ & _ & _ & _ & -> & _). auto.
Qed.
Lemma zero_tol_ok : forall o, zero_tol o -> tolerances_ok o.
Proof. unfold tolerances_ok. intros o [[z ->] [z' ->]]. destruct z, z'; repeat split. Qed.
Lemma zero_leader : forall o x set v, zero_tol o -> number (ls_obj x) -> numeric_set set -> leads set v ->
  flt (ls_obj x) (fsub v (tol_of (o_abs_tol o) (o_rel_tol o) (ls_obj x) v)) = false ->
  fle v (ls_obj x) = true.
Proof.
  intros o x set v Hz Hx [_ Hn] (y & r & -> & ->) H. eapply zero_not_better; eauto. apply Hn. left; auto.
Qed.

Lemma c25_history : forall E sols s s', history E sols s s' -> tolerances_ok (s_o s) ->
  Forall (fun x => number (ls_obj x)) sols ->
  (forall s0, o_set (s_o s) = Some s0 -> numeric_set s0) ->
  (forall s0, o_set (s_o s') = Some s0 -> numeric_set s0) /\
  (forall s0, o_set (s_o s) = Some s0 -> exists set, o_set (s_o s') = Some set /\ not_worse set s0) /\
  (zero_tol (s_o s) -> forall x, In x sols -> not_excluded E (s_o s) x ->
     exists set v, o_set (s_o s') = Some set /\ leads set v /\ fle v (ls_obj x) = true).
Proof.
  intros E sols s s' H; induction H as [s|x sols b s s1 s' Hp Hh IH]; intros Ht Hx Hs.
  - split; [auto|]. split; [|intros _ ? []]. intros s0 H0; exists s0; split; auto; apply not_worse_refl; auto.
  - pose proof (Forall_inv Hx) as Hx1; apply Forall_inv_tail in Hx; simpl in Hx1.
    assert (Hc : same_config (s_o s) (s_o s1)).
    { eapply (history_config E [x]); econstructor; [eauto|constructor]. }
    destruct (pls_leader E x s _ s1 Hp Ht Hx1 Hs) as [L1 [L2 L3]].
    destruct (IH (tol_config _ _ Hc Ht) Hx L1) as [I1 [I2 I3]].
    split; [auto|]. split.
    + intros s0 H0. destruct (L2 s0 H0) as (set1 & S1 & N1). destruct (I2 set1 S1) as (set2 & S2 & N2).
      exists set2. split; auto. eapply not_worse_trans; eauto.
    + intros Hz y [<-|Hy] Hex; [|apply I3; eauto using zero_config, excl_config].
      destruct (L3 Hex) as (set1 & v1 & S1 & Hl1 & F1). destruct (I2 set1 S1) as (set2 & S2 & (v2 & w2 & N1 & N2 & N3)).
      rewrite (leads_fun _ _ _ N2 Hl1) in *. exists set2, v2. split; [auto|split;[auto|]].
      eapply fle_trans; [exact N3|]. eapply zero_leader; eauto.
Qed.

(** ** Runs *)
Definition later_not_worse (new : list event) : Prop :=
  forall l1 l2 l3 b a, new = l1 ++ EvSolutionSet b :: l2 ++ EvSolutionSet a :: l3 -> not_worse b a.
Record leader_ok (E : env) (s s' : st) (new : list event) : Prop := {
  lo_numeric : forall s0, o_set (s_o s') = Some s0 -> numeric_set s0;
  lo_mono : forall s0, o_set (s_o s) = Some s0 -> exists set, o_set (s_o s') = Some set /\ not_worse set s0;
  lo_last : forall a, In (EvSolutionSet a) new ->
    numeric_set a /\ (exists set, o_set (s_o s') = Some set /\ not_worse set a) /\
    (forall s0, o_set (s_o s) = Some s0 -> not_worse a s0);
  lo_pairs : later_not_worse new;
  lo_zero : zero_tol (s_o s) -> forall x, In (EvResult x) new -> not_excluded E (s_o s) x ->
     exists set v, o_set (s_o s') = Some set /\ leads set v /\ fle v (ls_obj x) = true }.

Lemma app_split2 : forall (A : Type) (x y l1 l2 : list A) e, x ++ y = l1 ++ e :: l2 ->
  (exists r, x = l1 ++ e :: r /\ l2 = r ++ y) \/ (exists r, y = r ++ e :: l2 /\ l1 = x ++ r).
Proof.
  induction x as [|a x IH]; intros y l1 l2 e H; simpl in H.
  - right. exists l1. auto.
  - destruct l1 as [|c l1]; simpl in H; injection H as -> H.
    + left. exists x. auto.
    + apply IH in H as [(r & -> & ->)|(r & -> & ->)]; [left|right]; exists r; auto.
Qed.
Lemma leader_trans : forall E a b c n1 n2, same_config (s_o a) (s_o b) ->
  leader_ok E a b n1 -> leader_ok E b c n2 -> leader_ok E a c (n2 ++ n1).
Proof.
  intros E a b c n1 n2 Hc [A1 A2 A3 A4 A5] [B1 B2 B3 B4 B5]. constructor.
  - auto.
  - intros s0 H0. destruct (A2 s0 H0) as (s1 & S1 & N1). destruct (B2 s1 S1) as (s2 & S2 & N2).
    exists s2. split; auto. eapply not_worse_trans; eauto.
  - intros x Hin. apply in_app_or in Hin as [Hin|Hin].
    + destruct (B3 x Hin) as (N & Hl & Hf). split; [auto|]. split; [auto|].
      intros s0 H0. destruct (A2 s0 H0) as (s1 & S1 & N1). eapply not_worse_trans; eauto.
    + destruct (A3 x Hin) as (N & (s1 & S1 & N1) & Hf). split; [auto|]. split; [|auto].
      destruct (B2 s1 S1) as (s2 & S2 & N2). exists s2. split; auto. eapply not_worse_trans; eauto.
  - intros l1 l2 l3 y x Heq. apply app_split2 in Heq as [(r & Hn2 & Hr)|(r & Hn1 & _)].
    + symmetry in Hr. apply app_split2 in Hr as [(r2 & -> & _)|(r2 & -> & _)].
      * eapply (B4 l1 l2 r2); eauto.
      * destruct (B3 y) as (_ & _ & Hf); [rewrite Hn2; apply in_or_app; right; left; auto|].
        destruct (A3 x) as (_ & (s1 & S1 & N1) & _); [apply in_or_app; right; left; auto|].
        eapply not_worse_trans; eauto.
    + eapply (A4 r l2 l3); eauto.
  - intros Hz x Hin Hex. apply in_app_or in Hin as [Hin|Hin].
    + apply B5; eauto using zero_config, excl_config.
    + destruct (A5 Hz x Hin Hex) as (s1 & v1 & S1 & L1 & F1).
      destruct (B2 s1 S1) as (s2 & S2 & (v2 & w2 & N1 & N2 & N3)).
      rewrite (leads_fun _ _ _ N2 L1) in *. exists s2, v2. split; [auto|split;[auto|]]. eapply fle_trans; eauto.
Qed.
Lemma leader_same : forall E s s' new, o_set (s_o s') = o_set (s_o s) ->
  (forall s0, o_set (s_o s) = Some s0 -> numeric_set s0) ->
  no_set_event new -> (forall x, ~ In (EvResult x) new) -> leader_ok E s s' new.
Proof.
  intros E s s' new Ho Hs Hn Hr. constructor.
  - intros s0 H0. apply Hs. congruence.
  - intros s0 H0. exists s0. split; [congruence|]. apply not_worse_refl; auto.
  - intros a Hin. exfalso. eapply Hn; eauto.
  - intros l1 l2 l3 b a Heq. exfalso. apply (Hn b). rewrite Heq. apply in_or_app; right; left; auto.
  - intros _ x Hin. exfalso. eapply Hr; eauto.
Qed.
Lemma act_leader : forall E K objs s s', act E K objs s s' -> tolerances_ok (s_o s) ->
  (forall s0, o_set (s_o s) = Some s0 -> numeric_set s0) ->
  exists new, trace s' = new ++ trace s /\
    ((forall x, In (EvResult x) new -> number (ls_obj x)) -> leader_ok E s s' new).
Proof.
  intros E K objs s s' H Ht Hs; destruct H;
    try (exists []; split; [reflexivity|]; intros _; apply leader_same; [reflexivity|auto|intros ? []|intros ? []]; fail);
    try (eexists [_]; split; [reflexivity|]; intros _; apply leader_same; [reflexivity|auto|..];
         intros ? [Hx|[]]; try discriminate; subst; simpl in *; discriminate).
  destruct (pls_set E sol s) as (new & Htr & Hin & Hone & Hcase); cbv zeta in *.
  exists new. split; auto. intro Hnum.
  destruct Hin as [Hsame|Hin].
  { rewrite Hsame in *. assert (new = []) by (eapply app_inv_tail; rewrite <- Htr; reflexivity). subst new.
    apply leader_same; [reflexivity|auto|intros ? []|intros ? []]. }
  specialize (Hnum sol Hin).
  destruct (process_local_solution E sol s) as [b s1] eqn:Hp. simpl in *.
  destruct (pls_leader E sol s b s1 Hp Ht Hnum Hs) as [L1 [L2 L3]].
  constructor; auto.
  - intros a Ha. destruct Hcase as [[_ Hno]|(set & S1 & _ & S3 & _ & Htrn)]; [exfalso; eapply Hno; eauto|].
    rewrite (S3 a Ha). destruct (transition_leader E (s_o s) sol set Ht Hnum Hs Htrn) as [T1 T2].
    split; [auto|]. split; [|auto]. exists set. split; auto. apply not_worse_refl; auto.
  - intros l1 l2 l3 b' a Heq. 
    assert (Hb : In (EvSolutionSet b') new) by (rewrite Heq; apply in_or_app; right; left; auto).
    assert (Ha : In (EvSolutionSet a) new).
    { rewrite Heq. apply in_or_app; right; right. apply in_or_app; right; left; auto. }
    destruct Hcase as [[_ Hno]|(set & S1 & _ & S3 & _ & Htrn)]; [exfalso; eapply Hno; eauto|].
    rewrite (S3 a Ha), (S3 b' Hb). apply not_worse_refl; auto.
  - intros Hz x Hx Hex. rewrite (Hone x Hx) in *. destruct (L3 Hex) as (set & v & S1 & Hl & F).
    exists set, v. split; [auto|split;[auto|]]. eapply zero_leader; eauto.
Qed.
Lemma acts_leader : forall E K objs s s', acts E K objs s s' -> tolerances_ok (s_o s) ->
  (forall s0, o_set (s_o s) = Some s0 -> numeric_set s0) ->
  exists new, trace s' = new ++ trace s /\
    ((forall x, In (EvResult x) new -> number (ls_obj x)) -> leader_ok E s s' new).
Proof.
  intros E K objs s s' H; induction H as [s|s s1 s' H H0 IH]; intros Ht Hs.
  - exists []. split; [reflexivity|]. intros _. apply leader_same; auto; intros ? [].
  - destruct (act_leader _ _ _ _ _ H Ht Hs) as (n1 & T1 & L1).
    pose proof (act_config _ _ _ _ _ H) as Hc.
    destruct (acts_trace _ _ _ _ _ H0) as [n2 T2].
    exists (n2 ++ n1). split; [rewrite T2, T1, app_assoc; reflexivity|]. intro Hnum.
    assert (Lo : leader_ok E s s1 n1) by (apply L1; intros; apply Hnum, in_or_app; auto).
    destruct (IH (tol_config _ _ Hc Ht) (lo_numeric _ _ _ _ Lo)) as (n2' & T2' & L2).
    rewrite T2 in T2'. apply app_inv_tail in T2'. subst n2'.
    eapply leader_trans; eauto. apply L2. intros; apply Hnum, in_or_app; auto.
Qed.

(** from any start *)
Lemma c25_from : forall E s r s' new, run E s = (r, s') -> w_trace (s_w s') = new ++ w_trace (s_w s) ->
  (forall s1 res, run_start E s res s1 -> tolerances_ok (s_o s1) /\ (forall s0, o_set (s_o s1) = Some s0 -> numeric_set s0)) ->
  (forall x, In (EvResult x) new -> number (ls_obj x)) ->
  (forall l1 l2 l3 b a, new = l1 ++ EvSolutionSet b :: l2 ++ EvSolutionSet a :: l3 -> not_worse b a) /\
  (forall set, r = Ok set -> forall a, In (EvSolutionSet a) new -> not_worse set a) /\
  (forall set, r = Ok set -> zero_tol (s_o s') -> forall x, In (EvResult x) new -> not_excluded E (s_o s') x ->
     exists v, leads set v /\ fle v (ls_obj x) = true).
Proof.
  intros E s r s' new Hrun Hnew Hstart Hnum. change (trace s' = new ++ trace s) in Hnew.
  destruct (run_acts E s r s' Hrun) as [Hsh Hok].
  assert (Hmain : forall s1 res, run_start E s res s1 -> tolerances_ok (s_o s1) ->
     (forall s0, o_set (s_o s1) = Some s0 -> numeric_set s0) -> 
     (exists K objs, acts E K objs s1 s') \/ (exists K objs s2 K2 objs2, acts E K objs s1 s2 /\ acts E K2 objs2 s2 s') ->
     leader_ok E s1 s' new /\ same_config (s_o s1) (s_o s')).
  { intros s1 res Hst Ht1 Hs1 Ha.
    assert (Htr : trace s1 = trace s) by (inversion Hst; subst; reflexivity).
    destruct Ha as [(K & objs & Ha)|(K & objs & s2 & K2 & objs2 & Ha & Ha2)].
    - destruct (acts_leader _ _ _ _ _ Ha Ht1 Hs1) as (n & T & L).
      assert (n = new) by (apply (app_inv_tail (trace s)); congruence). subst n.
      split; [auto|]. eapply acts_config; eauto.
    - destruct (acts_leader _ _ _ _ _ Ha Ht1 Hs1) as (n & T & L).
      destruct (acts_trace _ _ _ _ _ Ha2) as [n2 T2].
      assert (Hn : n2 ++ n = new) by (apply (app_inv_tail (trace s)); rewrite <- app_assoc; congruence).
      assert (L' : leader_ok E s1 s2 n) by (apply L; intros; apply Hnum; rewrite <- Hn; apply in_or_app; auto).
      pose proof (acts_config _ _ _ _ _ Ha) as Hc.
      destruct (acts_leader _ _ _ _ _ Ha2 (tol_config _ _ Hc Ht1) (lo_numeric _ _ _ _ L')) as (n2' & T2' & L2).
      rewrite T2 in T2'. apply app_inv_tail in T2'. subst n2'.
      split; [|eapply same_config_trans; eauto using acts_config]. rewrite <- Hn. eapply leader_trans; eauto.
      apply L2; intros; apply Hnum; rewrite <- Hn; apply in_or_app; auto. }
  assert (Hfin : (exists s1, leader_ok E s1 s' new /\ same_config (s_o s1) (s_o s')) \/ (new = [] /\ forall x, r <> Ok x)).
  { destruct Hsh as [d Hd -> Hr | s1 Hs1 Ha | s1 s2 refs objs Hs1 _ Ha1 Ha2 | s1 refs Hs1 _ Ha].
    - right. split; [destruct new as [|e n]; auto; exfalso; apply (f_equal (@List.length _)) in Hnew;
        cbn in Hnew; rewrite app_length in Hnew; unfold trace in Hnew; lia|].
      rewrite Hrun in Hr. exact Hr.
    - left. exists s1. destruct (Hstart _ _ Hs1). eapply Hmain; eauto.
    - left. exists s1. destruct (Hstart _ _ Hs1). eapply Hmain; eauto 10.
    - left. exists s1. destruct (Hstart _ _ Hs1). eapply Hmain; eauto. }
  destruct Hfin as [(s1 & [A1 A2 A3 A4 A5] & Hc)|[-> Hr]].
  - split; [exact A4|]. split.
    + intros set Hset a Ha. destruct (A3 a Ha) as (_ & (x & X1 & X2) & _).
      rewrite (Hok set Hset) in X1. congruence.
    + intros set Hset Hz x Hx Hex.
      assert (Hc' : same_config (s_o s') (s_o s1)) by (unfold same_config in *; intuition congruence).
      destruct (A5 (zero_config _ _ Hc' Hz) x Hx (excl_config _ _ _ _ Hc' Hex)) as (y & v & Y1 & Y2 & Y3).
      rewrite (Hok set Hset) in Y1. injection Y1 as <-. exists v. auto.
  - split; [intros [|] ? ? ? ? Heq; discriminate|]. split; intros set Hset; exfalso; eapply Hr; eauto.
Qed.
Lemma c25_run : forall E s r s' new, run E s = (r, s') -> w_trace (s_w s') = new ++ w_trace (s_w s) ->
  tolerances_ok (s_o s) -> (forall s0, o_set (s_o s) = Some s0 -> numeric_set s0) ->
  checkpoints_hold (fun cp => wf (cp_abs_tol cp) = true /\ wf (cp_rel_tol cp) = true /\
    fle f0 (cp_abs_tol cp) = true /\ forall s0, cp_solution_set cp = Some s0 -> numeric_set s0) s ->
  (forall x, In (EvResult x) new -> number (ls_obj x)) ->
  (forall l1 l2 l3 b a, new = l1 ++ EvSolutionSet b :: l2 ++ EvSolutionSet a :: l3 -> not_worse b a) /\
  (forall set, r = Ok set -> forall a, In (EvSolutionSet a) new -> not_worse set a) /\
  (forall set, r = Ok set -> zero_tol (s_o s') -> forall x, In (EvResult x) new -> not_excluded E (s_o s') x ->
     exists v, leads set v /\ fle v (ls_obj x) = true).
Proof.
  intros E s r s' new Hrun Hnew Ht Hs Hcp Hnum. apply (c25_from E s r s' new Hrun Hnew); [|exact Hnum].
  intros s1 [|] Hst.
  - apply run_start_file in Hst as (f & content & cp & Hin & Hdec & ->).
    destruct (Hcp f content cp Hin Hdec) as (C1 & C2 & C3 & C4). split; auto. repeat split; auto.
  - rewrite (run_start_fresh _ _ _ Hst). auto.
Qed.
