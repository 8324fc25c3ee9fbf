(** * Order facts about f64 comparisons (no rounding involved, no axioms). *)
From Coq Require Import ZArith List Bool Lia Floats.SpecFloat.
From Verif Require Import F64.
Import ListNotations.
Local Open Scope Z_scope.

(** Key of the IEEE order on non-NaN values: both zeros coincide. *)
Definition nkey (x : f64) : Z * Z * Z :=
  match x with
  | Zero _ => (0, 0, 0)
  | Fin s m e => (sgz s 1, sgz s e, sgz s (Zpos m))
  | Inf s => (sgz s 2, 0, 0)
  | NaN _ => (0, 0, 0)
  end.

Definition lex_lt (a b : Z * Z * Z) : Prop :=
  let '(a1, a2, a3) := a in
  let '(b1, b2, b3) := b in
  a1 < b1 \/ (a1 = b1 /\ (a2 < b2 \/ (a2 = b2 /\ a3 < b3))).
Definition lex_le (a b : Z * Z * Z) : Prop := a = b \/ lex_lt a b.

Lemma lex_cmp_spec : forall a b,
  match lex_cmp a b with
  | Lt => lex_lt a b
  | Eq => a = b
  | Gt => lex_lt b a
  end.
Proof.
  intros [[a1 a2] a3] [[b1 b2] b3]; unfold lex_cmp, lex_lt.
  destruct (Z.compare_spec a1 b1); try lia.
  destruct (Z.compare_spec a2 b2); try lia.
  destruct (Z.compare_spec a3 b3); try lia. subst; reflexivity.
Qed.

Lemma lex_lt_irrefl : forall a, ~ lex_lt a a.
Proof. intros [[a1 a2] a3]; unfold lex_lt; lia. Qed.
Lemma lex_lt_trans : forall a b c, lex_lt a b -> lex_lt b c -> lex_lt a c.
Proof. intros [[a1 a2] a3] [[b1 b2] b3] [[c1 c2] c3]; unfold lex_lt; lia. Qed.
Lemma lex_le_refl : forall a, lex_le a a.
Proof. left; reflexivity. Qed.
Lemma lex_le_trans : forall a b c, lex_le a b -> lex_le b c -> lex_le a c.
Proof.
  unfold lex_le; intros a b c [->|H] [->|H']; auto. right; eapply lex_lt_trans; eauto.
Qed.
Lemma lex_lt_le_trans : forall a b c, lex_lt a b -> lex_le b c -> lex_lt a c.
Proof. intros a b c H [->|H']; auto. eapply lex_lt_trans; eauto. Qed.
Lemma lex_le_lt_trans : forall a b c, lex_le a b -> lex_lt b c -> lex_lt a c.
Proof. intros a b c [->|H] H'; auto. eapply lex_lt_trans; eauto. Qed.
Lemma lex_total : forall a b, lex_le a b \/ lex_lt b a.
Proof.
  intros a b. pose proof (lex_cmp_spec a b). unfold lex_le.
  destruct (lex_cmp a b); auto.
Qed.
Lemma lex_le_not_lt : forall a b, lex_le a b -> ~ lex_lt b a.
Proof.
  intros a b [->|H] H'; [eapply lex_lt_irrefl; eauto|].
  eapply lex_lt_irrefl, lex_lt_trans; eauto.
Qed.
Lemma lex_lt_le : forall a b, lex_lt a b -> lex_le a b.
Proof. right; assumption. Qed.

Ltac lexc := exfalso;
  repeat match goal with
         | H : ?a = ?b :> Z * Z * Z, H' : lex_lt _ _ |- _ => rewrite H in H'; clear H
         end;
  solve [ eapply lex_lt_irrefl; eauto using lex_lt_trans ].

(** ** IEEE comparison *)
Lemma fcmp_nkey : forall a b, is_nan a = false -> is_nan b = false ->
  fcmp a b = Some (lex_cmp (nkey a) (nkey b)).
Proof.
  intros a b Ha Hb; destruct a as [sa|sa|sa|sa ma ea]; try discriminate;
  destruct b as [sb|sb|sb|sb mb eb]; try discriminate;
  destruct sa; try destruct sb; try reflexivity.
  - unfold fcmp, SFcompare, to_sf, nkey, lex_cmp, sgz.
    rewrite Z.compare_refl.
    destruct (Z.compare_spec ea eb), (Z.compare_spec (- ea) (- eb)); try lia; try reflexivity.
Qed.

Lemma fcmp_nan_l : forall a b, is_nan a = true -> fcmp a b = None.
Proof. intros [| | |] b; try discriminate; reflexivity. Qed.
Lemma fcmp_nan_r : forall a b, is_nan b = true -> fcmp a b = None.
Proof. intros a [| | |]; try discriminate; destruct a; reflexivity. Qed.

Lemma flt_iff : forall a b, flt a b = true <->
  is_nan a = false /\ is_nan b = false /\ lex_lt (nkey a) (nkey b).
Proof.
  intros a b. unfold flt.
  destruct (is_nan a) eqn:Ha. { rewrite fcmp_nan_l by assumption. intuition discriminate. }
  destruct (is_nan b) eqn:Hb. { rewrite fcmp_nan_r by assumption. intuition discriminate. }
  rewrite fcmp_nkey by assumption. pose proof (lex_cmp_spec (nkey a) (nkey b)).
  destruct (lex_cmp (nkey a) (nkey b)); intuition (try discriminate; try lexc).
Qed.

Lemma fle_iff : forall a b, fle a b = true <->
  is_nan a = false /\ is_nan b = false /\ lex_le (nkey a) (nkey b).
Proof.
  intros a b. unfold fle.
  destruct (is_nan a) eqn:Ha. { rewrite fcmp_nan_l by assumption. intuition discriminate. }
  destruct (is_nan b) eqn:Hb. { rewrite fcmp_nan_r by assumption. intuition discriminate. }
  rewrite fcmp_nkey by assumption. pose proof (lex_cmp_spec (nkey a) (nkey b)). unfold lex_le.
  destruct (lex_cmp (nkey a) (nkey b)); intuition (try discriminate; try lexc).
Qed.

Lemma feq_iff : forall a b, feq a b = true <->
  is_nan a = false /\ is_nan b = false /\ nkey a = nkey b.
Proof.
  intros a b. unfold feq.
  destruct (is_nan a) eqn:Ha. { rewrite fcmp_nan_l by assumption. intuition discriminate. }
  destruct (is_nan b) eqn:Hb. { rewrite fcmp_nan_r by assumption. intuition discriminate. }
  rewrite fcmp_nkey by assumption. pose proof (lex_cmp_spec (nkey a) (nkey b)).
  destruct (lex_cmp (nkey a) (nkey b)); intuition (try discriminate; try lexc).
Qed.

Lemma flt_irrefl : forall a, flt a a = false.
Proof.
  intros a. destruct (flt a a) eqn:E; auto. apply flt_iff in E as (_ & _ & E).
  exfalso; eapply lex_lt_irrefl; eauto.
Qed.
Lemma flt_trans : forall a b c, flt a b = true -> flt b c = true -> flt a c = true.
Proof.
  intros a b c H1 H2. apply flt_iff in H1 as (? & ? & ?). apply flt_iff in H2 as (? & ? & ?).
  apply flt_iff. repeat split; auto. eapply lex_lt_trans; eauto.
Qed.
Lemma fle_trans : forall a b c, fle a b = true -> fle b c = true -> fle a c = true.
Proof.
  intros a b c H1 H2. apply fle_iff in H1 as (? & ? & ?). apply fle_iff in H2 as (? & ? & ?).
  apply fle_iff. repeat split; auto. eapply lex_le_trans; eauto.
Qed.
Lemma flt_le_trans : forall a b c, flt a b = true -> fle b c = true -> flt a c = true.
Proof.
  intros a b c H1 H2. apply flt_iff in H1 as (? & ? & ?). apply fle_iff in H2 as (? & ? & ?).
  apply flt_iff. repeat split; auto. eapply lex_lt_le_trans; eauto.
Qed.
Lemma fle_lt_trans : forall a b c, fle a b = true -> flt b c = true -> flt a c = true.
Proof.
  intros a b c H1 H2. apply fle_iff in H1 as (? & ? & ?). apply flt_iff in H2 as (? & ? & ?).
  apply flt_iff. repeat split; auto. eapply lex_le_lt_trans; eauto.
Qed.
Lemma flt_fle : forall a b, flt a b = true -> fle a b = true.
Proof.
  intros a b H. apply flt_iff in H as (? & ? & ?). apply fle_iff. repeat split; auto.
  apply lex_lt_le; auto.
Qed.
Lemma fle_refl : forall a, is_nan a = false -> fle a a = true.
Proof. intros a H. apply fle_iff. repeat split; auto. apply lex_le_refl. Qed.
Lemma fle_not_flt : forall a b, fle a b = true -> flt b a = false.
Proof.
  intros a b H. apply fle_iff in H as (? & ? & H). destruct (flt b a) eqn:E; auto.
  apply flt_iff in E as (_ & _ & E). exfalso; eapply lex_le_not_lt; eauto.
Qed.
Lemma not_flt_fle : forall a b, is_nan a = false -> is_nan b = false ->
  flt b a = false -> fle a b = true.
Proof.
  intros a b Ha Hb H. apply fle_iff. repeat split; auto.
  destruct (lex_total (nkey a) (nkey b)); auto.
  exfalso. assert (flt b a = true) by (apply flt_iff; auto). congruence.
Qed.
Lemma not_fle_flt : forall a b, is_nan a = false -> is_nan b = false ->
  fle a b = false -> flt b a = true.
Proof.
  intros a b Ha Hb H. destruct (flt b a) eqn:E; auto.
  rewrite (not_flt_fle a b) in H; auto; discriminate.
Qed.
Lemma fle_nan_l : forall a b, fle a b = true -> is_nan a = false.
Proof. intros a b H; apply fle_iff in H; tauto. Qed.
Lemma fle_nan_r : forall a b, fle a b = true -> is_nan b = false.
Proof. intros a b H; apply fle_iff in H; tauto. Qed.
Lemma flt_nan_l : forall a b, flt a b = true -> is_nan a = false.
Proof. intros a b H; apply flt_iff in H; tauto. Qed.
Lemma flt_nan_r : forall a b, flt a b = true -> is_nan b = false.
Proof. intros a b H; apply flt_iff in H; tauto. Qed.
Lemma fle_pinf : forall a, is_nan a = false -> fle a pinf = true.
Proof.
  intros a H. apply fle_iff. repeat split; auto. unfold lex_le, lex_lt, pinf.
  destruct a as [[]|[]|[]|[] m e]; simpl; try discriminate; auto; right; simpl; lia.
Qed.

(** ** total_cmp is a total order whose equivalence is equality of model values *)
Lemma tkey_inj : forall a b, tkey a = tkey b -> a = b.
Proof.
  intros [[]|[]|[]|[] m e] [[]|[]|[]|[] m' e']; simpl; intros H; try discriminate; try reflexivity;
  injection H as; f_equal; lia.
Qed.
Lemma total_lt_iff : forall a b, total_lt a b = true <-> lex_lt (tkey a) (tkey b).
Proof.
  intros a b. unfold total_lt, total_cmp. pose proof (lex_cmp_spec (tkey a) (tkey b)).
  destruct (lex_cmp (tkey a) (tkey b)); intuition (try discriminate; try lexc).
Qed.
Lemma total_le_iff : forall a b, total_le a b = true <-> lex_le (tkey a) (tkey b).
Proof.
  intros a b. unfold total_le, total_cmp, lex_le. pose proof (lex_cmp_spec (tkey a) (tkey b)).
  destruct (lex_cmp (tkey a) (tkey b)); intuition (try discriminate; try lexc).
Qed.
Lemma total_le_refl : forall a, total_le a a = true.
Proof. intros; apply total_le_iff, lex_le_refl. Qed.
Lemma total_le_trans : forall a b c, total_le a b = true -> total_le b c = true -> total_le a c = true.
Proof. intros a b c; rewrite !total_le_iff; apply lex_le_trans. Qed.
Lemma total_le_total : forall a b, total_le a b = true \/ total_le b a = true.
Proof.
  intros a b; rewrite !total_le_iff. destruct (lex_total (tkey a) (tkey b)); auto using lex_lt_le.
Qed.
Lemma total_le_antisym : forall a b, total_le a b = true -> total_le b a = true -> a = b.
Proof.
  intros a b; rewrite !total_le_iff. intros [H|H] H'; [apply tkey_inj; auto|].
  exfalso; eapply lex_le_not_lt; eauto.
Qed.
Lemma total_lt_le : forall a b, total_lt a b = true -> total_le a b = true.
Proof. intros a b; rewrite total_lt_iff, total_le_iff; apply lex_lt_le. Qed.
Lemma total_lt_not_le : forall a b, total_lt a b = negb (total_le b a).
Proof.
  intros a b. destruct (total_le b a) eqn:E; simpl.
  - destruct (total_lt a b) eqn:E'; auto. apply total_le_iff in E. apply total_lt_iff in E'.
    exfalso; eapply lex_le_not_lt; eauto.
  - apply total_lt_iff. destruct (lex_total (tkey b) (tkey a)) as [H|H]; auto.
    apply total_le_iff in H; congruence.
Qed.
Lemma total_cmp_eq : forall a b, total_cmp a b = Eq -> a = b.
Proof.
  intros a b H. pose proof (lex_cmp_spec (tkey a) (tkey b)). unfold total_cmp in H.
  rewrite H in H0. apply tkey_inj; auto.
Qed.
Lemma total_cmp_refl : forall a, total_cmp a a = Eq.
Proof.
  intros a. pose proof (lex_cmp_spec (tkey a) (tkey a)). unfold total_cmp.
  destruct (lex_cmp (tkey a) (tkey a)); auto; exfalso; eapply lex_lt_irrefl; eauto.
Qed.
Lemma total_cmp_antisym : forall a b, total_cmp a b = CompOpp (total_cmp b a).
Proof.
  intros a b. unfold total_cmp.
  pose proof (lex_cmp_spec (tkey a) (tkey b)) as H.
  pose proof (lex_cmp_spec (tkey b) (tkey a)) as H'.
  destruct (lex_cmp (tkey a) (tkey b)), (lex_cmp (tkey b) (tkey a)); simpl; auto; exfalso;
    try (rewrite H in *); try (rewrite H' in *); try (eapply lex_lt_irrefl; eassumption);
    eapply lex_lt_irrefl, lex_lt_trans; eauto.
Qed.

(** total order versus IEEE order *)
Lemma total_le_fle : forall a b, is_nan a = false -> is_nan b = false ->
  total_le a b = true -> fle a b = true.
Proof.
  intros a b Ha Hb H. apply total_le_iff in H. apply fle_iff. repeat split; auto.
  destruct a as [[]|[]|[]|[] m e], b as [[]|[]|[]|[] m' e']; try discriminate;
    unfold lex_le, lex_lt in *; simpl in *; try (right; lia); try (left; reflexivity);
    destruct H as [H|H]; try (injection H as; left; repeat f_equal; lia); try lia;
    right; lia.
Qed.
Lemma flt_total_lt : forall a b, flt a b = true -> total_lt a b = true.
Proof.
  intros a b H. apply flt_iff in H as (Ha & Hb & H). apply total_lt_iff.
  destruct a as [[]|[]|[]|[] m e], b as [[]|[]|[]|[] m' e']; try discriminate;
    unfold lex_lt in *; simpl in *; lia.
Qed.

(** ** min / max / clamp *)
Lemma fclamp_inside : forall x lo hi y, fclamp x lo hi = Some y ->
  is_nan x = false -> fle lo y = true /\ fle y hi = true.
Proof.
  intros x lo hi y H Hx. unfold fclamp in H.
  destruct (fle lo hi) eqn:E; try discriminate. injection H as <-.
  pose proof (fle_nan_l _ _ E). pose proof (fle_nan_r _ _ E).
  destruct (flt x lo) eqn:E1.
  - rewrite (fle_not_flt lo hi) by auto. split; auto. apply fle_refl; auto.
  - destruct (flt hi x) eqn:E2.
    + split; auto. apply fle_refl; auto.
    + split; apply not_flt_fle; auto.
Qed.
Lemma fclamp_nan : forall x lo hi y, fclamp x lo hi = Some y ->
  is_nan x = true -> y = x.
Proof.
  intros x lo hi y H Hx. unfold fclamp in H.
  destruct (fle lo hi); try discriminate. injection H as <-.
  destruct x; try discriminate. unfold flt. rewrite (fcmp_nan_l (NaN s) lo) by reflexivity.
  rewrite (fcmp_nan_r hi (NaN s)) by reflexivity. reflexivity.
Qed.
