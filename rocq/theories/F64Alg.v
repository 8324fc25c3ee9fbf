(** * Algebraic facts about the squared distance: symmetry, sign, zero on the diagonal *)
From Coq Require Import ZArith List Bool Lia Floats.SpecFloat.
From Verif Require Import F64 F64Order Base.
Import ListNotations.
Local Open Scope Z_scope.

(** equal, or both NaN *)
Definition nsim (a b : f64) : Prop := a = b \/ (is_nan a = true /\ is_nan b = true).
Lemma nsim_refl : forall a, nsim a a. Proof. left; auto. Qed.
Lemma nsim_sym : forall a b, nsim a b -> nsim b a.
Proof. intros a b [->|[]]; [left|right]; auto. Qed.
Lemma nsim_trans : forall a b c, nsim a b -> nsim b c -> nsim a c.
Proof.
  intros a b c [->|[A B]] H; auto. destruct H as [<-|[C D]]; right; auto.
Qed.
Lemma lift2_nan_l : forall op a b, is_nan a = true -> is_nan (lift2 op a b) = true.
Proof. intros op [s|s|s|s m e] b H; try discriminate. reflexivity. Qed.
Lemma lift2_nan_r : forall op a b, is_nan b = true -> is_nan (lift2 op a b) = true.
Proof. intros op a [s|s|s|s m e] H; try discriminate. destruct a; reflexivity. Qed.
Lemma lift2_nsim : forall op a a' b b', nsim a a' -> nsim b b' -> nsim (lift2 op a b) (lift2 op a' b').
Proof.
  intros op a a' b b' [->|[A A']] [->|[B B']].
  - apply nsim_refl.
  - right; split; apply lift2_nan_r; auto.
  - right; split; apply lift2_nan_l; auto.
  - right; split; apply lift2_nan_l; auto.
Qed.
Lemma flt_nsim : forall a a' b b', nsim a a' -> nsim b b' -> flt a b = flt a' b'.
Proof.
  intros a a' b b' Ha Hb. unfold flt.
  destruct Ha as [->|[A A']]; [|rewrite !fcmp_nan_l; auto].
  destruct Hb as [->|[B B']]; [auto|rewrite !fcmp_nan_r; auto].
Qed.
Lemma fle_nsim : forall a a' b b', nsim a a' -> nsim b b' -> fle a b = fle a' b'.
Proof.
  intros a a' b b' Ha Hb. unfold fle.
  destruct Ha as [->|[A A']]; [|rewrite !fcmp_nan_l; auto].
  destruct Hb as [->|[B B']]; [auto|rewrite !fcmp_nan_r; auto].
Qed.

(** ** Sign symmetry *)
Lemma round_aux_opp : forall s m e l,
  binary_round_aux prec emax (negb s) m e l = SFopp (binary_round_aux prec emax s m e l).
Proof.
  intros s m e l. unfold binary_round_aux. destruct (shr_fexp prec emax m e l) as [mrs e1].
  destruct (shr_fexp prec emax _ e1 loc_Exact) as [mrs2 e2]. destruct (shr_m mrs2); auto.
  destruct (e2 <=? emax - prec); auto.
Qed.
Lemma round_opp : forall s m e, binary_round prec emax (negb s) m e = SFopp (binary_round prec emax s m e).
Proof. intros. unfold binary_round. destruct (shl_align m e _). apply round_aux_opp. Qed.
Lemma of_sf_opp : forall x, x <> S754_nan -> of_sf (SFopp x) = fopp (of_sf x).
Proof. intros [s|s| |s m e] H; auto. congruence. Qed.

Lemma mul_opp : forall x, SFmul prec emax (SFopp x) (SFopp x) = SFmul prec emax x x.
Proof. intros [s|s| |s m e]; simpl; auto; destruct s; auto. Qed.
Lemma fsub_fin : forall s1 m1 e1 s2 m2 e2,
  SFsub prec emax (S754_finite s1 m1 e1) (S754_finite s2 m2 e2) =
  SFsub prec emax (S754_finite s2 m2 e2) (S754_finite s1 m1 e1) \/
  SFsub prec emax (S754_finite s1 m1 e1) (S754_finite s2 m2 e2) =
  SFopp (SFsub prec emax (S754_finite s2 m2 e2) (S754_finite s1 m1 e1)).
Proof.
  intros. unfold SFsub. rewrite (Z.min_comm e2 e1).
  set (a := cond_Zopp s1 _). set (b := cond_Zopp s2 _).
  replace (b - a) with (- (a - b)) by lia.
  destruct (a - b) as [|p|p]; simpl; auto; right.
  - rewrite <- round_opp. auto.
  - rewrite <- round_opp. auto.
Qed.
Lemma lift2_val : forall op a b, is_nan a = false -> is_nan b = false ->
  lift2 op a b = of_sf (op (to_sf a) (to_sf b)).
Proof. intros op [] [] Ha Hb; try discriminate; reflexivity. Qed.
Lemma sq_of_sf : forall x, nsim (fmul (of_sf x) (of_sf x)) (of_sf (SFmul prec emax x x)).
Proof. intros [s|s| |s m e]; try (left; reflexivity). Qed.
Lemma sq_sub_swap : forall a b,
  nsim (fmul (fsub a b) (fsub a b)) (fmul (fsub b a) (fsub b a)).
Proof.
  intros a b.
  destruct (is_nan a) eqn:Na.
  { right; split; apply lift2_nan_l; [apply lift2_nan_l|apply lift2_nan_r]; auto. }
  destruct (is_nan b) eqn:Nb.
  { right; split; apply lift2_nan_l; [apply lift2_nan_r|apply lift2_nan_l]; auto. }
  unfold fsub. rewrite !lift2_val by auto.
  eapply nsim_trans; [apply sq_of_sf|]. eapply nsim_trans; [|apply nsim_sym, sq_of_sf].
  left. f_equal.
  destruct a as [sa|sa|sa|sa ma ea]; try discriminate; destruct b as [sb|sb|sb|sb mb eb]; try discriminate;
    simpl to_sf; try (destruct sa, sb; reflexivity).
  destruct (fsub_fin sa ma ea sb mb eb) as [->| ->]; auto. apply mul_opp.
Qed.

Lemma dot_nsim : forall n l l' a a', (length l <= n)%nat -> Forall2 nsim l l' ->
  nsim (q0 a) (q0 a') -> nsim (q1 a) (q1 a') -> nsim (q2 a) (q2 a') -> nsim (q3 a) (q3 a') ->
  nsim (q4 a) (q4 a') -> nsim (q5 a) (q5 a') -> nsim (q6 a) (q6 a') -> nsim (q7 a) (q7 a') ->
  nsim (dot_go a l) (dot_go a' l').
Proof.
  assert (Hf : forall l l' x x', Forall2 nsim l l' -> nsim x x' -> nsim (fold_left fadd l x) (fold_left fadd l' x')).
  { intros l l' x x' H; revert x x'; induction H; simpl; intros; auto. apply IHForall2. apply lift2_nsim; auto. }
  assert (H8 : forall a a',
    nsim (q0 a) (q0 a') -> nsim (q1 a) (q1 a') -> nsim (q2 a) (q2 a') -> nsim (q3 a) (q3 a') ->
    nsim (q4 a) (q4 a') -> nsim (q5 a) (q5 a') -> nsim (q6 a) (q6 a') -> nsim (q7 a) (q7 a') ->
    nsim (fold8 a) (fold8 a')).
  { intros. unfold fold8. repeat apply lift2_nsim; auto using nsim_refl. }
  induction n as [|n IH]; intros l l' a a' Hn HF; intros.
  - destruct HF; simpl in *; [apply H8; auto|lia].
  - destruct HF as [|x0 y0 l l' R0 HF]; [apply Hf; auto|].
    destruct HF as [|x1 y1 l l' R1 HF]; [apply Hf; auto|].
    destruct HF as [|x2 y2 l l' R2 HF]; [apply Hf; auto|].
    destruct HF as [|x3 y3 l l' R3 HF]; [apply Hf; auto 10|].
    destruct HF as [|x4 y4 l l' R4 HF]; [apply Hf; auto 10|].
    destruct HF as [|x5 y5 l l' R5 HF]; [apply Hf; auto 10|].
    destruct HF as [|x6 y6 l l' R6 HF]; [apply Hf; auto 10|].
    destruct HF as [|x7 y7 l l' R7 HF]; [apply Hf; auto 10|].
    cbn [dot_go]. apply IH; [simpl in Hn; lia | auto |..]; cbn [q0 q1 q2 q3 q4 q5 q6 q7];
      apply lift2_nsim; auto.
Qed.
Lemma dist2_sym : forall a b, nsim (dist2 a b) (dist2 b a).
Proof.
  intros a b. unfold dist2.
  eapply dot_nsim; [reflexivity | | apply nsim_refl..].
  revert b; induction a as [|x a IH]; intros [|y b]; simpl; constructor; auto.
  apply sq_sub_swap.
Qed.

(** ** Sign: NaN or not negative *)
Definition nonneg (x : f64) : Prop :=
  match x with NaN _ => True | Zero s | Inf s | Fin s _ _ => s = false end.
Lemma round_aux_sign : forall m e l, nonneg (of_sf (binary_round_aux prec emax false m e l)).
Proof.
  intros m e l. unfold binary_round_aux. destruct (shr_fexp prec emax m e l) as [mrs e1].
  destruct (shr_fexp prec emax _ e1 loc_Exact) as [mrs2 e2].
  destruct (shr_m mrs2); [reflexivity | | exact I].
  destruct (e2 <=? emax - prec); reflexivity.
Qed.
Lemma normalize_sign : forall z e, 0 <= z -> nonneg (of_sf (binary_normalize prec emax z e false)).
Proof.
  intros [|p|p] e H; [reflexivity | | lia]. simpl. unfold binary_round.
  destruct (shl_align p e _). apply round_aux_sign.
Qed.
Lemma sq_nonneg : forall x, nonneg (fmul x x).
Proof.
  intros [s|s|s|s m e]; simpl; auto; try (destruct s; reflexivity).
  unfold fmul. simpl. rewrite xorb_nilpotent. apply round_aux_sign.
Qed.
Lemma fadd_nonneg : forall x y, nonneg x -> nonneg y -> nonneg (fadd x y).
Proof.
  intros [s|s|s|s m e] [t|t|t|t k f] Hx Hy; cbn [nonneg] in Hx, Hy; subst; try reflexivity; try exact I.
  unfold fadd, lift2. cbn [to_sf]. unfold SFadd. apply normalize_sign. simpl. lia.
Qed.
Lemma fold_nonneg : forall l x, nonneg x -> Forall nonneg l -> nonneg (fold_left fadd l x).
Proof.
  induction l as [|y l IH]; simpl; intros x Hx H; auto. inversion H; subst. apply IH; auto.
  apply fadd_nonneg; auto.
Qed.
Lemma dot_nonneg : forall n l a, (length l <= n)%nat -> Forall nonneg l ->
  nonneg (q0 a) -> nonneg (q1 a) -> nonneg (q2 a) -> nonneg (q3 a) ->
  nonneg (q4 a) -> nonneg (q5 a) -> nonneg (q6 a) -> nonneg (q7 a) -> nonneg (dot_go a l).
Proof.
  assert (H8 : forall a, nonneg (q0 a) -> nonneg (q1 a) -> nonneg (q2 a) -> nonneg (q3 a) ->
    nonneg (q4 a) -> nonneg (q5 a) -> nonneg (q6 a) -> nonneg (q7 a) -> nonneg (fold8 a)).
  { intros. unfold fold8. repeat apply fadd_nonneg; auto. reflexivity. }
  induction n as [|n IH]; intros l a Hn HF; intros.
  - destruct HF; simpl in *; [apply H8; auto|lia].
  - destruct l as [|x0 [|x1 [|x2 [|x3 [|x4 [|x5 [|x6 [|x7 l]]]]]]]]; try (apply fold_nonneg; auto; fail).
    repeat match goal with Hh : Forall _ (_ :: _) |- _ => inversion Hh; clear Hh; subst end.
    cbn [dot_go]. apply IH; [simpl in Hn; lia | auto |..]; cbn [q0 q1 q2 q3 q4 q5 q6 q7];
      apply fadd_nonneg; auto.
Qed.
Lemma nonneg_not_neg : forall x, nonneg x -> flt x f0 = false.
Proof. intros [s|s|s|s m e]; simpl; intros; subst; reflexivity. Qed.
Lemma dist2_nonneg_sign : forall a b, nonneg (dist2 a b).
Proof.
  intros a b. unfold dist2. eapply dot_nonneg; [reflexivity | | reflexivity..].
  apply Forall_forall. intros x Hx. apply in_map_iff in Hx as [y [<- _]]. apply sq_nonneg.
Qed.
Lemma dist2_nonneg : forall a b, flt (dist2 a b) f0 = false.
Proof. intros. apply nonneg_not_neg, dist2_nonneg_sign. Qed.

(** ** Zero on the diagonal *)
Lemma fsub_self : forall x, is_finite x = true -> fsub x x = f0.
Proof.
  intros [s|s|s|s m e] H; try discriminate.
  - destruct s; reflexivity.
  - unfold fsub, lift2. cbn [to_sf]. unfold SFsub. rewrite Z.sub_diag. reflexivity.
Qed.
Lemma dot_zero : forall n l, (length l <= n)%nat -> Forall (fun x => x = f0) l -> dot_go acc0 l = f0.
Proof.
  induction n as [|n IH]; intros l Hn HF.
  - destruct HF; simpl in *; [reflexivity|lia].
  - assert (Hf : forall l, Forall (fun x => x = f0) l -> fold_left fadd l f0 = f0).
    { clear. induction 1; simpl; auto. subst. exact IHForall. }
    destruct l as [|x0 [|x1 [|x2 [|x3 [|x4 [|x5 [|x6 [|x7 l]]]]]]]]; try (apply (Hf _ HF)).
    repeat match goal with Hh : Forall _ (_ :: _) |- _ => inversion Hh; clear Hh; subst end.
    cbn [dot_go]. apply IH; [simpl in Hn; lia | auto].
Qed.
Lemma dist2_diag : forall a, Forall (fun x => is_finite x = true) a -> dist2 a a = f0.
Proof.
  intros a H. unfold dist2. eapply dot_zero; [reflexivity|]. induction H; simpl; constructor; auto.
  rewrite fsub_self; auto.
Qed.
