(** * Rounding facts, through Flocq's real-number semantics

    Used only where a statement needs the size of a rounding result; these lemmas (and what
    uses them) depend on the axioms of the standard library's real numbers. *)
From Coq Require Import ZArith Reals Bool Lia Lra Floats.SpecFloat.
From Flocq Require Import Core BinarySingleNaN Mult_error.
From Verif Require Import F64 F64Order F64Alg.
Local Open Scope R_scope.

Global Instance prec_gt_0_53 : Prec_gt_0 53. Proof. unfold Prec_gt_0; lia. Qed.
Global Instance prec_lt_1024 : Prec_lt_emax 53 1024. Proof. unfold Prec_lt_emax; lia. Qed.
Notation bf := (binary_float 53 1024).
Notation fx := (SpecFloat.fexp 53 1024).
Notation rnd := (round radix2 fx ZnearestE).

(** ** The standard library's operations are Flocq's *)
Lemma nearest_even_equiv : forall s m l,
  round_nearest_even m l = choice_mode mode_NE s m l.
Proof.
  intros s m l. case l; [reflexivity|intro c]. case c; [|reflexivity..].
  simpl; unfold Round.cond_incr; case Z.even; reflexivity.
Qed.
Lemma aux_equiv : forall s m e l,
  SpecFloat.binary_round_aux 53 1024 s m e l = BinarySingleNaN.binary_round_aux 53 1024 mode_NE s m e l.
Proof.
  intros. unfold SpecFloat.binary_round_aux, BinarySingleNaN.binary_round_aux.
  destruct (shr_fexp 53 1024 m e l) as [mrs e']. rewrite (nearest_even_equiv s). reflexivity.
Qed.
Lemma round_equiv : forall s m e,
  SpecFloat.binary_round 53 1024 s m e = BinarySingleNaN.binary_round 53 1024 mode_NE s m e.
Proof.
  intros. unfold SpecFloat.binary_round, BinarySingleNaN.binary_round, shl_align_fexp.
  destruct (shl_align _ _ _). apply aux_equiv.
Qed.
Lemma normalize_equiv : forall m e z,
  SpecFloat.binary_normalize 53 1024 m e z =
  B2SF (BinarySingleNaN.binary_normalize 53 1024 _ _ mode_NE m e z).
Proof.
  intros [|p|p] e z; [reflexivity | |]; simpl; rewrite B2SF_SF2B; apply round_equiv.
Qed.
Lemma add_equiv : forall x y : bf, SFadd 53 1024 (B2SF x) (B2SF y) = B2SF (Bplus mode_NE x y).
Proof.
  intros [sx|sx| |sx mx ex Hx] [sy|sy| |sy my ey Hy]; try (simpl; try destruct (Bool.eqb _ _); reflexivity).
  apply normalize_equiv.
Qed.
Lemma sub_equiv : forall x y : bf, SFsub 53 1024 (B2SF x) (B2SF y) = B2SF (Bminus mode_NE x y).
Proof.
  intros [sx|sx| |sx mx ex Hx] [sy|sy| |sy my ey Hy];
    try (simpl; try destruct (Bool.eqb _ _); reflexivity).
  simpl. unfold Zminus. rewrite <- cond_Zopp_negb. apply normalize_equiv.
Qed.
Lemma mul_equiv : forall x y : bf, SFmul 53 1024 (B2SF x) (B2SF y) = B2SF (Bmult mode_NE x y).
Proof.
  intros [sx|sx| |sx mx ex Hx] [sy|sy| |sy my ey Hy]; try reflexivity.
  simpl. rewrite B2SF_SF2B. apply aux_equiv.
Qed.
Lemma div_equiv : forall x y : bf, SFdiv 53 1024 (B2SF x) (B2SF y) = B2SF (Bdiv mode_NE x y).
Proof.
  intros [sx|sx| |sx mx ex Hx] [sy|sy| |sy my ey Hy]; try reflexivity.
  simpl. rewrite B2SF_SF2B. destruct (SFdiv_core_binary _ _ _ _ _ _) as [[mz ez] lz].
  apply aux_equiv.
Qed.

(** ** Values *)
Lemma wf_valid : forall x, wf x = true -> valid_binary 53 1024 (to_sf x) = true.
Proof. intros [] H; auto. Qed.
Definition toB (x : f64) (H : wf x = true) : bf := SF2B (to_sf x) (wf_valid x H).
Lemma toB_sf : forall x H, B2SF (toB x H) = to_sf x.
Proof. intros. apply B2SF_SF2B. Qed.
(** the real value of a finite f64 (0 for the others) *)
Definition rv (x : f64) : R := SF2R radix2 (to_sf x).
Lemma toB_R : forall x H, B2R (toB x H) = rv x.
Proof. intros. apply B2R_SF2B. Qed.
Lemma toB_finite : forall x H, BinarySingleNaN.is_finite (toB x H) = is_finite x.
Proof. intros [] H; reflexivity. Qed.
Lemma of_sf_rv : forall b : bf, rv (of_sf (B2SF b)) = B2R b.
Proof. intros []; reflexivity. Qed.
Lemma of_sf_finite : forall b : bf, is_finite (of_sf (B2SF b)) = BinarySingleNaN.is_finite b.
Proof. intros []; reflexivity. Qed.
Lemma of_sf_wf : forall b : bf, wf (of_sf (B2SF b)) = true.
Proof. intros [| | |s m e H]; auto. Qed.
Lemma finite_not_nan : forall x, is_finite x = true -> is_nan x = false.
Proof. intros []; auto; discriminate. Qed.
Lemma overflow_of_sf : forall s, of_sf (binary_overflow 53 1024 mode_NE s) = Inf s.
Proof. intros; reflexivity. Qed.

Lemma format_rv : forall x, wf x = true -> generic_format radix2 fx (rv x).
Proof.
  intros x H. rewrite <- (toB_R x H). apply generic_format_B2R.
Qed.

Lemma fle_rv : forall x y, wf x = true -> wf y = true -> is_finite x = true -> is_finite y = true ->
  (fle x y = true <-> rv x <= rv y).
Proof.
  intros x y Hx Hy Fx Fy.
  assert (E : fle x y = Bleb (toB x Hx) (toB y Hy)).
  { unfold Bleb. rewrite !toB_sf. reflexivity. }
  rewrite E, Bleb_correct by (rewrite toB_finite; auto). rewrite !toB_R.
  case Rle_bool_spec; split; intros; auto; try discriminate. lra.
Qed.
Lemma flt_rv : forall x y, wf x = true -> wf y = true -> is_finite x = true -> is_finite y = true ->
  (flt x y = true <-> rv x < rv y).
Proof.
  intros x y Hx Hy Fx Fy.
  assert (E : flt x y = Bltb (toB x Hx) (toB y Hy)).
  { unfold Bltb. rewrite !toB_sf. reflexivity. }
  rewrite E, Bltb_correct by (rewrite toB_finite; auto). rewrite !toB_R.
  case Rlt_bool_spec; split; intros; auto; try discriminate. lra.
Qed.

(** ** Operations keep the format *)
Lemma lift2_wf : forall op (Bop : bf -> bf -> bf),
  (forall x y, op (B2SF x) (B2SF y) = B2SF (Bop x y)) ->
  forall x y, wf x = true -> wf y = true -> wf (lift2 op x y) = true.
Proof.
  intros op Bop Heq x y Hx Hy.
  destruct (is_nan x) eqn:Nx; [destruct x; try discriminate; reflexivity|].
  destruct (is_nan y) eqn:Ny; [destruct y; try discriminate; destruct x; reflexivity|].
  rewrite lift2_val by auto. rewrite <- (toB_sf x Hx), <- (toB_sf y Hy), Heq. apply of_sf_wf.
Qed.
Lemma fadd_wf : forall x y, wf x = true -> wf y = true -> wf (fadd x y) = true.
Proof. exact (lift2_wf _ _ add_equiv). Qed.
Lemma fsub_wf : forall x y, wf x = true -> wf y = true -> wf (fsub x y) = true.
Proof. exact (lift2_wf _ _ sub_equiv). Qed.
Lemma fmul_wf : forall x y, wf x = true -> wf y = true -> wf (fmul x y) = true.
Proof. exact (lift2_wf _ _ mul_equiv). Qed.
Lemma fdiv_wf : forall x y, wf x = true -> wf y = true -> wf (fdiv x y) = true.
Proof. exact (lift2_wf _ _ div_equiv). Qed.
Lemma fabs_wf : forall x, wf x = true -> wf (fabs x) = true.
Proof. intros [] H; auto. Qed.
Lemma fmax_wf : forall x y, wf x = true -> wf y = true -> wf (fmax x y) = true.
Proof. intros x y Hx Hy. unfold fmax. destruct (is_nan x), (is_nan y), (flt x y); auto. Qed.

(** ** Sum and difference *)
Definition sgn (x : f64) : bool := match x with Zero s | Inf s | NaN s | Fin s _ _ => s end.
Lemma toB_sign : forall x H, is_nan x = false -> Bsign (toB x H) = sgn x.
Proof. intros [] H N; try discriminate; reflexivity. Qed.
Lemma fadd_rv : forall x y, wf x = true -> wf y = true -> is_finite x = true -> is_finite y = true ->
  (is_finite (fadd x y) = true /\ rv (fadd x y) = rnd (rv x + rv y)) \/
  (fadd x y = Inf (sgn x) /\ sgn x = sgn y).
Proof.
  intros x y Hx Hy Fx Fy. unfold fadd. rewrite lift2_val by auto using finite_not_nan.
  change prec with 53%Z; change emax with 1024%Z.
  rewrite <- (toB_sf x Hx), <- (toB_sf y Hy), add_equiv.
  pose proof (Bplus_correct 53 1024 _ _ mode_NE (toB x Hx) (toB y Hy)) as C.
  rewrite !toB_finite, !toB_R in C. specialize (C Fx Fy).
  change (round_mode mode_NE) with ZnearestE in C.
  destruct (Rlt_bool _ _) in C.
  - destruct C as (C1 & C2 & _). left. rewrite of_sf_finite, of_sf_rv. auto.
  - destruct C as (C1 & C2). right. rewrite C1, overflow_of_sf, !toB_sign in * by auto using finite_not_nan.
    auto.
Qed.
Lemma fsub_rv : forall x y, wf x = true -> wf y = true -> is_finite x = true -> is_finite y = true ->
  (is_finite (fsub x y) = true /\ rv (fsub x y) = rnd (rv x - rv y)) \/
  (fsub x y = Inf (sgn x) /\ sgn x = negb (sgn y)).
Proof.
  intros x y Hx Hy Fx Fy. unfold fsub. rewrite lift2_val by auto using finite_not_nan.
  change prec with 53%Z; change emax with 1024%Z.
  rewrite <- (toB_sf x Hx), <- (toB_sf y Hy), sub_equiv.
  pose proof (Bminus_correct 53 1024 _ _ mode_NE (toB x Hx) (toB y Hy)) as C.
  rewrite !toB_finite, !toB_R in C. specialize (C Fx Fy).
  change (round_mode mode_NE) with ZnearestE in C.
  destruct (Rlt_bool _ _) in C.
  - destruct C as (C1 & C2 & _). left. rewrite of_sf_finite, of_sf_rv. auto.
  - destruct C as (C1 & C2). right. rewrite C1, overflow_of_sf, !toB_sign in * by auto using finite_not_nan.
    auto.
Qed.
Lemma rnd_le : forall a b, a <= b -> rnd a <= rnd b.
Proof. intros; apply round_le; auto; typeclasses eauto. Qed.
Lemma rnd_id : forall x, wf x = true -> rnd (rv x) = rv x.
Proof. intros. apply round_generic; [typeclasses eauto|]. apply format_rv; auto. Qed.
Lemma sgn_pos : forall x, wf x = true -> is_finite x = true -> sgn x = false -> 0 <= rv x.
Proof.
  intros [s|s|s|s m e] Hw Hf Hs; try discriminate; simpl in *; subst; [unfold rv; simpl; lra|].
  unfold rv; simpl. apply F2R_ge_0. simpl. lia.
Qed.

(** not below zero *)
Lemma nonneg_of_fle : forall t, fle f0 t = true -> is_nan t = false /\ (sgn t = false \/ exists s, t = Zero s).
Proof. intros [s|s|s|s m e] H; split; auto; try discriminate; destruct s; try discriminate; eauto. Qed.
Lemma rv_ge0 : forall t, wf t = true -> is_finite t = true -> fle f0 t = true -> 0 <= rv t.
Proof.
  intros t Hw Hf H. destruct (nonneg_of_fle t H) as [_ [S|[s ->]]]; [apply sgn_pos; auto|unfold rv; simpl; lra].
Qed.
Lemma fle_ninf : forall y, is_nan y = false -> fle (Inf true) y = true.
Proof. intros [s|s|s|s m e] H; try discriminate; try reflexivity. destruct s; reflexivity. Qed.
Lemma fle_inf_r : forall y, is_nan y = false -> fle y (Inf false) = true.
Proof. exact fle_pinf. Qed.

(** subtracting something not negative never increases *)
Lemma fsub_le : forall x t, wf x = true -> wf t = true -> is_nan x = false -> fle f0 t = true ->
  is_nan (fsub x t) = false -> fle (fsub x t) x = true.
Proof.
  intros x t Hx Ht Nx H0 N. destruct (nonneg_of_fle t H0) as [Nt St].
  destruct (is_finite x) eqn:Fx.
  - destruct (is_finite t) eqn:Ft.
    + destruct (fsub_rv x t Hx Ht Fx Ft) as [[Ff Er]|[E1 E2]].
      * apply fle_rv; auto. { apply fsub_wf; auto. }
        rewrite Er. rewrite <- (rnd_id x Hx) at 2. apply rnd_le. pose proof (rv_ge0 t Ht Ft H0). lra.
      * rewrite E1. destruct St as [St|[s ->]].
        -- rewrite E2, St. simpl. apply fle_ninf; auto.
        -- exfalso. destruct x as [u|u|u|u m e]; try discriminate Fx; destruct u, s; cbv in E1; discriminate E1.
    + destruct t as [s|s|s|]; try discriminate. destruct St as [St|[? ?]]; [|discriminate]. simpl in St; subst.
      destruct x; try discriminate; reflexivity.
  - destruct x as [s|s|s|]; try discriminate. destruct t as [u|u|u|u m e]; try discriminate;
      destruct s; try reflexivity; destruct u; try discriminate; try reflexivity.
Qed.
(** adding something not negative never decreases *)
Lemma fadd_ge : forall x t, wf x = true -> wf t = true -> is_nan x = false -> fle f0 t = true ->
  is_nan (fadd x t) = false -> fle x (fadd x t) = true.
Proof.
  intros x t Hx Ht Nx H0 N. destruct (nonneg_of_fle t H0) as [Nt St].
  destruct (is_finite x) eqn:Fx.
  - destruct (is_finite t) eqn:Ft.
    + destruct (fadd_rv x t Hx Ht Fx Ft) as [[Ff Er]|[E1 E2]].
      * apply fle_rv; auto. { apply fadd_wf; auto. }
        rewrite Er. rewrite <- (rnd_id x Hx) at 1. apply rnd_le. pose proof (rv_ge0 t Ht Ft H0). lra.
      * rewrite E1. destruct St as [St|[s ->]].
        -- rewrite E2, St. apply fle_inf_r; auto.
        -- exfalso. destruct x as [u|u|u|u m e]; try discriminate Fx; destruct u, s; cbv in E1; discriminate E1.
    + destruct t as [s|s|s|]; try discriminate. destruct St as [St|[? ?]]; [|discriminate]. simpl in St; subst.
      destruct x as [s|s|s|s m e]; try discriminate; try reflexivity; destruct s; reflexivity.
  - destruct x as [s|s|s|]; try discriminate. destruct t as [u|u|u|u m e]; try discriminate;
      destruct s; try reflexivity; destruct u; try discriminate; try reflexivity.
Qed.
(** a sum of a finite number and something not negative is a number *)
Lemma fadd_not_nan : forall x t, is_finite x = true -> is_nan t = false -> wf x = true -> wf t = true ->
  is_nan (fadd x t) = false.
Proof.
  intros x t Fx Nt Hx Ht. destruct (is_finite t) eqn:Ft.
  - destruct (fadd_rv x t Hx Ht Fx Ft) as [[Ff _]|[-> _]]; [apply finite_not_nan; auto|reflexivity].
  - destruct t; try discriminate. destruct x; try discriminate; reflexivity.
Qed.

(** products of nonnegatives *)
Lemma fmul_nonneg : forall x y, nonneg x -> nonneg y -> nonneg (fmul x y).
Proof.
  intros [s|s|s|s m e] [t|t|t|t k f] Hx Hy; cbn [nonneg] in Hx, Hy; subst; try reflexivity; try exact I.
  unfold fmul, lift2. cbn [to_sf]. unfold SFmul. apply round_aux_sign.
Qed.
Lemma nonneg_fle : forall x, nonneg x -> is_nan x = false -> fle f0 x = true.
Proof. intros [s|s|s|s m e] H N; simpl in H; subst; try discriminate; reflexivity. Qed.
Lemma flt_pos_nonneg : forall x, flt f0 x = true -> nonneg x.
Proof. intros [s|s|s|s m e] H; simpl; auto; destruct s; auto; discriminate. Qed.
Lemma fabs_nonneg : forall x, nonneg (fabs x).
Proof. intros []; simpl; auto. Qed.

(** a product is NaN only if an operand is, or zero meets infinity *)
Lemma fmul_finite_not_nan : forall x y, wf x = true -> wf y = true -> is_finite x = true -> is_finite y = true ->
  is_nan (fmul x y) = false.
Proof.
  intros x y Hx Hy Fx Fy. unfold fmul. rewrite lift2_val by auto using finite_not_nan.
  change prec with 53%Z; change emax with 1024%Z.
  rewrite <- (toB_sf x Hx), <- (toB_sf y Hy), mul_equiv.
  pose proof (Bmult_correct 53 1024 _ _ mode_NE (toB x Hx) (toB y Hy)) as C.
  destruct (Rlt_bool _ _) in C.
  - destruct C as (_ & C2 & _). rewrite !toB_finite, Fx, Fy in C2.
    destruct (Bmult mode_NE (toB x Hx) (toB y Hy)); try discriminate; reflexivity.
  - rewrite C. rewrite overflow_of_sf. reflexivity.
Qed.

(** ** The midpoint *)
Lemma rv_f2 : rv f2 = 2.
Proof. unfold rv. change (to_sf f2) with (S754_finite false 4503599627370496 (-51)).
  unfold SF2R, F2R. cbn [cond_Zopp Fnum Fexp]. 
  change 4503599627370496%Z with (2^52)%Z.
  replace (IZR (2 ^ 52)) with (bpow radix2 52) by (rewrite <- IZR_Zpower by lia; reflexivity).
  rewrite <- bpow_plus. simpl. lra.
Qed.
Lemma fdiv2_rv : forall x, wf x = true -> is_finite x = true ->
  is_finite (fdiv x f2) = true /\ rv (fdiv x f2) = rnd (rv x / 2).
Proof.
  intros x Hx Fx. unfold fdiv. assert (Hw2 : wf f2 = true) by reflexivity.
  rewrite lift2_val by (auto using finite_not_nan; reflexivity).
  change prec with 53%Z; change emax with 1024%Z.
  rewrite <- (toB_sf x Hx), <- (toB_sf f2 Hw2), div_equiv.
  pose proof (Bdiv_correct 53 1024 _ _ mode_NE (toB x Hx) (toB f2 Hw2)) as C.
  rewrite !toB_R, rv_f2 in C. specialize (C ltac:(lra)).
  change (round_mode mode_NE) with ZnearestE in C.
  rewrite Rlt_bool_true in C.
  - destruct C as (C1 & C2 & _). rewrite toB_finite in C2. rewrite of_sf_finite, of_sf_rv. split; congruence.
  - assert (Hb : Rabs (rv x) < bpow radix2 1024) by (rewrite <- (toB_R x Hx); apply abs_B2R_lt_emax).
    eapply Rle_lt_trans; [|exact Hb].
    rewrite <- (rnd_id x Hx) at 2.
    rewrite <- !round_NE_abs by typeclasses eauto. apply rnd_le.
    unfold Rdiv. rewrite Rabs_mult, (Rabs_pos_eq (/ 2)) by lra. pose proof (Rabs_pos (rv x)). lra.
Qed.
Lemma mid_inside : forall lo hi, wf lo = true -> wf hi = true -> is_finite lo = true -> is_finite hi = true ->
  fle lo hi = true -> is_finite (fadd lo hi) = true ->
  fle lo (fdiv (fadd lo hi) f2) = true /\ fle (fdiv (fadd lo hi) f2) hi = true.
Proof.
  intros lo hi Wl Wh Fl Fh Hle Fs.
  apply fle_rv in Hle; auto.
  destruct (fadd_rv lo hi Wl Wh Fl Fh) as [[_ Es]|[Es _]]; [|rewrite Es in Fs; discriminate].
  assert (Ws := fadd_wf lo hi Wl Wh).
  destruct (fdiv2_rv (fadd lo hi) Ws Fs) as [Fd Ed].
  assert (Wd : wf (fdiv (fadd lo hi) f2) = true) by (apply fdiv_wf; auto).
  assert (D : forall x, wf x = true -> generic_format radix2 fx (2 * rv x)).
  { intros x Hx. replace (2 * rv x) with (rv x * bpow radix2 1) by (simpl; lra).
    apply mult_bpow_pos_exact_FLT; [|lia]. apply (format_rv x Hx). }
  assert (L : 2 * rv lo <= rv (fadd lo hi)).
  { rewrite Es. rewrite <- (round_generic radix2 fx ZnearestE (2 * rv lo)) by (apply D; auto).
    apply rnd_le. lra. }
  assert (U : rv (fadd lo hi) <= 2 * rv hi).
  { rewrite Es. rewrite <- (round_generic radix2 fx ZnearestE (2 * rv hi)) by (apply D; auto).
    apply rnd_le. lra. }
  split; apply fle_rv; auto; rewrite Ed.
  - rewrite <- (rnd_id lo Wl). apply rnd_le. lra.
  - rewrite <- (rnd_id hi Wh). apply rnd_le. lra.
Qed.
