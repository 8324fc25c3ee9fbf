(** * [(n as f64).sqrt() as usize] is the integer square root below 2^52 *)
From Coq Require Import ZArith Reals Bool Arith Lia Lra Floats.SpecFloat.
From Flocq Require Import Core BinarySingleNaN.
From Verif Require Import F64 F64Order F64Alg F64Real ScatterSearch SpecStage1.
Local Open Scope R_scope.

Lemma small_int_format : forall n, (Z.abs n < 2 ^ 53)%Z -> generic_format radix2 fx (IZR n).
Proof.
  intros n H. apply generic_format_FLT. exists (Float radix2 n 0); [unfold F2R; simpl; lra|exact H|easy].
Qed.
Lemma of_Z_spec : forall n, (0 <= n < 2 ^ 53)%Z ->
  wf (of_Z n) = true /\ is_finite (of_Z n) = true /\ rv (of_Z n) = IZR n /\ sgn (of_Z n) = false.
Proof.
  intros n H. unfold of_Z. change prec with 53%Z. change emax with 1024%Z. rewrite normalize_equiv.
  pose proof (binary_normalize_correct 53 1024 _ _ mode_NE n 0 false) as C. cbv zeta in C.
  assert (EF : F2R (Float radix2 n 0) = IZR n) by (unfold F2R; simpl; lra). rewrite EF in C.
  change (round_mode mode_NE) with ZnearestE in C.
  rewrite round_generic in C by (try apply small_int_format; try typeclasses eauto; lia).
  rewrite Rlt_bool_true in C.
  - destruct C as (C1 & C2 & C3). split; [apply of_sf_wf|]. rewrite of_sf_finite, of_sf_rv. split; [auto|]. split; [auto|].
    assert (Bs : Bsign (BinarySingleNaN.binary_normalize 53 1024 _ _ mode_NE n 0 false) = false).
    { rewrite C3. destruct (Rcompare_spec (IZR n) 0); auto. exfalso.
      assert (0 <= IZR n) by (apply IZR_le; lia). lra. }
    destruct (BinarySingleNaN.binary_normalize 53 1024 _ _ mode_NE n 0 false) as [s|s| |s m e Hb]; simpl in *; auto; discriminate.
  - rewrite Rabs_pos_eq by (apply IZR_le; lia). apply Rle_lt_trans with (IZR (2 ^ 53)); [apply IZR_le; lia|].
    rewrite (IZR_Zpower radix2) by lia. apply bpow_lt. lia.
Qed.
Lemma sqrt_equiv : forall x : bf, SFsqrt 53 1024 (B2SF x) = B2SF (Bsqrt mode_NE x).
Proof.
  intros [s|s| |s m e H]; try reflexivity.
  - destruct s; reflexivity.
  - destruct s; [reflexivity|]. simpl. rewrite B2SF_SF2B. destruct (SFsqrt_core_binary _ _ _ _) as [[mz ez] lz]. apply aux_equiv.
Qed.
Lemma fsqrt_rv : forall x, wf x = true -> is_finite x = true -> sgn x = false ->
  wf (fsqrt x) = true /\ is_finite (fsqrt x) = true /\ sgn (fsqrt x) = false /\ rv (fsqrt x) = rnd (sqrt (rv x)).
Proof.
  intros x W F S. assert (E : fsqrt x = of_sf (SFsqrt 53 1024 (to_sf x))) by (destruct x; auto; discriminate).
  rewrite E, <- (toB_sf x W), sqrt_equiv. pose proof (Bsqrt_correct 53 1024 _ _ mode_NE (toB x W)) as (C1 & C2 & C3).
  rewrite toB_R in C1. rewrite of_sf_finite, of_sf_rv, C1, C2. split; [apply of_sf_wf|].
  assert (Fin : BinarySingleNaN.is_finite (Bsqrt mode_NE (toB x W)) = true).
  { rewrite C2. destruct x as [s|s|s|s m e]; try discriminate; simpl in S; subst; reflexivity. }
  rewrite C2 in Fin. split; [exact Fin|]. split; [|reflexivity].
  assert (Nn : BinarySingleNaN.is_nan (Bsqrt mode_NE (toB x W)) = false).
  { rewrite Fin in C2. destruct (Bsqrt mode_NE (toB x W)); auto; discriminate. }
  specialize (C3 Nn). rewrite toB_sign in C3 by (auto using finite_not_nan). rewrite S in C3.
  destruct (Bsqrt mode_NE (toB x W)) as [s|s| |s m e Hb]; simpl in *; auto; discriminate.
Qed.
Lemma shiftl_floor : forall m e, Z.shiftl (Zpos m) e = Zfloor (F2R (Float radix2 (Zpos m) e)).
Proof.
  intros m e. unfold F2R. simpl Fnum. simpl Fexp. destruct (Z.le_gt_cases 0 e) as [H|H].
  - rewrite Z.shiftl_mul_pow2 by auto. rewrite <- (IZR_Zpower radix2) by auto. rewrite <- mult_IZR, Zfloor_IZR. reflexivity.
  - rewrite <- (Z.opp_involutive e) at 1. rewrite Z.shiftl_opp_r, Z.shiftr_div_pow2 by lia.
    rewrite <- Zfloor_div by (apply Z.pow_nonzero; lia). f_equal. unfold Rdiv. f_equal.
    rewrite (IZR_Zpower radix2) by lia. rewrite <- bpow_opp. f_equal. lia.
Qed.
Lemma to_usize_rv : forall x, wf x = true -> is_finite x = true -> sgn x = false ->
  to_usize x = Z.to_nat (Z.min usize_max (Zfloor (rv x))).
Proof.
  intros [s|s|s|s m e] W F S; try discriminate; simpl in S; subst.
  - unfold rv, to_usize. simpl. rewrite Zfloor_IZR. reflexivity.
  - unfold to_usize, rv. simpl to_sf. unfold SF2R. simpl cond_Zopp. rewrite <- shiftl_floor. reflexivity.
Qed.

Lemma usize_sqrt : forall n, (0 <= n < 2 ^ 52)%Z -> to_usize (fsqrt (of_Z n)) = Z.to_nat (Z.sqrt n).
Proof.
  intros n Hn. destruct (of_Z_spec n ltac:(lia)) as (W & F & V & S).
  destruct (fsqrt_rv _ W F S) as (W' & F' & S' & V'). rewrite to_usize_rv by auto. rewrite V', V.
  destruct (Z.sqrt_spec n ltac:(lia)) as [L U]. set (m := Z.sqrt n) in *.
  assert (M0 : (0 <= m)%Z) by apply Z.sqrt_nonneg.
  assert (Mb : (m + 1 <= 2 ^ 26)%Z).
  { assert (m < 2 ^ 26)%Z; [|lia]. apply Z.sqrt_lt_square; lia. }
  assert (Hf : Zfloor (rnd (sqrt (IZR n))) = m).
  { apply Zfloor_imp. split.
    - rewrite <- (round_generic radix2 fx ZnearestE (IZR m)) by (try apply small_int_format; try typeclasses eauto; lia).
      apply rnd_le. rewrite <- (sqrt_square (IZR m)) by (apply IZR_le; lia). apply sqrt_le_1_alt.
      rewrite <- mult_IZR. apply IZR_le. exact L.
    - set (y := IZR (m + 1) - bpow radix2 (-27)).
      assert (B : bpow radix2 (-27) = / 134217728) by reflexivity.
      assert (Fy : generic_format radix2 fx y).
      { apply generic_format_FLT. exists (Float radix2 ((m + 1) * 2 ^ 27 - 1) (-27)); [|change (Z.abs ((m + 1) * 2 ^ 27 - 1) < 2 ^ 53)%Z; lia|easy].
        unfold y, F2R, Fnum, Fexp. rewrite minus_IZR, (mult_IZR (m + 1) (2 ^ 27)), B. simpl. lra. }
      assert (M1 : 1 <= IZR (m + 1)) by (apply IZR_le; lia).
      assert (M2 : IZR (m + 1) <= 67108864) by (apply IZR_le; lia).
      assert (Sy : sqrt (IZR n) <= y).
      { assert (Y0 : 0 <= y) by (unfold y; rewrite B; lra).
        rewrite <- (sqrt_square y) by auto. apply sqrt_le_1_alt.
        apply Rle_trans with (IZR (m + 1) * IZR (m + 1) - 1).
        - rewrite <- mult_IZR, <- minus_IZR. apply IZR_le. unfold Z.succ in U. lia.
        - unfold y. rewrite B. nra. }
      apply Rle_lt_trans with y.
      + rewrite <- (round_generic radix2 fx ZnearestE y) by (auto; typeclasses eauto). apply rnd_le. exact Sy.
      + unfold y. pose proof (bpow_gt_0 radix2 (-27)). lra. }
  rewrite Hf. f_equal. apply Z.min_r. change usize_max with (2 ^ 64 - 1)%Z. lia.
Qed.

Lemma ksel_sqrt : forall n : nat, (Z.of_nat n < 2 ^ 52)%Z -> ksel n = sample_size n.
Proof.
  intros n H. unfold ksel, sample_size, of_nat. rewrite usize_sqrt by lia.
  assert (E : Z.to_nat (Z.sqrt (Z.of_nat n)) = Nat.sqrt n).
  { rewrite <- (Nat2Z.id (Nat.sqrt n)). f_equal. apply Z.sqrt_unique.
    destruct (Nat.sqrt_spec n ltac:(lia)) as [L U]. lia. }
  rewrite E. lia.
Qed.
