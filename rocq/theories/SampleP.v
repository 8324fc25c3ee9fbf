(** * Arithmetic of sample and trial points: nothing leaves the box *)
From Coq Require Import ZArith NArith Reals List Bool Arith Lia Lra Permutation Floats.SpecFloat.
From Flocq Require Import Core BinarySingleNaN.
From Verif Require Import F64 F64Order F64Alg F64Real Base Builders Types Runner Observer Env EnvSpec
  ScatterSearch Spec SpecStage1 DistP GreedyP.
Import ListNotations.

(** ** Rounding *)
Lemma rv_f1 : rv f1 = 1%R.
Proof.
  unfold rv. change (to_sf f1) with (S754_finite false 4503599627370496 (-52)).
  unfold SF2R, F2R. cbn [cond_Zopp Fnum Fexp].
  change 4503599627370496%Z with (2^52)%Z.
  replace (IZR (2 ^ 52)) with (bpow radix2 52) by (rewrite <- IZR_Zpower by lia; reflexivity).
  rewrite <- bpow_plus. reflexivity.
Qed.
Lemma fmul_small_finite : forall x c, wf x = true -> wf c = true -> is_finite x = true -> is_finite c = true ->
  fle (fopp f1) c = true -> fle c f1 = true -> is_finite (fmul x c) = true.
Proof.
  intros x c Hx Hc Fx Fc L U.
  apply fle_rv in L; auto. apply fle_rv in U; auto. rewrite rv_f1 in U.
  assert (Hopp : rv (fopp f1) = (-1)%R).
  { change (fopp f1) with (Fin true 4503599627370496 (-52)). unfold rv. cbn [to_sf].
    unfold SF2R, F2R. cbn [cond_Zopp Fnum Fexp].
    assert (H1 : (bpow radix2 52 * bpow radix2 (-52) = 1)%R) by (rewrite <- bpow_plus; reflexivity).
    replace (bpow radix2 52) with (4503599627370496)%R in H1
      by (rewrite <- IZR_Zpower by lia; apply f_equal; reflexivity).
    cbn [Z.opp]. change (IZR (-4503599627370496)) with (- 4503599627370496)%R. lra. }
  rewrite Hopp in L.
  unfold fmul. rewrite lift2_val by auto using finite_not_nan.
  change prec with 53%Z; change emax with 1024%Z.
  rewrite <- (toB_sf x Hx), <- (toB_sf c Hc), mul_equiv.
  pose proof (Bmult_correct 53 1024 _ _ mode_NE (toB x Hx) (toB c Hc)) as C.
  rewrite !toB_R in C. change (round_mode mode_NE) with ZnearestE in C.
  rewrite Rlt_bool_true in C.
  - destruct C as (_ & C2 & _). rewrite !toB_finite in C2. rewrite of_sf_finite. rewrite C2, Fx, Fc. reflexivity.
  - assert (Hb : (Rabs (rv x) < bpow radix2 1024)%R) by (rewrite <- (toB_R x Hx); apply abs_B2R_lt_emax).
    eapply Rle_lt_trans; [|exact Hb].
    rewrite <- (rnd_id x Hx) at 2.
    rewrite <- !round_NE_abs by typeclasses eauto. apply rnd_le.
    rewrite Rabs_mult. pose proof (Rabs_pos (rv x)).
    assert (Rabs (rv c) <= 1)%R by (apply Rabs_le; lra). nra.
Qed.
Lemma fadd_not_nan_r : forall x t, is_finite t = true -> is_nan x = false -> wf x = true -> wf t = true ->
  is_nan (fadd x t) = false.
Proof.
  intros x t Ft Nx Hx Ht. destruct (is_finite x) eqn:Fx; [apply fadd_not_nan; auto using finite_not_nan|].
  destruct x; try discriminate. destruct t; try discriminate; reflexivity.
Qed.
Lemma inside_finite : forall lo hi x, is_finite lo = true -> is_finite hi = true ->
  inside (lo, hi) x -> is_finite x = true.
Proof.
  intros lo hi x Hl Hh [H1 H2]. cbn [fst snd] in *. destruct x as [s|[]|s|s m e]; auto;
    destruct lo as [?|?|?|[] ? ?], hi as [?|?|?|[] ? ?]; discriminate.
Qed.
Lemma linear_not_nan : forall a b alpha, wf a = true -> wf b = true -> is_finite a = true -> is_finite b = true ->
  In alpha directions -> is_nan (fadd (fmul a alpha) (fmul b (fsub f1 alpha))) = false /\
    wf (fadd (fmul a alpha) (fmul b (fsub f1 alpha))) = true.
Proof.
  intros a b alpha Wa Wb Fa Fb Hin.
  assert (H : wf alpha = true /\ is_finite alpha = true /\ wf (fsub f1 alpha) = true /\ is_finite (fsub f1 alpha) = true /\
              fle (fopp f1) (fsub f1 alpha) = true /\ fle (fsub f1 alpha) f1 = true).
  { simpl in Hin. destruct Hin as [<- | [<- | [<- | [<- | []]]]]; repeat split; vm_compute; reflexivity. }
  destruct H as (H1 & H2 & H3 & H4 & H5 & H6).
  split; [apply fadd_not_nan_r|apply fadd_wf]; auto using fmul_wf, fmul_finite_not_nan, fmul_small_finite.
Qed.
Lemma mid_not_nan : forall a b, wf a = true -> wf b = true -> is_finite a = true -> is_finite b = true ->
  is_nan (fdiv (fadd a b) f2) = false /\ wf (fdiv (fadd a b) f2) = true.
Proof.
  intros a b Wa Wb Fa Fb. split; [|apply fdiv_wf; auto using fadd_wf].
  destruct (is_finite (fadd a b)) eqn:F.
  - apply finite_not_nan. apply fdiv2_rv; auto using fadd_wf.
  - assert (N : is_nan (fadd a b) = false) by (apply fadd_not_nan; auto using finite_not_nan).
    destruct (fadd a b) as [?|[]|?|? ? ?]; try discriminate; reflexivity.
Qed.
Lemma shift_not_nan : forall x u w, wf x = true -> is_nan x = false -> wf u = true -> wf w = true ->
  is_finite w = true -> fle (fopp lit_0_1) u = true -> flt u lit_0_1 = true ->
  is_nan (fadd x (fmul u w)) = false /\ wf (fadd x (fmul u w)) = true.
Proof.
  intros x u w Wx Nx Wu Ww Fw L U. split; [|auto using fadd_wf, fmul_wf].
  assert (Fu : is_finite u = true).
  { eapply (inside_finite (fopp lit_0_1) lit_0_1); [reflexivity..|]. split; [exact L|]. apply flt_fle; auto. }
  apply fadd_not_nan_r; auto using fmul_wf.
  assert (Hc : fmul u w = fmul w u).
  { unfold fmul. rewrite !lift2_val by auto using finite_not_nan.
    change prec with 53%Z; change emax with 1024%Z. f_equal.
    destruct u as [?|?|?|? ? ?], w as [?|?|?|? ? ?]; try discriminate; cbn [to_sf]; unfold SFmul; rewrite xorb_comm; auto.
    rewrite Pos.mul_comm, Z.add_comm. reflexivity. }
  rewrite Hc. apply fmul_small_finite; auto.
  - eapply fle_trans; [|exact L]. vm_compute; reflexivity.
  - apply flt_fle. eapply flt_le_trans; [exact U|]. vm_compute; reflexivity.
Qed.

(** ** Random samples *)
Lemma sampled_inside : forall E b p, env_ok E -> Forall finite_bound b ->
  sampled E (map fst b) (map snd b) p -> in_box b p /\ canonical p.
Proof.
  intros E b p HE Hb [rng H]. revert rng p H. induction Hb as [|[lo hi] b (W1 & W2 & F1 & F2 & F3) Hb IH]; intros rng p H.
  - simpl in H. injection H as <-. split; constructor.
  - cbn [map fst snd sample_point] in *. destruct (e_uniform E rng lo hi) as [[x r1]|] eqn:Hu; [|discriminate].
    destruct (sample_point E r1 _ _) as [xs|] eqn:Hs; [|discriminate]. injection H as <-.
    destruct (eo_uniform E HE _ _ _ _ _ W1 W2 Hu) as (Wx & L & U).
    destruct (IH _ _ Hs) as [G1 G2]. split; constructor; auto. split; auto.
Qed.
Lemma sample_total : forall E b, env_ok E -> Forall finite_bound b -> Forall (fun lh => fle (fst lh) (snd lh) = true) b ->
  forall rng, exists p, sample_point E rng (map fst b) (map snd b) = Some p.
Proof.
  intros E b HE Hb Hle. induction Hb as [|[lo hi] b (W1 & W2 & F1 & F2 & F3) Hb IH]; intro rng; [eexists; reflexivity|].
  inversion Hle as [|? ? Hl Hr]; subst. cbn [map fst snd sample_point] in *.
  destruct (eo_uniform_total E HE rng lo hi W1 W2 Hl F1 F2 F3) as (x & r1 & ->).
  destruct (IH Hr r1) as [xs ->]. eauto.
Qed.

(** ** Trial points *)
Lemma apply_bounds_box : forall b p q, apply_bounds (map fst b) (map snd b) p = Some q -> length p = length b ->
  in_box_or_nan b q /\ (Forall (fun x => is_nan x = false) p -> in_box b q) /\
  (canonical p -> canonical (map fst b) -> canonical (map snd b) -> canonical q).
Proof.
  induction b as [|[lo hi] b IH]; intros [|x p] q H Hl; try discriminate.
  - injection H as <-. repeat split; constructor.
  - cbn [map fst snd apply_bounds] in H. destruct (fclamp x lo hi) as [y|] eqn:Hc; [|discriminate].
    destruct (apply_bounds (map fst b) (map snd b) p) as [ys|] eqn:Ha; [|discriminate]. injection H as <-.
    injection Hl as Hl. destruct (IH _ _ Ha Hl) as (G1 & G2 & G3). split; [|split].
    + constructor; auto. destruct (is_nan x) eqn:Hx.
      * left. rewrite (fclamp_nan _ _ _ _ Hc Hx). auto.
      * right. apply (fclamp_inside _ _ _ _ Hc Hx).
    + intro Hn. inversion Hn as [|? ? Hx Hp]; subst. constructor; [|apply G2; auto].
      apply (fclamp_inside _ _ _ _ Hc Hx).
    + intros Hp Hlo Hhi. cbn [map fst snd] in *. inversion Hp; inversion Hlo; inversion Hhi; subst.
      constructor; [|apply G3; auto]. unfold fclamp in Hc. destruct (fle lo hi); [|discriminate].
      injection Hc as <-. destruct (flt x lo), (flt hi _); auto.
Qed.
Lemma apply_bounds_total : forall b p, Forall (fun lh => fle (fst lh) (snd lh) = true) b -> length p = length b ->
  exists q, apply_bounds (map fst b) (map snd b) p = Some q.
Proof.
  induction b as [|[lo hi] b IH]; intros [|x p] Hb Hl; try discriminate; [eexists; reflexivity|].
  inversion Hb as [|? ? H1 H2]; subst. cbn [map fst snd apply_bounds] in *. injection Hl as Hl.
  destruct (IH p H2 Hl) as [q ->]. unfold fclamp. rewrite H1. eauto.
Qed.
Lemma perturb_spec : forall E b rng p, length p = length b ->
  exists q r, perturb E rng (map fst b) (map snd b) p = Some (q, r) /\ length q = length b /\
   (env_ok E -> Forall finite_bound b -> Forall (fun x => is_nan x = false) p -> canonical p ->
    Forall (fun x => is_nan x = false) q /\ canonical q).
Proof.
  intros E. induction b as [|[lo hi] b IH]; intros rng [|x p] Hl; try discriminate.
  - exists [], rng. repeat split; constructor.
  - injection Hl as Hl. cbn [map fst snd perturb]. destruct (e_perturb E rng) as [u r1] eqn:Hu.
    destruct (IH r1 p Hl) as (q & r & -> & Hq & G). do 2 eexists. split; [reflexivity|].
    split; [simpl; lia|]. intros HE Hb Hn Hc. inversion Hb as [|? ? (W1 & W2 & F1 & F2 & F3) Hb']; subst.
    inversion Hn; inversion Hc; subst. destruct G as [G1 G2]; auto.
    destruct (eo_perturb E HE _ _ _ Hu) as (Wu & Lu & Uu). simpl in *.
    destruct (shift_not_nan x u (fsub hi lo)) as [S1 S2]; auto using fsub_wf.
    split; constructor; auto.
Qed.
Lemma map2_length : forall A B C (f : A -> B -> C) l r, length l = length r -> length (map2 f l r) = length l.
Proof. induction l as [|x l IH]; intros [|y r] H; simpl in *; auto; try discriminate. Qed.
Lemma linear_point : forall a b alpha, length a = length b -> canonical a -> canonical b -> finite_point a -> finite_point b ->
  In alpha directions -> let p := padd (pscale alpha a) (pscale (fsub f1 alpha) b) in
  Forall (fun x => is_nan x = false) p /\ canonical p.
Proof.
  intros a. induction a as [|x a IH]; intros [|y b] alpha Hl Ca Cb Fa Fb Hin; try discriminate; [split; constructor|].
  injection Hl as Hl. inversion Ca; inversion Cb; inversion Fa; inversion Fb; subst.
  destruct (IH b alpha) as [G1 G2]; auto. destruct (linear_not_nan x y alpha) as [L1 L2]; auto.
  split; constructor; auto.
Qed.
Lemma mid_point : forall a b, length a = length b -> canonical a -> canonical b -> finite_point a -> finite_point b ->
  Forall (fun x => is_nan x = false) (pdiv (padd a b) f2) /\ canonical (pdiv (padd a b) f2).
Proof.
  intros a. induction a as [|x a IH]; intros [|y b] Hl Ca Cb Fa Fb; try discriminate; [split; constructor|].
  injection Hl as Hl. inversion Ca; inversion Cb; inversion Fa; inversion Fb; subst.
  destruct (IH b) as [G1 G2]; auto. destruct (mid_not_nan x y) as [L1 L2]; auto.
  split; constructor; auto.
Qed.
Lemma in_box_length : forall b p, in_box b p -> length p = length b.
Proof. induction 1; simpl; auto. Qed.
Lemma in_box_finite : forall b p, Forall finite_bound b -> in_box b p -> finite_point p.
Proof.
  intros b p Hb H. induction H as [|[lo hi] x b p Hx H IH]; [constructor|]. inversion Hb as [|? ? (W1 & W2 & F1 & F2 & F3) Hb']; subst.
  constructor; [|apply IH; auto]. eapply (inside_finite lo hi); eauto.
Qed.
Lemma bounds_canonical : forall b, Forall finite_bound b -> canonical (map fst b) /\ canonical (map snd b).
Proof. induction 1 as [|[lo hi] b (W1 & W2 & _) Hb [IH1 IH2]]; split; constructor; auto. Qed.
Lemma combine_points_spec : forall E b a c seed, length a = length b -> length c = length b ->
  (forall l, combine_points E (map fst b) (map snd b) a c seed = Some l ->
     length l = 6 /\ Forall (in_box_or_nan b) l /\
     (env_ok E -> Forall finite_bound b -> in_box b a -> in_box b c -> canonical a -> canonical c ->
        Forall (fun p => in_box b p /\ canonical p) l)) /\
  (Forall (fun lh => fle (fst lh) (snd lh) = true) b ->
     exists l, combine_points E (map fst b) (map snd b) a c seed = Some l).
Proof.
  intros E b a c seed La Lc. unfold combine_points.
  assert (Lm : length (pdiv (padd a c) f2) = length b) by (unfold pdiv, padd; rewrite map_length, map2_length; lia).
  destruct (perturb_spec E b (e_seed_from E seed) _ Lm) as (p1 & r1 & -> & L1 & G1).
  destruct (perturb_spec E b r1 _ Lm) as (p2 & r2 & -> & L2 & G2).
  assert (Ll : forall alpha, length (padd (pscale alpha a) (pscale (fsub f1 alpha) c)) = length b).
  { intro. unfold padd, pscale. rewrite map2_length; rewrite !map_length; lia. }
  set (raw := map (fun alpha => padd (pscale alpha a) (pscale (fsub f1 alpha) c)) directions ++ [p1; p2]).
  replace (map (fun alpha => apply_bounds (map fst b) (map snd b) (padd (pscale alpha a) (pscale (fsub f1 alpha) c))) directions
           ++ [apply_bounds (map fst b) (map snd b) p1; apply_bounds (map fst b) (map snd b) p2])
    with (map (apply_bounds (map fst b) (map snd b)) raw) by (unfold raw; rewrite map_app, map_map; reflexivity).
  assert (Hraw : Forall (fun p => length p = length b) raw).
  { unfold raw. apply Forall_app. split; [|repeat constructor; auto]. apply Forall_forall. intros p Hp.
    apply in_map_iff in Hp as (alpha & <- & _). apply Ll. }
  rewrite Forall_forall in Hraw. split.
  - intros l H. apply all_some_spec in H.
    assert (Hin : forall q, In q l -> exists p, In p raw /\ apply_bounds (map fst b) (map snd b) p = Some q).
    { intros q Hq. apply (in_map Some) in Hq. rewrite <- H in Hq. apply in_map_iff in Hq as (p & Hp & Hin). eauto. }
    split; [|split].
    + apply (f_equal (@length _)) in H. rewrite !map_length in H. simpl in H. lia.
    + apply Forall_forall. intros q Hq. destruct (Hin q Hq) as (p & Hp & Ha).
      apply (apply_bounds_box _ _ _ Ha). auto.
    + intros HE Hb Ba Bc Ca Cc. pose proof (in_box_finite _ _ Hb Ba) as Fa. pose proof (in_box_finite _ _ Hb Bc) as Fc.
      assert (Lac : length a = length c) by lia.
      destruct (mid_point a c Lac Ca Cc Fa Fc) as [M1 M2].
      destruct (bounds_canonical b Hb) as [B1 B2].
      assert (Hok : Forall (fun p => Forall (fun x => is_nan x = false) p /\ canonical p) raw).
      { unfold raw. apply Forall_app. split; [|repeat (apply Forall_cons; [auto|]); constructor].
        apply Forall_forall. intros p Hp. apply in_map_iff in Hp as (alpha & <- & Hd). apply linear_point; auto. }
      rewrite Forall_forall in Hok. apply Forall_forall. intros q Hq. destruct (Hin q Hq) as (p & Hp & Ha).
      destruct (apply_bounds_box _ _ _ Ha (Hraw _ Hp)) as (_ & G3 & G4). destruct (Hok p Hp) as [N C]. split; auto.
  - intros Hle. assert (Hex : forall raw', (forall p, In p raw' -> length p = length b) ->
      exists l, all_some (map (apply_bounds (map fst b) (map snd b)) raw') = Some l).
    { induction raw' as [|p raw' IH]; intro Hr; [eexists; reflexivity|]. cbn [map all_some].
      destruct (apply_bounds_total b p Hle) as [q ->]; [apply Hr; left; auto|].
      destruct IH as [l ->]; [intros; apply Hr; right; auto|]. eauto. }
    apply Hex. auto.
Qed.
