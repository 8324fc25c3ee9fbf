(** * Repeated points and leaders that are not finite (C24, C26, C64) *)
From Coq Require Import ZArith NArith List Bool Arith Lia String.
From Verif Require Import F64 F64Order F64Alg F64Real Base Builders Types Filters Runner Observer Env EnvSpec
  ScatterSearch Codec Checkpoint Oqnlp Spec Wp Actions RunP SetP LeaderP Demo.
Import ListNotations.

Lemma c24_separated : forall d set, flt f0 (fmul d d) = true -> pairwise_separated d set ->
  (forall x, In x set -> finite_point (ls_point x)) -> no_repeats set.
Proof.
  intros d set Hd Hs Hf i j x y Hij Hx Hy He. pose proof (Hs i j x y Hij Hx Hy) as H. unfold separated in H.
  rewrite He, dist2_diag in H; [congruence|]. apply Hf. eapply nth_error_In; eauto.
Qed.
Lemma c24_run : forall E s r s' set, run E s = (r, s') ->
  (forall x, o_set (s_o s) = Some x -> pairwise_separated (p_distance_factor (o_params (s_o s))) x) ->
  checkpoints_hold (fun cp => forall x, cp_solution_set cp = Some x ->
    pairwise_separated (p_distance_factor (cp_params cp)) x) s ->
  r = Ok set \/ o_set (s_o s') = Some set \/ stored_during s s' set ->
  flt f0 (fmul (p_distance_factor (o_params (s_o s'))) (p_distance_factor (o_params (s_o s')))) = true ->
  (forall x, In x set -> finite_point (ls_point x)) -> no_repeats set.
Proof. intros. eapply c24_separated; eauto. eapply c23_run; eauto. Qed.

(** a NaN result never changes a solution set that begins with a number *)
Lemma fsub_nan_l : forall a b, is_nan a = true -> is_nan (fsub a b) = true.
Proof. intros. apply lift2_nan_l; auto. Qed.
Lemma fabs_nan : forall a, is_nan (fabs a) = is_nan a.
Proof. intros []; reflexivity. Qed.
Lemma c26_later_nan : forall E x s r s', process_local_solution E x s = (r, s') ->
  is_nan (ls_obj x) = true -> o_set (s_o s) <> None ->
  o_set (s_o s') = o_set (s_o s) /\ mf_threshold (o_merit (s_o s')) = mf_threshold (o_merit (s_o s)).
Proof.
  intros E x s r s' Hp Hx Hs. pose proof (pls_cases E x s) as Hc. rewrite Hp in Hc. simpl in Hc.
  destruct Hc as [(-> & _ & Hpan)|[(Hex & Hwb & -> & _)|[_ [(Hn & -> & _)|
    (cur & rest & Hset & [(Hb & _ & ob & ->)|[(Hnb & Hd & Hu & _ & ob & ->)|(Hnb & _ & _ & ->)]])]]]];
  cbn [changed noted s_o s_w o_set o_merit set_o_set set_o_df set_o_merit set_o_observer]; auto; try congruence.
  - apply flt_nan_l in Hb. congruence.
  - apply fle_nan_l in Hd. rewrite fabs_nan, fsub_nan_l in Hd; auto. discriminate.
Qed.
Lemma c26_history : forall E sols s s', history E sols s s' -> o_set (s_o s) <> None ->
  Forall (fun x => is_nan (ls_obj x) = true) sols ->
  o_set (s_o s') = o_set (s_o s) /\ mf_threshold (o_merit (s_o s')) = mf_threshold (o_merit (s_o s)).
Proof.
  intros E sols s s' H; induction H as [s|x sols b s s1 s' Hp Hh IH]; intros Hs Hf; auto.
  pose proof (Forall_inv Hf) as Hx. apply Forall_inv_tail in Hf.
  destruct (c26_later_nan E x s _ s1 Hp Hx Hs) as [A B]. destruct IH as [C D]; auto; [congruence|].
  split; congruence.
Qed.

(** with a zero relative tolerance a +infinity leader is replaced *)
Lemma c64_step : forall E s b s' x rest y, process_local_solution E y s = (Ok b, s') ->
  o_set (s_o s) = Some (x :: rest) -> ls_obj x = pinf -> is_finite (ls_obj y) = true ->
  not_excluded E (s_o s) y ->
  (exists z, o_rel_tol (s_o s) = Zero z) -> is_finite (o_abs_tol (s_o s)) = true -> o_set (s_o s') = Some [y].
Proof.
  intros E s b s' x rest y Hp Hs Hx Hy Hex [z Hz] Ha. apply admissible_iff in Hex.
  assert (Hlt : flt (ls_obj y) (fsub (ls_obj x) (tol_of (o_abs_tol (s_o s)) (o_rel_tol (s_o s)) (ls_obj y) (ls_obj x))) = true).
  { rewrite Hx, Hz. unfold tol_of.
    replace (fmax (fabs (ls_obj y)) (fabs pinf)) with pinf by (destruct (ls_obj y); try discriminate; reflexivity).
    replace (fmul (Zero z) pinf) with (NaN true) by (destruct z; reflexivity).
    destruct (o_abs_tol (s_o s)); try discriminate; destruct (ls_obj y) as [|?|?|[] ? ?]; try discriminate; reflexivity. }
  pose proof (pls_cases E y s) as Hc. rewrite Hp in Hc. simpl in Hc.
  destruct Hc as [(-> & G & _)|[(He & Hwb & -> & _)|[_ [(Hn & -> & _)|
    (cur & r0 & Hset & [(Hb & _ & ob & ->)|[(Hnb & _)|(Hnb & _)]])]]]]; try congruence.
  - exfalso. destruct Hex as [?|?]; congruence.
  - reflexivity.
Qed.
