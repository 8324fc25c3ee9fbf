(** * What is assumed of the environment, and an environment that satisfies it

    [env_ok E] states what the crate relies on in rand, core::slice, rayon, chrono and the
    file system.  Theorems that need any of it name [env_ok E] (or one of its fields) as a
    hypothesis.  [demo_env] is a concrete environment, proved to satisfy it; the examples
    run the model in it. *)
From Coq Require Import ZArith NArith List Bool Arith Lia Permutation Sorted String.
From Verif Require Import F64 F64Order Base Builders Types Filters Runner Observer Env ScatterSearch Codec.
Import ListNotations.

Definition le_snd (a b : point * f64) : Prop := total_le (snd a) (snd b) = true.

Record env_ok (E : env) : Prop := {
  (* random_range(lo..=hi): a value of the range; it panics unless lo <= hi and the width is finite *)
  eo_uniform : forall r lo hi x r', wf lo = true -> wf hi = true -> e_uniform E r lo hi = Some (x, r') ->
    wf x = true /\ fle lo x = true /\ fle x hi = true;
  eo_uniform_total : forall r lo hi, wf lo = true -> wf hi = true -> fle lo hi = true ->
    is_finite lo = true -> is_finite hi = true -> is_finite (fsub hi lo) = true ->
    exists x r', e_uniform E r lo hi = Some (x, r');
  (* random_range(-0.1..0.1) *)
  eo_perturb : forall r u r', e_perturb E r = (u, r') ->
    wf u = true /\ fle (fopp lit_0_1) u = true /\ flt u lit_0_1 = true;
  eo_shuffle : forall r l, Permutation (e_shuffle E r l) l;
  (* sort_unstable_by(total_cmp) *)
  eo_sort : forall l, Permutation (e_sort E l) l /\ StronglySorted le_snd (e_sort E l);
  (* select_nth_unstable_by(i, total_cmp) *)
  eo_select : forall i l, i < List.length l -> Permutation (e_select E i l) l /\
    forall j k a b, j <= i -> i <= k -> nth_error (e_select E i l) j = Some a ->
      nth_error (e_select E i l) k = Some b -> le_snd a b;
  eo_threads : 1 <= e_threads E;
  eo_timestamp : forall t, valid_utf8 (str_bytes (e_timestamp E t)) = true;
  eo_dir_order : forall t l, Permutation (e_dir_order E t l) l }.

(** ** A concrete environment *)
Definition le_sndb (a b : point * f64) : bool := total_le (snd a) (snd b).
Fixpoint ins (x : point * f64) (l : list (point * f64)) : list (point * f64) :=
  match l with [] => [x] | y :: r => if le_sndb x y then x :: l else y :: ins x r end.
Definition isort (l : list (point * f64)) : list (point * f64) := fold_right ins [] l.
(** picks lo, hi or a clamped point between, depending on the generator state *)
Definition demo_uniform (r : N) (lo hi : f64) : option (f64 * N) :=
  if fle lo hi && is_finite lo && is_finite hi && is_finite (fsub hi lo) then
    match fclamp (fadd lo (fmul (fsub hi lo) (fdiv (of_Z (Z.of_N (r mod 17))) (of_Z 16)))) lo hi with
    | Some x => Some ((if is_nan x then lo else if wf x then x else lo), (r * 5 + 3) mod 1024)%N
    | None => None
    end
  else None.
Definition demo_env (P : problem) (X : ext) : env :=
  mk_env P X (fun s => (s mod 1024)%N) (fun r => (r, (r * 5 + 3) mod 1024)%N)
    demo_uniform
    (fun r => ((if N.even r then lit 5 100 else fopp (lit 5 100)), (r * 5 + 3) mod 1024)%N)
    (fun r l => rev l) isort (fun i l => isort l)
    2 (fun ctx => SNode 2 SLeaf (SNode 1 SLeaf SLeaf)) (fun _ => 0)
    (fun t => of_Z (Z.of_nat t)) (fun _ => "2026-01-01T00:00:00+00:00"%string)
    (fun _ => IoOk) (fun _ l => l) (fun _ o => o) false.

Lemma ins_perm : forall x l, Permutation (ins x l) (x :: l).
Proof.
  induction l as [|y l IH]; simpl; auto. destruct (le_sndb x y); auto.
  etransitivity; [apply perm_skip; exact IH | apply perm_swap].
Qed.
Lemma isort_perm : forall l, Permutation (isort l) l.
Proof. induction l; simpl; auto. etransitivity; [apply ins_perm | auto]. Qed.
Lemma le_snd_trans : forall a b c, le_snd a b -> le_snd b c -> le_snd a c.
Proof. intros a b c. apply total_le_trans. Qed.
Lemma ins_sorted : forall x l, StronglySorted le_snd l -> StronglySorted le_snd (ins x l).
Proof.
  induction l as [|y l IH]; simpl; intro H; [repeat constructor|].
  apply StronglySorted_inv in H as [H1 H2]. destruct (le_sndb x y) eqn:Hxy.
  - constructor; [constructor; auto|]. constructor; [exact Hxy|].
    eapply Forall_impl; [|exact H2]. intros z Hz. eapply le_snd_trans; [exact Hxy|exact Hz].
  - constructor; [auto|]. apply Forall_forall. intros z Hz.
    apply (Permutation_in z (ins_perm x l)) in Hz. destruct Hz as [<-|Hz].
    + destruct (total_le_total (snd y) (snd x)) as [G|G]; [exact G|]. unfold le_sndb in Hxy. congruence.
    + rewrite Forall_forall in H2; auto.
Qed.
Lemma isort_sorted : forall l, StronglySorted le_snd (isort l).
Proof. induction l; simpl; [constructor|apply ins_sorted; auto]. Qed.
Lemma sorted_nth : forall l, StronglySorted le_snd l -> forall j k a b, j <= k ->
  nth_error l j = Some a -> nth_error l k = Some b -> le_snd a b.
Proof.
  induction l as [|x l IH]; intros H j k a b Hjk Ha Hb; [destruct j; discriminate|].
  apply StronglySorted_inv in H as [H1 H2]. rewrite Forall_forall in H2.
  destruct j as [|j], k as [|k]; simpl in *; try lia.
  - injection Ha as ->. injection Hb as ->. apply total_le_refl.
  - injection Ha as ->. apply H2. eapply nth_error_In; eauto.
  - eapply (IH H1 j k); eauto; lia.
Qed.

Theorem demo_env_ok : forall P X, env_ok (demo_env P X).
Proof.
  intros P X. constructor.
  - intros r lo hi x r' Hlo Hhi. cbn [demo_env e_uniform]. unfold demo_uniform.
    destruct (fle lo hi) eqn:Hle; [|discriminate].
    destruct (is_finite lo && is_finite hi && is_finite (fsub hi lo)) eqn:Hf;
      [|simpl; rewrite Hf; discriminate].
    simpl. rewrite Hf. set (v := fadd lo _). destruct (fclamp v lo hi) as [y|] eqn:Hc; [|discriminate].
    intro H; injection H as <- <-.
    assert (Hll : fle lo lo = true) by (apply fle_refl; eapply fle_nan_l; eauto).
    destruct (is_nan y) eqn:Hn; [auto|]. destruct (wf y) eqn:Hw; [|auto]. split; auto.
    destruct (is_nan v) eqn:Hv.
    + apply fclamp_nan in Hc; auto. congruence.
    + apply (fclamp_inside _ _ _ _ Hc Hv).
  - intros r lo hi _ _ Hle H1 H2 H3. cbn [demo_env e_uniform]. unfold demo_uniform. rewrite Hle, H1, H2, H3. simpl.
    unfold fclamp. rewrite Hle. eauto.
  - intros r u r' H. cbn [demo_env e_perturb] in H. injection H as <- <-. destruct (N.even r); vm_compute; auto.
  - intros. apply Permutation_sym, Permutation_rev.
  - intros l. split; [apply isort_perm|apply isort_sorted].
  - intros i l Hi. split; [apply isort_perm|]. intros j k a b Hj Hk. apply sorted_nth; [apply isort_sorted|lia].
  - simpl. lia.
  - reflexivity.
  - intros. reflexivity.
Qed.
