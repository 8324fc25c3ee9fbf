(** * Expanding the reference set of a checkpoint *)
From Coq Require Import ZArith NArith List Bool Arith Lia Permutation.
From Verif Require Import F64 F64Order F64Alg F64Real Base Builders Types Filters Runner Observer Env EnvSpec
  ScatterSearch Codec Checkpoint Oqnlp Spec SpecStage1 DistP GreedyP SampleP Stage1P Stage1Q ResumeP.
Import ListNotations.

Lemma expand_spec : forall E refs a b s out s', env_ok E -> Forall finite_bound (pb_bounds (e_problem E)) ->
  a < b -> expand_reference_set E refs a b s = (Ok out, s') ->
  exists added, out = refs ++ added /\ length out = Nat.max b (length refs) /\
    Forall (fun p => in_box (pb_bounds (e_problem E)) p /\ feasible (e_problem E) p) added.
Proof.
  intros E refs a b s out s' HE Hfin Hab H. unfold expand_reference_set in H.
  destruct (b <=? a) eqn:Hb; [apply Nat.leb_le in Hb; lia|].
  unfold bind at 1, the_oqnlp, bind at 1, get, ret at 1, tick, bind at 1 2 in H. cbn [s_o s_w] in H.
  unfold unwrap in H. destruct (add_u64 E (o_seed (s_o s)) (N.of_nat (length refs))) as [seed|]; [|discriminate].
  unfold ret at 1 in H.
  match type of H with context [ss_new ?x ?y ?z] => destruct (ss_new x y z) as [s0|e|] eqn:Hn end; try discriminate.
  assert (Hbu : built E (with_pop_seed (o_params (s_o s)) b seed) s0) by (eapply built_new; eauto).
  destruct (built_view _ _ _ Hbu) as (Ep & _ & _ & Elo & Ehi & _ & _).
  unfold bind, run_ss in H.
  destruct (div_spec E refs (pb_constraints (e_problem E)) (ss_set_parallel (o_parallel (s_o s)) s0))
    as (rng & l & r & Hd & Hs & Hdv & _). rewrite Hd in H.
  unfold emit, modify, bind, ret, fail, panic in H. destruct r as [final|e|]; try discriminate. injection H as <- _.
  inversion Hdv as [f left cands Hch Hlen Hpop Hne| |]; subst. cbn [ss_set_parallel ss_params ss_lower ss_upper] in *.
  destruct (chosen_prefix _ _ _ _ _ Hch) as [added ->]. exists added. split; [reflexivity|]. split.
  - rewrite Hlen, Ep. reflexivity.
  - apply Forall_forall. intros p Hp. apply chosen_perm in Hch.
    assert (Hin : In p cands).
    { assert (P : Permutation (refs ++ (added ++ left)) (refs ++ cands)) by (rewrite app_assoc; exact Hch).
      apply Permutation_app_inv_l in P. eapply Permutation_in; [exact P|]. apply in_or_app; auto. }
    unfold cands in Hin. apply filter_In in Hin as [Hin Hf]. rewrite Forall_forall in Hs. specialize (Hs p Hin).
    rewrite Elo, Ehi in Hs. split; [eapply sampled_inside; eauto|]. apply feasible_b; auto.
Qed.
Lemma modified_refs : forall E np s s1, env_ok E -> Forall finite_bound (pb_bounds (e_problem E)) ->
  resume_with_modified_params E np s = (Ok true, s1) ->
  exists c cp added, o_cp (s_o s) = Some c /\
    fst (load_latest E c (snd (checkpoint_exists E c (w_disk (s_w s))))) = Ok cp /\
    o_ref (s_o s1) = Some (cp_reference_set cp ++ added) /\
    (p_population np <= p_population (cp_params cp) -> added = []) /\
    (p_population (cp_params cp) < p_population np ->
       length (cp_reference_set cp ++ added) = Nat.max (p_population np) (length (cp_reference_set cp))) /\
    Forall (fun p => in_box (pb_bounds (e_problem E)) p /\ feasible (e_problem E) p) added.
Proof.
  intros E np s s1 HE Hfin H. unfold resume_with_modified_params in H. unfold bind at 1 in H. unfold the_oqnlp, bind, get, ret in H.
  destruct (o_cp (s_o s)) as [c|] eqn:Hc; [|discriminate]. exists c.
  destruct (on_disk (checkpoint_exists E c) s) as [[ex|e|] sa] eqn:H1; try discriminate.
  destruct ex; [|discriminate].
  destruct (on_disk (load_latest E c) sa) as [[cp|e|] sb] eqn:H2; try discriminate.
  assert (X2 : w_disk (s_w sa) = snd (checkpoint_exists E c (w_disk (s_w s)))).
  { unfold on_disk in H1. destruct (checkpoint_exists E c (w_disk (s_w s))) as [[x|x|] d]; try discriminate.
    injection H1; intros; subst; reflexivity. }
  assert (X3 : fst (load_latest E c (w_disk (s_w sa))) = Ok cp).
  { unfold on_disk in H2. destruct (load_latest E c (w_disk (s_w sa))) as [[x|x|] d]; try discriminate.
    injection H2; intros; subst; reflexivity. }
  rewrite X2 in X3. cbv zeta in H.
  destruct (p_population (cp_params cp) <? p_population np) eqn:Hp.
  - apply Nat.ltb_lt in Hp.
    destruct (expand_reference_set E (cp_reference_set cp) (p_population (cp_params cp)) (p_population np) sb) as [rr sc] eqn:He.
    destruct rr as [refs|e|]; try discriminate.
    destruct (expand_spec E _ _ _ _ _ _ HE Hfin Hp He) as (added & -> & Hlen & Hall).
    exists cp, added. unfold restore_from_checkpoint, upd, modify in H. cbn in H. injection H as <-.
    split; [auto|]. split; [auto|]. split; [reflexivity|]. split; [lia|]. auto.
  - apply Nat.ltb_ge in Hp. exists cp, []. rewrite app_nil_r.
    unfold restore_from_checkpoint, upd, modify in H. cbn in H. injection H as <-.
    split; [auto|]. split; [auto|]. split; [reflexivity|]. split; [auto|]. split; [lia|constructor].
Qed.
