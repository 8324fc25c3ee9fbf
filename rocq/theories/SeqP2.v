(** * Sequential Stage 2: the whole loop (C40, C52, C54, C67) *)
From Coq Require Import ZArith NArith List Bool Arith Lia String Permutation.
From Verif Require Import F64 Base Builders Types Filters Runner Observer Env EnvSpec
  ScatterSearch Codec Checkpoint Oqnlp Spec SpecStage2 SpecObserver SolverP Wp Actions RunP SetP FrameP EmitsP HoareP SeqP.
Import ListNotations.

Section Loop.
Context (E : env) (Hcb : callbacks_keep_settings E).
Context (fr : option nat * option cp_config * params * (solver_type * solver_config * option f64 * option nat * bool)).
Notation q := (fst (fst (fst fr))).
Notation c := (snd (fst (fst fr))).
(** how a record ends: after a whole iteration, with the target reached, or cut by a failure *)
Inductive ending := Whole | Hit | Cut.
(** the record of sequential iterations, with their indices; all latest first *)
Inductive shape : list nat -> ending -> list event -> Prop :=
| ShNil : shape [] Whole []
| ShHead : forall is e l, header e -> shape is Whole l -> shape is Whole (e :: l)
| ShIter : forall i is o mid tail l, frame o = fr -> Forall quiet mid -> finished E o i mid -> whole_tail q c i tail ->
    shape is Whole l -> shape (i :: is) Whole (tail ++ mid ++ EvIteration i :: l)
| ShHit : forall i is o mid l, frame o = fr -> Forall quiet mid -> finished E o i mid ->
    shape is Whole l -> shape (i :: is) Hit (mid ++ EvIteration i :: l)
| ShCut : forall i is mid tail l, Forall quiet mid -> part_tail (exists o, frame o = fr /\ finished E o i mid) q c i tail ->
    shape is Whole l -> shape (i :: is) Cut (tail ++ mid ++ EvIteration i :: l).
Context (t0 : list event) (it0 : nat).
Definition at_shape (is : list nat) (e : ending) (s : st) : Prop :=
  fi (s_o s) = (fr, hd it0 is) /\ exists l, trace s = l ++ t0 /\ shape is e l.
(** the state after some of the candidates [ids] *)
Definition gone (is ids : list nat) (s : st) : Prop :=
  frame (s_o s) = fr /\ exists k e l, trace s = l ++ t0 /\ shape (rev (firstn k ids) ++ is) e l.
Lemma at_gone : forall is ids e s, at_shape is e s -> gone is ids s.
Proof. intros is ids e s [H1 (l & H2 & H3)]. split; [unfold fi in H1; congruence|]. exists 0, e, l. auto. Qed.
Lemma gone_more : forall is i ids s, gone (i :: is) ids s -> gone is (i :: ids) s.
Proof.
  intros is i ids s [H1 (k & e & l & H2 & H3)]. split; [auto|]. exists (S k), e, l. split; [auto|]. simpl. rewrite <- app_assoc. exact H3.
Qed.
Lemma gone_app : forall a is b s, gone (rev a ++ is) b s -> gone is (a ++ b) s.
Proof.
  induction a as [|x a IH]; intros is b s H; [exact H|]. simpl in *. apply gone_more, IH. rewrite <- app_assoc in H. exact H.
Qed.
Lemma gone_left : forall a is b s, gone is a s -> gone is (a ++ b) s.
Proof.
  intros a is b s [H1 (k & e & l & H2 & H3)]. split; [auto|]. exists (Nat.min k (List.length a)), e, l. split; [auto|].
  rewrite firstn_app. replace (Nat.min k (List.length a) - List.length a) with 0 by lia. simpl. rewrite app_nil_r.
  replace (firstn (Nat.min k (List.length a)) a) with (firstn k a); [exact H3|].
  destruct (Nat.le_ge_cases k (List.length a)); [rewrite Nat.min_l; auto|].
  rewrite Nat.min_r, firstn_all, firstn_all2; auto.
Qed.
(** when the sequential loop stops early *)
Definition stopped (s : st) : Prop :=
  target_reached E (s_o s) = Some true \/
  exists m v l, o_max_time (s_o s) = Some m /\ trace s = EvClock v :: l ++ t0 /\ fgt v m = true.
Definition ends_at (is ids : list nat) (s : st) : Prop :=
  exists k e, e <> Cut /\ at_shape (rev (firstn k ids) ++ is) e s /\
    (e = Hit -> target_reached E (s_o s) = Some true) /\ (k < List.length ids -> stopped s).
Lemma ends_app : forall a is b s, ends_at (rev a ++ is) b s -> ends_at is (a ++ b) s.
Proof.
  intros a is b s (k & e & H1 & H2 & H3 & H4). exists (List.length a + k), e. split; [auto|].
  rewrite firstn_app_2, rev_app_distr, <- app_assoc. split; [auto|]. split; [auto|].
  rewrite app_length. intro. apply H4. lia.
Qed.
(** one batch; the result says nothing about the target unless a candidate reached it *)
Lemma batch_seq : forall start objs b is u, (forall i p, In (i, p) b -> start <= i) ->
  spec (gone is (map fst b)) (at_shape is Whole) (process_batch_sequential E start true objs b u)
    (fun _ s => exists k e, e <> Cut /\ at_shape (rev (firstn k (map fst b)) ++ is) e s /\
       (e = Hit -> target_reached E (s_o s) = Some true) /\ (k < List.length b -> target_reached E (s_o s) = Some true)).
Proof.
  intros start objs b. induction b as [|[i p] b IH]; intros is u Hb.
  - apply sp_ret. intros s H. exists 0, Whole. split; [discriminate|]. split; [exact H|]. split; [discriminate|simpl; lia].
  - simpl. assert (Hi : (i <? start) = false) by (apply Nat.ltb_ge; eapply Hb; left; reflexivity). rewrite Hi. simpl.
    intros s [Hs (l & Ht & Hl)].
    pose proof (one_seq E Hcb objs i u p fr (trace s) s (conj (f_equal fst Hs) eq_refl)) as G.
    unfold bind. destruct (process_one_seq E objs i p u s) as [[[u' stop]|e|] s1].
    + destruct G as (G1 & o & mid & tail & G2 & G3 & G4 & G5 & G6). simpl in G6. destruct stop.
      * simpl. destruct G6 as [-> G6]. exists 1, Hit. split; [discriminate|]. split; [|auto].
        split; [exact G1|]. exists (mid ++ EvIteration i :: l). split; [rewrite G3, Ht; simpl; rewrite <- app_assoc; reflexivity|].
        simpl. eapply ShHit; eauto.
      * assert (A : at_shape (i :: is) Whole s1).
        { split; [exact G1|]. exists (tail ++ mid ++ EvIteration i :: l). split; [rewrite G3, Ht, <- !app_assoc; reflexivity|]. eapply ShIter; eauto. }
        pose proof (IH (i :: is) u' (fun j x H => Hb j x (or_intror H)) s1 A) as B.
        destruct (process_batch_sequential E start true objs b u' s1) as [[u2|e|] s2].
        -- destruct B as (k & e & B1 & B2 & B3 & B4). exists (S k), e. split; [auto|]. split; [simpl; rewrite <- app_assoc; exact B2|].
           split; [auto|]. intro. apply B4. lia.
        -- apply gone_more, B.
        -- apply gone_more, B.
    + destruct G as [G1 [G2|(mid & tail & G2 & G3 & G4)]].
      * split; [auto|]. exists 0, Whole, l. split; [congruence|auto].
      * split; [auto|]. exists 1, Cut, (tail ++ mid ++ EvIteration i :: l). split; [rewrite G2, Ht, <- !app_assoc; reflexivity|]. simpl. apply ShCut; auto.
    + destruct G as [G1 [G2|(mid & tail & G2 & G3 & G4)]].
      * split; [auto|]. exists 0, Whole, l. split; [congruence|auto].
      * split; [auto|]. exists 1, Cut, (tail ++ mid ++ EvIteration i :: l). split; [rewrite G2, Ht, <- !app_assoc; reflexivity|]. simpl. apply ShCut; auto.
Qed.
Lemma resumed_irrelevant : forall start objs b u s, (forall i p, In (i, p) b -> start <= i) ->
  process_batch_sequential E start false objs b u s = process_batch_sequential E start true objs b u s.
Proof.
  intros start objs b. induction b as [|[i p] b IH]; intros u s Hb; [reflexivity|]. simpl.
  assert (Hi : (i <? start) = false) by (apply Nat.ltb_ge; eapply Hb; left; reflexivity). rewrite Hi. simpl.
  unfold bind. destruct (process_one_seq E objs i p u s) as [[[u' [|]]|e|] s1]; auto. apply IH. intros; eapply Hb; right; eauto.
Qed.
Lemma loop_seq : forall start resumed objs bs is u, (forall i p, In (i, p) (List.concat bs) -> start <= i) ->
  spec (gone is (map fst (List.concat bs))) (at_shape is Whole) (stage2_loop E 1 start resumed objs bs u)
    (fun _ s => ends_at is (map fst (List.concat bs)) s).
Proof.
  intros start resumed objs bs. induction bs as [|b bs IH]; intros is u Hb.
  - apply sp_ret. intros s H. exists 0, Whole. split; [discriminate|]. split; [exact H|]. split; [discriminate|simpl; lia].
  - simpl stage2_loop. simpl List.concat. rewrite map_app.
    eapply sp_bind; [apply sp_oqnlp|intro o; cbv beta].
    apply sp_bind with (Q := fun timeout s => at_shape is Whole s /\ (timeout = true -> stopped s)).
    { intros s [[Hs (l & Ht & Hl)] ->]. destruct (o_max_time (s_o s)) as [m|] eqn:Hm; simpl.
      - split; [|intro; right; exists m, (e_clock E (w_tick (s_w s))), l; rewrite <- Ht; auto].
        split; [exact Hs|]. exists (EvClock (e_clock E (w_tick (s_w s))) :: l). split; [|apply ShHead; [exact I|auto]].
        unfold trace in *. simpl. rewrite Ht. reflexivity.
      - split; [split; [auto|exists l; auto]|discriminate]. }
    intros [|]; cbv beta.
    { apply sp_ret. intros s [H1 H2]. exists 0, Whole. split; [discriminate|]. split; [exact H1|]. split; [discriminate|]. intros _. auto. }
    apply sp_bind with (Q := fun _ => at_shape is Whole).
    { intros s [[Hs (l & Ht & Hl)] _]. simpl. split; [exact Hs|]. exists (EvBatch :: l).
      split; [unfold trace in *; simpl; rewrite Ht; reflexivity|apply ShHead; [exact I|auto]]. }
    intros _. change (1 <? 1) with false. cbv iota.
    assert (Hb1 : forall i p, In (i, p) b -> start <= i) by (intros; eapply Hb; simpl; apply in_or_app; eauto).
    intros s Hs. unfold bind at 1.
    assert (Hr : process_batch_sequential E start resumed objs b u s = process_batch_sequential E start true objs b u s).
    { destruct resumed; [reflexivity|apply resumed_irrelevant; auto]. }
    rewrite Hr. pose proof (batch_seq start objs b is u Hb1 s Hs) as G.
    destruct (process_batch_sequential E start true objs b u s) as [[u'|e|] s1]; [|apply gone_left; exact G|apply gone_left; exact G].
    destruct G as (k & e & G1 & G2 & G3 & G4). unfold bind at 1. simpl. unfold bind.
    assert (Hlen : List.length b = List.length (map fst b)) by (rewrite map_length; reflexivity).
    destruct (target_reached E (s_o s1)) as [stop|] eqn:Hst; simpl.
    + destruct stop.
      * assert (A : ends_at is (map fst b ++ map fst (List.concat bs)) s1).
        { exists (Nat.min k (List.length b)), e. split; [auto|].
          assert (F : firstn (Nat.min k (List.length b)) (map fst b ++ map fst (List.concat bs)) = firstn k (map fst b)).
          { rewrite firstn_app, Hlen. replace (Nat.min k (List.length (map fst b)) - List.length (map fst b)) with 0 by lia. simpl. rewrite app_nil_r.
            destruct (Nat.le_ge_cases k (List.length (map fst b))); [rewrite Nat.min_l; auto|].
            rewrite Nat.min_r, firstn_all, firstn_all2; auto. }
          rewrite F. split; [auto|]. split; [auto|]. intros _. left. exact Hst. }
        exact A.
      * assert (He : e = Whole) by (destruct e; [reflexivity|discriminate (G3 eq_refl)|congruence]). subst e.
        assert (Hk : ~ k < List.length b) by (intro K; discriminate (G4 K)).
        rewrite firstn_all2 in G2 by lia.
        pose proof (IH (rev (map fst b) ++ is) u' (fun i p H => Hb i p (in_or_app _ _ _ (or_intror H))) s1 G2) as B.
        destruct (stage2_loop E 1 start resumed objs bs u' s1) as [[[]|e|] s2]; [apply ends_app, B|apply gone_app, B|apply gone_app, B].
    + apply gone_left. destruct G2 as [H1 (l & H2 & H3)]. split; [unfold fi in H1; congruence|]. exists k, e, l. auto.
Qed.
End Loop.
