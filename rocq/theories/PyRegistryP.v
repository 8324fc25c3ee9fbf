(** * Proofs about the constraint registry *)
From Coq Require Import List Bool Arith Lia.
From Verif Require Import F64 Base PyRegistry SpecPy.
Import ListNotations.

Lemma run_snoc h o : py_run (h ++ [o]) py_start = py_step o (py_run h py_start).
Proof. unfold py_run. rewrite fold_left_app. reflexivity. Qed.
Lemma track_snoc h o : track (h ++ [o]) = track_step o (track h).
Proof. unfold track. rewrite fold_left_app. reflexivity. Qed.

Lemma replace_nth_length {A} k (a : A) l : length (replace_nth k a l) = length l.
Proof. revert k; induction l as [|b l IH]; intros [|k]; simpl; auto. Qed.
Lemma nth_replace {A} k (a : A) l j :
  nth_error (replace_nth k a l) j =
  if (j =? k) && (k <? length l) then Some a else nth_error l j.
Proof.
  revert k j; induction l as [|b l IH]; intros k j.
  - destruct k; simpl; rewrite andb_false_r; reflexivity.
  - destruct k as [|k], j as [|j]; simpl; try reflexivity.
    rewrite IH. destruct (j =? k); reflexivity.
Qed.
Lemma nth_snoc {A} (l : list A) a k :
  nth_error (l ++ [a]) k = if k =? length l then Some a else nth_error l k.
Proof.
  destruct (Nat.eqb_spec k (length l)) as [->|N].
  - rewrite nth_error_app2 by lia. rewrite Nat.sub_diag. reflexivity.
  - destruct (lt_dec k (length l)).
    + rewrite nth_error_app1 by lia. reflexivity.
    + rewrite (proj2 (nth_error_None (l ++ [a]) k)), (proj2 (nth_error_None l k)); auto; try lia.
      rewrite app_length; simpl; lia.
Qed.

Lemma get_insert id l r j : reg_get j (reg_insert id l r) = if id =? j then Some l else reg_get j r.
Proof.
  unfold reg_insert. simpl. destruct (Nat.eqb_spec id j) as [->|N]; [reflexivity|].
  induction r as [|[k v] r IH]; simpl; auto.
  destruct (Nat.eqb_spec k id) as [->|Nk]; simpl.
  - destruct (Nat.eqb_spec id j); [congruence|auto].
  - destruct (k =? j); auto.
Qed.

(** objects of the run are the objects of the specification; ids correspond to origins *)
Record agree (h : list py_op) (s : py_state) : Prop := {
  ag_cs : map pp_constraints (py_objects s) = map snd (track h);
  ag_id : forall j k p q oj ok cj ck,
    nth_error (py_objects s) j = Some p -> nth_error (py_objects s) k = Some q ->
    nth_error (track h) j = Some (oj, cj) -> nth_error (track h) k = Some (ok, ck) ->
    (pp_id p = pp_id q <-> oj = ok);
  ag_lt : forall j p, nth_error (py_objects s) j = Some p -> pp_id p < pw_counter (py_world s);
  ag_org : forall j o c, nth_error (track h) j = Some (o, c) -> o < length (track h) }.

Lemma constraints_counter t p w : pw_counter (snd (py_constraints t p w)) = pw_counter w.
Proof.
  unfold py_constraints. destruct (pp_constraints p); auto. destruct (pw_poisoned w); auto.
  destruct (max_constraints <? length l); auto.
Qed.
Lemma call_counter t n x w : pw_counter (snd (py_call t n x w)) = pw_counter w.
Proof.
  unfold py_call. destruct (pw_poisoned w); auto. destruct (reg_get _ _); auto. destruct (eval_all l x); auto.
Qed.

Lemma map_nth {A B} (f : A -> B) l k : nth_error (map f l) k = option_map f (nth_error l k).
Proof. revert k; induction l; intros [|k]; simpl; auto. Qed.
Lemma agree_length h s : agree h s -> length (py_objects s) = length (track h).
Proof. intros A. rewrite <- (map_length pp_constraints), (ag_cs _ _ A), map_length. reflexivity. Qed.
Lemma agree_nth h s k p : agree h s -> nth_error (py_objects s) k = Some p ->
  exists o, nth_error (track h) k = Some (o, pp_constraints p).
Proof.
  intros A H. pose proof (f_equal (fun l => nth_error l k) (ag_cs _ _ A)) as E. cbv beta in E.
  rewrite !map_nth, H in E. simpl in E. destruct (nth_error (track h) k) as [[o c]|]; [|discriminate].
  exists o. simpl in E. congruence.
Qed.
Lemma agree_none h s k : agree h s -> nth_error (py_objects s) k = None -> nth_error (track h) k = None.
Proof. intros A H. apply nth_error_None. rewrite <- (agree_length _ _ A). apply nth_error_None; auto. Qed.

Lemma agree_same h s o w : agree h s -> track (h ++ [o]) = track h ->
  pw_counter w = pw_counter (py_world s) -> agree (h ++ [o]) (mk_pys (py_objects s) w).
Proof.
  intros A T C. constructor; simpl; rewrite ?T.
  - apply A.
  - apply A.
  - intros j p H. rewrite C. eapply A; eauto.
  - intros j o' c. apply A.
Qed.

Lemma map_replace {A B} (f : A -> B) k a l : map f (replace_nth k a l) = replace_nth k (f a) (map f l).
Proof. revert k; induction l; intros [|k]; simpl; f_equal; auto. Qed.

Lemma agrees h : agree h (py_run h py_start).
Proof.
  induction h as [|o h IH] using rev_ind.
  - constructor; simpl; intros; try (destruct j; discriminate). reflexivity.
  - rewrite run_snoc. set (s := py_run h py_start) in *. pose proof (agree_length _ _ IH) as L.
    destruct o as [cs|k|k cs|t k|t n x]; simpl.
    + constructor; simpl; rewrite ?track_snoc; simpl.
      * rewrite !map_app, (ag_cs _ _ IH). reflexivity.
      * intros j k p q oj ok cj ck. rewrite !nth_snoc, <- L.
        destruct (Nat.eqb_spec j (length (py_objects s))), (Nat.eqb_spec k (length (py_objects s)));
          intros P Q Oj Ok.
        -- inversion P; inversion Q; inversion Oj; inversion Ok; subst; simpl; tauto.
        -- inversion P; inversion Oj; subst; simpl. pose proof (ag_lt _ _ IH _ _ Q).
           pose proof (ag_org _ _ IH _ _ _ Ok). split; intros; lia.
        -- inversion Q; inversion Ok; subst; simpl. pose proof (ag_lt _ _ IH _ _ P).
           pose proof (ag_org _ _ IH _ _ _ Oj). split; intros; lia.
        -- eapply (ag_id _ _ IH); eauto.
      * intros j p. rewrite nth_snoc. destruct (_ =? _); intros P.
        -- inversion P; simpl; lia.
        -- pose proof (ag_lt _ _ IH _ _ P). lia.
      * intros j o c. rewrite nth_snoc, app_length; simpl. destruct (_ =? _); intros P.
        -- inversion P; lia.
        -- pose proof (ag_org _ _ IH _ _ _ P). lia.
    + destruct (nth_error (py_objects s) k) as [p0|] eqn:K.
      * destruct (agree_nth _ _ _ _ IH K) as [o0 T0].
        constructor; simpl; rewrite ?track_snoc; simpl; rewrite ?T0.
        -- rewrite !map_app, (ag_cs _ _ IH). reflexivity.
        -- intros i j p q oi oj ci cj. rewrite !nth_snoc, <- L.
           destruct (Nat.eqb_spec i (length (py_objects s))), (Nat.eqb_spec j (length (py_objects s)));
             intros P Q Oi Oj.
           ++ inversion P; inversion Q; inversion Oi; inversion Oj; subst; simpl; tauto.
           ++ inversion P; inversion Oi; subst; simpl. eapply (ag_id _ _ IH); eauto.
           ++ inversion Q; inversion Oj; subst; simpl. eapply (ag_id _ _ IH); eauto.
           ++ eapply (ag_id _ _ IH); eauto.
        -- intros j p. rewrite nth_snoc. destruct (_ =? _); intros P.
           ++ inversion P; simpl. eapply (ag_lt _ _ IH); eauto.
           ++ eapply (ag_lt _ _ IH); eauto.
        -- intros j o c. rewrite nth_snoc, app_length; simpl. destruct (_ =? _); intros P.
           ++ inversion P; subst. pose proof (ag_org _ _ IH _ _ _ T0). lia.
           ++ pose proof (ag_org _ _ IH _ _ _ P). lia.
      * assert (T : track (h ++ [PyClone k]) = track h).
        { rewrite track_snoc. simpl. rewrite (agree_none _ _ _ IH K). reflexivity. }
        destruct s as [ob w]. apply (agree_same _ _ _ w IH T). reflexivity.
    + destruct (nth_error (py_objects s) k) as [p0|] eqn:K.
      * destruct (agree_nth _ _ _ _ IH K) as [o0 T0].
        assert (Lk : k < length (py_objects s)) by (apply nth_error_Some; congruence).
        assert (Lb : (k <? length (py_objects s)) = true) by (apply Nat.ltb_lt; lia).
        constructor; simpl; rewrite ?track_snoc; simpl; rewrite ?T0.
        -- rewrite !map_replace, (ag_cs _ _ IH). reflexivity.
        -- intros i j p q oi oj ci cj. rewrite !nth_replace, <- L, Lb, !andb_true_r.
           destruct (Nat.eqb_spec i k), (Nat.eqb_spec j k); intros P Q Oi Oj.
           ++ inversion P; inversion Q; inversion Oi; inversion Oj; subst; simpl; tauto.
           ++ inversion P; inversion Oi; subst; simpl. eapply (ag_id _ _ IH k j p0); eauto.
           ++ inversion Q; inversion Oj; subst; simpl. eapply (ag_id _ _ IH i k p p0); eauto.
           ++ eapply (ag_id _ _ IH i j); eauto.
        -- intros j p. rewrite nth_replace, Lb, andb_true_r. destruct (_ =? _); intros P.
           ++ inversion P; simpl. eapply (ag_lt _ _ IH); eauto.
           ++ eapply (ag_lt _ _ IH); eauto.
        -- intros j o c. rewrite replace_nth_length, nth_replace, <- L, Lb, andb_true_r.
           destruct (_ =? _); intros P.
           ++ inversion P; subst. rewrite L. eapply (ag_org _ _ IH); eauto.
           ++ rewrite L. eapply (ag_org _ _ IH); eauto.
      * assert (T : track (h ++ [PyAssign k cs]) = track h).
        { rewrite track_snoc. simpl. rewrite (agree_none _ _ _ IH K). reflexivity. }
        destruct s as [ob w]. apply (agree_same _ _ _ w IH T). reflexivity.
    + assert (T : track (h ++ [PyFetch t k]) = track h) by (rewrite track_snoc; reflexivity).
      destruct (nth_error (py_objects s) k).
      * apply (agree_same _ _ _ _ IH T), constraints_counter.
      * destruct s as [ob w]. apply (agree_same _ _ _ w IH T). reflexivity.
    + assert (T : track (h ++ [PyCall t n x]) = track h) by (rewrite track_snoc; reflexivity).
      apply (agree_same _ _ _ _ IH T), call_counter.
Qed.

(** ** The mutex is poisoned only by a call that panicked *)
Lemma constraints_poisoned t p w : pw_poisoned w = false -> pw_poisoned (snd (py_constraints t p w)) = false.
Proof.
  intros H. unfold py_constraints. destruct (pp_constraints p); auto. rewrite H.
  destruct (max_constraints <? length l); reflexivity.
Qed.
Lemma call_poisoned t n x w : pw_poisoned w = false -> fst (py_call t n x w) <> Panic ->
  snd (py_call t n x w) = w.
Proof.
  intros H. unfold py_call. rewrite H. destruct (reg_get _ _); auto.
  destruct (eval_all l x); simpl; congruence.
Qed.
Lemma no_panic_prefix a b : no_call_panicked (a ++ b) -> no_call_panicked a.
Proof. intros H c t n x d E. subst a. apply (H c t n x (d ++ b)). rewrite <- app_assoc. reflexivity. Qed.
Lemma clean h : no_call_panicked h -> pw_poisoned (py_world (py_run h py_start)) = false.
Proof.
  induction h as [|o h IH] using rev_ind; intros N; [reflexivity|].
  rewrite run_snoc. specialize (IH (no_panic_prefix _ _ N)). set (s := py_run h py_start) in *.
  destruct o as [cs|k|k cs|t k|t n x]; simpl; auto;
    try (destruct (nth_error (py_objects s) k); auto).
  - apply constraints_poisoned; auto.
  - assert (P : fst (py_call t n x (py_world s)) <> Panic) by (apply (N h t n x []); reflexivity).
    rewrite (call_poisoned _ _ _ _ IH P). auto.
Qed.

(** ** After a fetch the registry and the thread keep the problem *)
Definition holds (s : py_state) (t id : nat) (cs : list pyfun) : Prop :=
  pw_current (py_world s) t = id /\ reg_get id (pw_registry (py_world s)) = Some cs.

Lemma fetch_holds h t k p cs : no_call_panicked h ->
  nth_error (py_objects (py_run h py_start)) k = Some p -> pp_constraints p = Some cs ->
  holds (py_run (h ++ [PyFetch t k]) py_start) t (pp_id p) cs.
Proof.
  intros N K C. rewrite run_snoc. simpl. rewrite K. simpl. unfold py_constraints.
  rewrite C, (clean _ N).
  destruct (max_constraints <? length cs); split; simpl; rewrite ?Nat.eqb_refl; auto.
Qed.

Lemma step_objects_id o s k p : nth_error (py_objects s) k = Some p ->
  exists q, nth_error (py_objects (py_step o s)) k = Some q /\ pp_id q = pp_id p.
Proof.
  intros K. destruct o as [cs|j|j cs|t j|t n x]; simpl; try (exists p; auto; fail).
  - exists p. split; auto. rewrite nth_error_app1; auto. apply nth_error_Some. congruence.
  - destruct (nth_error (py_objects s) j); simpl; exists p; split; auto.
    rewrite nth_error_app1; auto. apply nth_error_Some. congruence.
  - destruct (nth_error (py_objects s) j) as [pj|] eqn:J; simpl; [|exists p; auto].
    rewrite nth_replace. destruct ((k =? j) && (j <? length (py_objects s))) eqn:B.
    + apply andb_prop in B. destruct B as [B _]. apply Nat.eqb_eq in B. subst j.
      exists (py_assign cs pj). split; auto. simpl. congruence.
    + exists p; auto.
  - destruct (nth_error (py_objects s) j); simpl; exists p; auto.
Qed.

Lemma track_origin o h k c : nth_error (track h) k = Some c ->
  exists c', nth_error (track (h ++ [o])) k = Some (fst c, c').
Proof.
  intros K. rewrite track_snoc.
  destruct o as [cs|j|j cs|t j|t n x]; simpl; try (exists (snd c); destruct c; auto; fail).
  - exists (snd c). destruct c. rewrite nth_error_app1; auto. apply nth_error_Some. congruence.
  - exists (snd c). destruct c. destruct (nth_error (track h) j); auto.
    rewrite nth_error_app1; auto. apply nth_error_Some. congruence.
  - destruct (nth_error (track h) j) as [[oj cj]|] eqn:J; [|exists (snd c); destruct c; auto].
    rewrite nth_replace. destruct ((k =? j) && (j <? length (track h))) eqn:B.
    + apply andb_prop in B. destruct B as [B _]. apply Nat.eqb_eq in B. subst j.
      exists cs. f_equal. f_equal. rewrite K in J. inversion J. reflexivity.
    + exists (snd c). destruct c; auto.
Qed.

Lemma keeps h1 t k h2 p o cs : no_call_panicked (h1 ++ PyFetch t k :: h2) ->
  nth_error (py_objects (py_run h1 py_start)) k = Some p -> pp_constraints p = Some cs ->
  nth_error (track h1) k = Some (o, Some cs) ->
  undisturbed (h1 ++ [PyFetch t k]) h2 t o cs ->
  holds (py_run (h1 ++ PyFetch t k :: h2) py_start) t (pp_id p) cs /\
  exists q c, nth_error (py_objects (py_run (h1 ++ PyFetch t k :: h2) py_start)) k = Some q /\
              pp_id q = pp_id p /\ nth_error (track (h1 ++ PyFetch t k :: h2)) k = Some (o, c).
Proof.
  intros N K C T U. induction h2 as [|e h2 IH] using rev_ind.
  - split.
    + apply fetch_holds; auto. apply (no_panic_prefix h1 [PyFetch t k]); auto.
    + rewrite run_snoc, track_snoc. destruct (step_objects_id (PyFetch t k) _ _ _ K) as (q & Q & I).
      exists q, (Some cs). auto.
  - assert (A : h1 ++ PyFetch t k :: h2 ++ [e] = (h1 ++ PyFetch t k :: h2) ++ [e])
      by (rewrite <- app_assoc; reflexivity).
    rewrite A in N |- *.
    destruct IH as [[Hc Hr] (q & c & Q & I & Tq)].
    + apply (no_panic_prefix _ _ N).
    + intros a t' k' b o' cs' E. eapply (U a t' k' (b ++ [e])). rewrite E, <- app_assoc. reflexivity.
    + set (h := h1 ++ PyFetch t k :: h2) in *. split.
      * rewrite run_snoc. pose proof (clean _ (no_panic_prefix _ _ N)) as CL.
        destruct e as [ds|j|j ds|t' k'|t' n x]; simpl; try (split; assumption).
        -- destruct (nth_error (py_objects (py_run h py_start)) j); split; assumption.
        -- destruct (nth_error (py_objects (py_run h py_start)) j); split; assumption.
        -- destruct (nth_error (py_objects (py_run h py_start)) k') as [p'|] eqn:K'; [|split; assumption].
           simpl. destruct (pp_constraints p') as [cs'|] eqn:C'; unfold py_constraints; rewrite C';
             [|split; assumption].
           rewrite CL. destruct (agree_nth _ _ _ _ (agrees h) K') as [o' T']. rewrite C' in T'.
           destruct (U h2 t' k' [] o' cs' eq_refl) as [U1 U2].
           { unfold h in T'. rewrite <- app_assoc. exact T'. }
           pose proof (ag_id _ _ (agrees h) _ _ _ _ _ _ _ _ K' Q T' Tq) as ID.
           assert (G : holds (mk_pys (py_objects (py_run h py_start))
                       (mk_pw (pw_counter (py_world (py_run h py_start)))
                          (reg_insert (pp_id p') cs' (pw_registry (py_world (py_run h py_start)))) false
                          (fun u => if u =? t' then pp_id p' else pw_current (py_world (py_run h py_start)) u)))
                     t (pp_id p) cs).
           { split; cbn [py_world pw_registry pw_current].
             - destruct (Nat.eqb_spec t t'); [|assumption]. subst t'. rewrite <- I. apply ID, U1; reflexivity.
             - rewrite get_insert. destruct (Nat.eqb_spec (pp_id p') (pp_id p)); [|assumption].
               f_equal. apply U2, ID. congruence. }
           destruct (max_constraints <? length cs'); exact G.
        -- unfold holds; simpl. rewrite call_poisoned; auto. apply (N h t' n x []). reflexivity.
      * rewrite run_snoc. destruct (step_objects_id e _ _ _ Q) as (q' & Q' & I').
        destruct (track_origin e h k (o, c) Tq) as [c' Tq'].
        exists q', c'. repeat split; auto. congruence.
Qed.

Lemma eval_nth cs x i f v : (forall g, In g cs -> g x <> None) -> nth_error cs i = Some f -> f x = Some v ->
  exists vs, eval_all cs x = Some vs /\ nth i vs f0 = v.
Proof.
  revert i; induction cs as [|g cs IH]; intros i A K V; [destruct i; discriminate|].
  simpl. destruct (g x) as [w|] eqn:G; [|destruct (A g (or_introl eq_refl) G)].
  assert (A' : forall g0, In g0 cs -> g0 x <> None) by (intros; apply A; right; auto).
  destruct i as [|i]; simpl in K.
  - inversion K; subst g. rewrite V in G. inversion G; subst w.
    assert (T : exists vs, eval_all cs x = Some vs).
    { clear -A'. induction cs as [|g cs IH]; simpl; [eauto|].
      destruct (g x) eqn:G; [|destruct (A' g (or_introl eq_refl) G)].
      destruct IH as [vs ->]; [intros; apply A'; right; auto|eauto]. }
    destruct T as [vs ->]. exists (v :: vs). auto.
  - destruct (IH i A' K V) as (vs & E & N). rewrite E. exists (w :: vs). auto.
Qed.

Theorem right_problem h1 t k fs h2 i n x o cs f v :
  no_call_panicked (h1 ++ PyFetch t k :: h2) ->
  nth_error (track h1) k = Some (o, Some cs) -> fetched h1 t k = Ok fs -> nth_error fs i = Some n ->
  nth_error cs i = Some f -> f x = Some v -> (forall g, In g cs -> g x <> None) ->
  undisturbed (h1 ++ [PyFetch t k]) h2 t o cs ->
  called (h1 ++ PyFetch t k :: h2) t n x = Ok v.
Proof.
  intros N T F I C V A U. unfold fetched in F.
  destruct (nth_error (py_objects (py_run h1 py_start)) k) as [p|] eqn:K; [|discriminate].
  destruct (agree_nth _ _ _ _ (agrees h1) K) as [o' T']. rewrite T in T'. inversion T' as [[E1 E2]]. subst o'.
  destruct (keeps h1 t k h2 p o cs N K (eq_sym E2) T U) as [[Hc Hr] _].
  assert (Hn : n = i).
  { unfold py_constraints in F. rewrite <- E2 in F.
    destruct (pw_poisoned (py_world (py_run h1 py_start))); [discriminate|].
    destruct (max_constraints <? length cs); [discriminate|]. simpl in F. inversion F; subst fs.
    assert (i < length cs) by (apply nth_error_Some; congruence).
    rewrite (nth_error_nth' _ 0) in I by (rewrite seq_length; lia). rewrite seq_nth in I by lia.
    inversion I; lia. }
  subst n. unfold called, py_call. rewrite (clean _ N), Hc, Hr.
  destruct (eval_nth cs x i f v A C V) as (vs & -> & E). simpl. congruence.
Qed.

Lemma fetched_count h t k o cs : no_call_panicked h ->
  nth_error (track h) k = Some (o, Some cs) ->
  fetched h t k = if max_constraints <? length cs then Panic else Ok (seq 0 (length cs)).
Proof.
  intros N T. unfold fetched.
  destruct (nth_error (py_objects (py_run h py_start)) k) as [p|] eqn:K.
  - destruct (agree_nth _ _ _ _ (agrees h) K) as [o' T']. rewrite T in T'. inversion T' as [[E1 E2]].
    unfold py_constraints. rewrite <- E2, (clean _ N). destruct (max_constraints <? length cs); reflexivity.
  - rewrite (agree_none _ _ _ (agrees h) K) in T. discriminate.
Qed.
