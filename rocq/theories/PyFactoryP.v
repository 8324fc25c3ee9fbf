(** * Lemmas about the Python configuration functions *)
From Coq Require Import ZArith NArith List Bool Arith String Lia.
From Verif Require Import F64 Builders Types PyBind PyFactory SpecPyFactory.
Import ListNotations.
Local Open Scope string_scope.

(** ** Conversions *)
Lemma u64_iff v n : as_u64 v = Ret n <-> holds Count v (py_int n).
Proof.
  unfold py_int. split.
  - destruct v; try discriminate. cbn [as_u64].
    destruct ((0 <=? z) && (z <? 2 ^ 64))%Z eqn:E; [|discriminate].
    intros H. injection H as <-. apply andb_true_iff in E. destruct E as [A B].
    apply Z.leb_le in A. apply Z.ltb_lt in B. rewrite Z2N.id by lia. constructor. lia.
  - intros H. inversion H; subst. unfold as_u64.
    replace ((0 <=? Z.of_N n) && (Z.of_N n <? 2 ^ 64))%Z with true by (symmetry; apply andb_true_iff; split; [apply Z.leb_le|apply Z.ltb_lt]; lia).
    now rewrite N2Z.id.
Qed.
Lemma usize_iff v n : as_usize v = Ret n <-> holds Count v (VInt (Z.of_nat n)).
Proof.
  unfold as_usize. split.
  - destruct (as_u64 v) eqn:E; [|discriminate]. cbn. intros H. injection H as <-.
    apply u64_iff in E. unfold py_int in E. rewrite N_nat_Z. exact E.
  - intros H. assert (K : as_u64 v = Ret (N.of_nat n)). { apply u64_iff. unfold py_int. now rewrite nat_N_Z. }
    rewrite K. cbn. now rewrite Nat2N.id.
Qed.
Lemma f64_iff v x : as_f64 v = Ret x <-> holds Number v (VFloat x).
Proof.
  split.
  - destruct v; try discriminate; cbn [as_f64].
    + destruct (is_finite (of_Z z)) eqn:E; [|discriminate]. intros H. injection H as <-. now constructor.
    + intros H. injection H as <-. constructor.
  - intros H. inversion H; subst; cbn [as_f64]; [reflexivity|]. match goal with E : is_finite _ = true |- _ => now rewrite E end.
Qed.
Lemma opt_f64_iff v o : as_opt as_f64 v = Ret o <-> holds MaybeNumber v (py_opt VFloat o).
Proof.
  split.
  - intros H. destruct v; try (cbn in H; discriminate);
      try (unfold as_opt in H; destruct (as_f64 _) eqn:E; [|discriminate]; cbn in H; injection H as <-;
           constructor; apply f64_iff; exact E).
    cbn in H. injection H as <-. constructor.
  - intros H. inversion H; subst.
    + destruct o; [discriminate|reflexivity].
    + destruct o as [x|]; cbn in H0.
      * apply f64_iff in H0. destruct v; try discriminate; unfold as_opt; rewrite H0; reflexivity.
      * inversion H0.
Qed.
Lemma floats_iff v l : as_floats v = Ret l <-> holds Numbers v (VFloats l).
Proof. split; [destruct v; try discriminate; cbn; intros H; injection H as <-; constructor|]. intros H. inversion H; reflexivity. Qed.
Lemma opt_floats_iff v o : as_opt as_floats v = Ret o <-> holds MaybeNumbers v (py_opt VFloats o).
Proof.
  split.
  - destruct v; try discriminate; cbn; intros H; injection H as <-; constructor.
  - destruct o as [l|]; cbn; intros H; inversion H; reflexivity.
Qed.
Lemma method_iff v m : as_method v = Ret m <-> holds RadiusMethod v (VMethod m).
Proof. split; [destruct v; try discriminate; cbn; intros H; injection H as <-; constructor|]. intros H. inversion H; reflexivity. Qed.
Lemma params_iff v l : as_params v = Ret l <-> holds SearchParams v (VParams l).
Proof. split; [destruct v; try discriminate; cbn; intros H; injection H as <-; constructor|]. intros H. inversion H; reflexivity. Qed.
Lemma mt_iff v l : as_more_thuente v = Ret l <-> holds MoreThuenteObj v (VParams l).
Proof.
  split; [destruct v as [| | | | | [] | | |]; try discriminate; cbn; intros H; injection H as <-; constructor|].
  intros H. inversion H; reflexivity.
Qed.
Lemma hz_iff v l : as_hager_zhang v = Ret l <-> holds HagerZhangObj v (VParams l).
Proof.
  split; [destruct v as [| | | | | [] | | |]; try discriminate; cbn; intros H; injection H as <-; constructor|].
  intros H. inversion H; reflexivity.
Qed.
Lemma search_iff v l : line_search_method v = Ret l <-> holds SearchObj v (VParams l).
Proof.
  split; [destruct v as [| | | | | [] | | |]; try discriminate; cbn; intros H; injection H as <-; constructor|].
  intros H. inversion H; subst. destruct l; reflexivity.
Qed.
Lemma any_iff v l : any_line_search v = Ret l <-> holds AnySearch v (VParams l).
Proof.
  split; [destruct v as [| | | | | [] | | |]; try discriminate; cbn; intros H; injection H as <-; constructor|].
  intros H. inversion H; subst; [reflexivity|]. destruct l; reflexivity.
Qed.
(** A kind converts exactly when it fits *)
Lemma fits_conv v :
  ((exists n, as_u64 v = Ret n) <-> fits Count v) /\ ((exists n, as_usize v = Ret n) <-> fits Count v) /\
  ((exists x, as_f64 v = Ret x) <-> fits Number v) /\ ((exists x, as_opt as_f64 v = Ret x) <-> fits MaybeNumber v) /\
  ((exists x, as_floats v = Ret x) <-> fits Numbers v) /\ ((exists x, as_opt as_floats v = Ret x) <-> fits MaybeNumbers v) /\
  ((exists x, as_method v = Ret x) <-> fits RadiusMethod v) /\ ((exists x, as_params v = Ret x) <-> fits SearchParams v) /\
  ((exists x, as_more_thuente v = Ret x) <-> fits MoreThuenteObj v) /\ ((exists x, as_hager_zhang v = Ret x) <-> fits HagerZhangObj v) /\
  ((exists x, line_search_method v = Ret x) <-> fits SearchObj v) /\ ((exists x, any_line_search v = Ret x) <-> fits AnySearch v).
Proof.
  repeat split; intros [w H];
    try (eexists; first [apply u64_iff in H|apply usize_iff in H|apply f64_iff in H|apply opt_f64_iff in H|apply floats_iff in H
      |apply opt_floats_iff in H|apply method_iff in H|apply params_iff in H|apply mt_iff in H|apply hz_iff in H|apply search_iff in H|apply any_iff in H]; exact H);
    inversion H; subst.
  all: try (eexists; apply floats_iff; constructor).
  all: try (eexists; apply method_iff; constructor).
  all: try (eexists; apply params_iff; constructor).
  all: try (eexists; apply mt_iff; constructor).
  all: try (eexists; apply hz_iff; constructor).
  all: try (eexists; apply search_iff; constructor).
  all: try (eexists; apply any_iff; constructor).
  - exists (Z.to_N z). apply u64_iff. unfold py_int. rewrite Z2N.id by lia. now constructor.
  - exists (Z.to_nat z). apply usize_iff. rewrite Z2Nat.id by lia. now constructor.
  - eexists. apply f64_iff. constructor.
  - eexists. apply f64_iff. now constructor.
  - exists None. reflexivity.
  - inversion H0; subst.
    + exists (Some x). reflexivity.
    + exists (Some (of_Z z)). apply opt_f64_iff. cbn. now repeat constructor.
  - exists None. reflexivity.
  - exists (Some l). reflexivity.
Qed.

(** ** Binding *)
Lemma eqb_in n l : existsb (String.eqb n) l = true <-> In n l.
Proof.
  rewrite existsb_exists. split.
  - intros [m [I E]]. apply String.eqb_eq in E. now subst.
  - intros I. exists n. split; [exact I|]. apply String.eqb_refl.
Qed.
Lemma no_repeats_iff l : no_repeats l = true <-> NoDup l.
Proof.
  induction l as [|n l IH]; cbn; [split; [constructor|reflexivity]|].
  rewrite andb_true_iff, negb_true_iff, IH. split.
  - intros [A B]. constructor; [|exact B]. intros I. apply eqb_in in I. congruence.
  - intros H. inversion H; subst. split; [|assumption].
    destruct (existsb (String.eqb n) l) eqn:E; [|reflexivity]. apply eqb_in in E. contradiction.
Qed.
Lemma lookup_in n kw v : lookup n kw = Some v -> In (n, v) kw.
Proof.
  induction kw as [|[m w] kw IH]; cbn; [discriminate|].
  destruct (String.eqb n m) eqn:E.
  - apply String.eqb_eq in E. subst. intros H. injection H as <-. now left.
  - intros H. right. auto.
Qed.
Lemma in_lookup n kw v : NoDup (map fst kw) -> In (n, v) kw -> lookup n kw = Some v.
Proof.
  induction kw as [|[m w] kw IH]; cbn; [tauto|]. intros N. inversion N; subst.
  intros [H|H].
  - injection H as -> ->. now rewrite String.eqb_refl.
  - destruct (String.eqb n m) eqn:E; [|auto].
    apply String.eqb_eq in E. subst. exfalso. apply H1. change m with (fst (m, v)). now apply in_map.
Qed.
Lemma bind_from_iff c ps : forall i vs, bind_from c i ps = Some vs <->
  List.length vs = List.length ps /\
  forall j p v, nth_error ps j = Some p -> nth_error vs j = Some v -> bind_one c (i + j) p = Some v.
Proof.
  induction ps as [|p ps IH]; intros i vs; cbn.
  - split.
    + intros H. injection H as <-. split; [reflexivity|]. intros [|j]; discriminate.
    + intros [L _]. destruct vs; [reflexivity|discriminate].
  - split.
    + destruct (bind_one c i p) as [v|] eqn:E; [|discriminate].
      destruct (bind_from c (S i) ps) as [l|] eqn:F; [|discriminate].
      intros H. injection H as <-. apply IH in F. destruct F as [L F]. cbn. split; [now rewrite L|].
      intros [|j] q w; cbn.
      * intros A B. injection A as <-. injection B as <-. now rewrite Nat.add_0_r.
      * intros A B. rewrite Nat.add_succ_r. exact (F j q w A B).
    + intros [L F]. destruct vs as [|v vs]; [discriminate|]. cbn in L. injection L as L.
      assert (A : bind_one c i p = Some v) by (rewrite <- (Nat.add_0_r i); exact (F 0 p v eq_refl eq_refl)).
      assert (B : bind_from c (S i) ps = Some vs).
      { apply IH. split; [exact L|]. intros j q w Q W. specialize (F (S j) q w Q W).
        now rewrite Nat.add_succ_r in F. }
      now rewrite A, B.
Qed.
(** The names of a signature are the documented ones, in the documented order. *)
Lemma names_of f : map fst (signature f) = map fst (takes f).
Proof. destruct f; reflexivity. Qed.
Lemma names_nodup f : NoDup (map fst (takes f)).
Proof. apply no_repeats_iff. destruct f; vm_compute; reflexivity. Qed.
Lemma sig_length f : List.length (signature f) = List.length (takes f).
Proof. rewrite <- (map_length fst (signature f)), names_of. apply map_length. Qed.
Lemma sig_nth f i p : nth_error (signature f) i = Some p -> exists k, nth_error (takes f) i = Some (fst p, k).
Proof.
  intros H. apply (map_nth_error fst) in H. rewrite names_of in H.
  destruct (nth_error (takes f) i) as [[n k]|] eqn:E.
  - apply (map_nth_error fst) in E. rewrite E in H. injection H as <-. now exists k.
  - apply nth_error_None in E. rewrite <- (map_length fst) in E. apply nth_error_None in E. congruence.
Qed.
Lemma takes_nth f i n k : nth_error (takes f) i = Some (n, k) -> exists d, nth_error (signature f) i = Some (n, d).
Proof.
  intros H. apply (map_nth_error fst) in H. rewrite <- names_of in H.
  destruct (nth_error (signature f) i) as [[m d]|] eqn:E.
  - apply (map_nth_error fst) in E. rewrite E in H. injection H as <-. now exists d.
  - apply nth_error_None in E. rewrite <- (map_length fst) in E. apply nth_error_None in E. congruence.
Qed.
Lemma nth_skipn {A} m j : forall l : list A, nth_error (skipn m l) j = nth_error l (m + j).
Proof.
  induction m as [|m IH]; intros l; [reflexivity|]. destruct l; cbn; [now destruct j|apply IH].
Qed.
Lemma in_skipn {A} (l : list A) m x : In x (skipn m l) <-> exists i, m <= i /\ nth_error l i = Some x.
Proof.
  split.
  - intros H. apply In_nth_error in H. destruct H as [j H]. exists (m + j). split; [lia|].
    now rewrite <- nth_skipn.
  - intros [i [L H]]. apply nth_error_In with (i - m). rewrite nth_skipn.
    now replace (m + (i - m)) with i by lia.
Qed.
Lemma bind_args_iff f c vs : bind_args (signature f) c = Some vs <->
  well_formed (takes f) c /\ List.length vs = List.length (takes f) /\
  forall i p v, nth_error (signature f) i = Some p -> nth_error vs i = Some v -> bind_one c i p = Some v.
Proof.
  unfold bind_args.
  match goal with |- context [if ?b then _ else _] => assert (W : b = true <-> well_formed (takes f) c) end.
  { rewrite !andb_true_iff, no_repeats_iff, Nat.leb_le, forallb_forall, sig_length. unfold well_formed.
    split; [intros [[A B] C]|intros [A [B C]]].
    - split; [exact A|]. split; [exact B|]. intros n v I. specialize (C _ I). cbn in C.
      apply eqb_in in C. apply in_map_iff in C. destruct C as [p [E C]].
      apply in_skipn in C. destruct C as [i [L C]]. apply sig_nth in C. destruct C as [k C].
      exists i, k. split; [|exact L]. now rewrite <- E.
    - split; [split; assumption|]. intros [n v] I. cbn. apply eqb_in.
      destruct (C n v I) as [i [k [E L]]]. apply takes_nth in E. destruct E as [d E].
      apply in_map_iff. exists (n, d). split; [reflexivity|]. apply in_skipn. now exists i. }
  match goal with |- context [if ?b then _ else _] => destruct b end.
  - rewrite bind_from_iff, sig_length. cbn. split.
    + intros [L F]. split; [now apply W|]. split; [exact L|]. exact F.
    + intros [_ [L F]]. split; [exact L|]. exact F.
  - split; [discriminate|]. intros [F _]. apply W in F. discriminate.
Qed.

(** ** Construction *)
Ltac conv :=
  repeat match goal with
  | H : Forall2 fits (_ :: _) (_ :: _) |- _ => inversion H; subst; clear H
  | H : pbnd ?r _ = Ret _ |- _ => let E := fresh "E" in destruct r eqn:E; [cbn [pbnd] in H|discriminate H]
  end.
Ltac fit :=
  match goal with
  | H : fits ?k ?v |- _ =>
      let C := fresh in pose proof (fits_conv v) as C; decompose [and] C; clear C;
      repeat match goal with
      | F : _ <-> fits k v |- _ => let x := fresh "x" in destruct (proj2 F H) as [x ?]; clear F
      | F : _ <-> fits _ v |- _ => clear F
      end; clear H
  end.
Ltac fitted :=
  match goal with |- fits ?k ?v =>
    let C := fresh in pose proof (fits_conv v) as C; decompose [and] C; clear C;
    match goal with F : _ <-> fits k v |- _ => apply F; eexists; eassumption end
  end.
Lemma construct_iff f vs : List.length vs = List.length (takes f) ->
  ((exists o, construct f vs = Ret o) <-> Forall2 fits (map snd (takes f)) vs).
Proof.
  intros L.
  destruct f; cbn [takes List.length] in L;
    repeat (destruct vs as [|? vs]; cbn [List.length] in L; try discriminate L); clear L;
    cbn [takes map snd construct]; unfold new_hager_zhang, new_more_thuente, new_nelder_mead, new_trust_region, new_cobyla;
    (split; [intros [o H]; conv; repeat (constructor; [fitted|]); constructor
            |intros H; conv; repeat fit; repeat match goal with E : ?x = Ret _ |- _ => rewrite E; clear E; cbn [pbnd] end; eexists; reflexivity]).
Qed.
Ltac held := first [eapply u64_iff; eassumption|eapply usize_iff; eassumption|eapply f64_iff; eassumption
  |eapply opt_f64_iff; eassumption|eapply floats_iff; eassumption|eapply opt_floats_iff; eassumption|eapply method_iff; eassumption
  |eapply params_iff; eassumption|eapply mt_iff; eassumption|eapply hz_iff; eassumption|eapply search_iff; eassumption
  |eapply any_iff; eassumption].
Lemma construct_shows f vs o i n k v : construct f vs = Ret o ->
  nth_error (takes f) i = Some (n, k) -> nth_error vs i = Some v ->
  exists w, shows f o n w /\ holds k v w.
Proof.
  intros H T N.
  destruct f; cbn [takes] in T;
    repeat (destruct vs as [|? vs]; try discriminate H); cbn [construct] in H;
    unfold new_hager_zhang, new_more_thuente, new_nelder_mead, new_trust_region, new_cobyla in H; conv;
    injection H as <-;
    repeat (destruct i as [|i];
      [cbn in T, N; injection T as <- <-; injection N as <-; eexists; (split; [reflexivity|]); held|cbn [nth_error] in T, N]);
    destruct i; discriminate.
Qed.
Lemma pair_some {A B} (a a' : A) (b b' : B) : Some (a, b) = Some (a', b') -> b' = b.
Proof. congruence. Qed.
Lemma some_eq {A} (a b : A) : Some a = Some b -> b = a.
Proof. congruence. Qed.
Ltac by_kind := first [apply HFloat|apply HCount; lia|apply HNoNumber|apply HNumbers|apply HNoNumbers|apply HRadius|apply HParams].
(** Omitted arguments have a default exactly when they may be omitted; defaults convert. *)
Lemma default_iff f i n k d : nth_error (takes f) i = Some (n, k) -> nth_error (signature f) i = Some (n, d) ->
  (may_omit f n <-> d <> None) /\ forall v, d = Some v -> fits k v.
Proof.
  intros T S.
  destruct f; cbn [takes] in T; cbn [signature map app] in S; unfold required, optional in S;
    repeat (destruct i as [|i];
      [cbn [nth_error] in T, S; injection T as <- <-; apply pair_some in S; subst d; cbn [may_omit]; split;
         [split; [try discriminate; try (intros []); try (intros _; discriminate)
                 |try (intros D; destruct D; reflexivity); try (intros _; exact I); try (intros _; reflexivity)]
         |intros v D; try discriminate D; apply some_eq in D; subst v; eexists; by_kind]
      |cbn [nth_error] in T, S]);
    destruct i; discriminate.
Qed.

(** ** Calls *)
Lemma given_fun c i n v w : NoDup (map fst (keyword c)) -> given c i n v -> given c i n w -> v = w.
Proof.
  intros N [A|A B] [C|C D].
  - congruence.
  - apply nth_error_None in C. congruence.
  - apply nth_error_None in A. congruence.
  - apply (in_lookup _ _ _ N) in B, D. congruence.
Qed.
Lemma bind_one_cases c i n d v : NoDup (map fst (keyword c)) -> bind_one c i (n, d) = Some v ->
  given c i n v \/ ((forall w, ~ given c i n w) /\ d = Some v).
Proof.
  intros N. unfold bind_one. cbn [fst snd]. destruct (nth_error (positional c) i) as [u|] eqn:E.
  - intros H. injection H as ->. left. now apply ByPosition.
  - pose proof E as L. apply nth_error_None in L. destruct (lookup n (keyword c)) as [u|] eqn:F; intros H.
    + injection H as ->. left. apply ByName; [exact L|]. now apply lookup_in.
    + right. split; [|exact H]. intros w [A|_ B]; [congruence|].
      apply (in_lookup _ _ _ N) in B. congruence.
Qed.
Lemma bind_one_given c i n d v : NoDup (map fst (keyword c)) -> given c i n v -> bind_one c i (n, d) = Some v.
Proof.
  intros N G. unfold bind_one. cbn [fst snd]. destruct G as [A|A B].
  - now rewrite A.
  - apply nth_error_None in A. rewrite A. apply (in_lookup _ _ _ N) in B. now rewrite B.
Qed.
Lemma bind_one_omitted c i n d : (forall w, ~ given c i n w) -> bind_one c i (n, d) = d.
Proof.
  intros G. unfold bind_one. cbn [fst snd]. destruct (nth_error (positional c) i) as [u|] eqn:E.
  - destruct (G u). now apply ByPosition.
  - destruct (lookup n (keyword c)) as [u|] eqn:F; [|reflexivity].
    destruct (G u). apply ByName; [now apply nth_error_None|]. now apply lookup_in.
Qed.
Lemma bind_from_some c ps : forall i, (forall j p, nth_error ps j = Some p -> bind_one c (i + j) p <> None) ->
  exists vs, bind_from c i ps = Some vs.
Proof.
  induction ps as [|p ps IH]; intros i H; cbn; [eauto|].
  destruct (bind_one c i p) as [v|] eqn:E.
  - destruct (IH (S i)) as [vs F].
    + intros j q Q. specialize (H (S j) q Q). now rewrite Nat.add_succ_r in H.
    + rewrite F. eauto.
  - destruct (H 0 p eq_refl). now rewrite Nat.add_0_r.
Qed.
(** What a call returns, argument by argument *)
Lemma call_args f c o : call f c = Ret o -> exists vs, construct f vs = Ret o /\
  well_formed (takes f) c /\ List.length vs = List.length (takes f) /\
  Forall2 fits (map snd (takes f)) vs /\
  forall i n k, nth_error (takes f) i = Some (n, k) -> exists v d,
    nth_error vs i = Some v /\ nth_error (signature f) i = Some (n, d) /\ bind_one c i (n, d) = Some v.
Proof.
  unfold call. destruct (bind_args (signature f) c) as [vs|] eqn:B; [|discriminate]. intros H.
  apply bind_args_iff in B. destruct B as [W [L B]]. exists vs. split; [exact H|]. split; [exact W|].
  split; [exact L|]. split; [apply construct_iff; eauto|].
  intros i n k T. destruct (takes_nth _ _ _ _ T) as [d S].
  destruct (nth_error vs i) as [v|] eqn:V.
  - exists v, d. split; [reflexivity|]. split; [exact S|]. exact (B _ _ _ S V).
  - apply nth_error_None in V. rewrite L in V. apply nth_error_None in V. congruence.
Qed.
Lemma forall2_nth {A B} (R : A -> B -> Prop) l m : Forall2 R l m -> forall i a b,
  nth_error l i = Some a -> nth_error m i = Some b -> R a b.
Proof.
  induction 1; intros [|i] a b; cbn; try discriminate; [|apply IHForall2].
  intros P Q. injection P as <-. now injection Q as <-.
Qed.
Lemma nth_forall2 {A B} (R : A -> B -> Prop) : forall l m, List.length l = List.length m ->
  (forall i a b, nth_error l i = Some a -> nth_error m i = Some b -> R a b) -> Forall2 R l m.
Proof.
  induction l as [|a l IH]; intros [|b m] L H; try discriminate L; constructor.
  - exact (H 0 a b eq_refl eq_refl).
  - apply IH; [now injection L|]. intros i. exact (H (S i)).
Qed.
Lemma accepts_iff f c : (exists o, call f c = Ret o) <->
  well_formed (takes f) c /\
  forall i n k, nth_error (takes f) i = Some (n, k) ->
    (exists v, given c i n v /\ fits k v) \/ ((forall v, ~ given c i n v) /\ may_omit f n).
Proof.
  split.
  - intros [o H]. destruct (call_args _ _ _ H) as [vs [_ [W [_ [F A]]]]]. split; [exact W|].
    intros i n k T. destruct (A i n k T) as [v [d [V [S B]]]].
    assert (K : fits k v) by (eapply forall2_nth; [exact F| |exact V]; exact (map_nth_error snd _ _ T)).
    destruct (bind_one_cases _ _ _ _ _ (proj1 (proj2 W)) B) as [G|[G D]]; [left; eauto|].
    right. split; [exact G|]. apply (default_iff _ _ _ _ _ T S). congruence.
  - intros [W H]. pose proof (proj1 (proj2 W)) as N.
    destruct (bind_from_some c (signature f) 0) as [vs B].
    { cbn. intros j [n d] S. destruct (sig_nth _ _ _ S) as [k T]. cbn in T.
      destruct (H _ _ _ T) as [[v [G _]]|[G M]].
      - now rewrite (bind_one_given _ _ _ _ _ N G).
      - rewrite (bind_one_omitted _ _ _ _ G). now apply (default_iff _ _ _ _ _ T S). }
    apply bind_from_iff in B. cbn in B. destruct B as [L B]. rewrite sig_length in L.
    assert (BA : bind_args (signature f) c = Some vs) by (apply bind_args_iff; split; [exact W|]; split; [exact L|]; exact B).
    unfold call. rewrite BA. apply construct_iff; [exact L|].
    apply nth_forall2; [rewrite map_length; congruence|]. intros i k v K V.
    destruct (nth_error (takes f) i) as [[n k']|] eqn:T.
    2:{ apply nth_error_None in T. rewrite <- (map_length snd) in T. apply nth_error_None in T. congruence. }
    rewrite (map_nth_error snd _ _ T) in K. injection K as <-. cbn.
    destruct (takes_nth _ _ _ _ T) as [d S].
    destruct (bind_one_cases _ _ _ _ _ N (B _ _ _ S V)) as [G|[G D]].
    + destruct (H _ _ _ T) as [[u [G' K]]|[G' _]]; [|destruct (G' v G)].
      now rewrite (given_fun _ _ _ _ _ N G G').
    + now apply (default_iff _ _ _ _ _ T S).
Qed.
Lemma shows_given f c o i n k v : call f c = Ret o -> nth_error (takes f) i = Some (n, k) ->
  given c i n v -> exists w, shows f o n w /\ holds k v w.
Proof.
  intros H T G. destruct (call_args _ _ _ H) as [vs [C [W [_ [_ A]]]]].
  destruct (A i n k T) as [u [d [V [S B]]]].
  rewrite (bind_one_given _ _ _ d _ (proj1 (proj2 W)) G) in B. injection B as <-.
  eapply construct_shows; eassumption.
Qed.
Lemma shows_default f c o i n k : call f c = Ret o -> nth_error (takes f) i = Some (n, k) ->
  (forall v, ~ given c i n v) -> exists v w, nth_error (signature f) i = Some (n, Some v) /\ shows f o n w /\ holds k v w.
Proof.
  intros H T G. destruct (call_args _ _ _ H) as [vs [C [W [_ [_ A]]]]].
  destruct (A i n k T) as [u [d [V [S B]]]].
  rewrite (bind_one_omitted _ _ _ d G) in B. subst d.
  destruct (construct_shows _ _ _ _ _ _ _ C T V) as [w [P Q]]. eauto.
Qed.
Lemma holds_fun k v w w' : holds k v w -> holds k v w' -> w = w'.
Proof.
  intros A B.
  assert (N : forall v w w', holds Number v w -> holds Number v w' -> w = w').
  { clear. intros v w w' A B. inversion A; subst; inversion B; reflexivity. }
  inversion A; subst; inversion B; subst; try reflexivity; try eapply N; try eassumption;
    match goal with H : holds Number VNone _ |- _ => inversion H end.
Qed.
Lemma not_given i n v : ~ given no_arguments i n v.
Proof. intros [A|_ []]. destruct i; discriminate. Qed.
Lemma no_arguments_ok f : (forall n, may_omit f n) -> exists o, call f no_arguments = Ret o.
Proof.
  intros M. apply accepts_iff. split.
  - split; [cbn; lia|]. split; [constructor|]. intros n v [].
  - intros i n k T. right. split; [apply not_given|apply M].
Qed.
Lemma shows_omitted f c o i n k : call f c = Ret o -> nth_error (takes f) i = Some (n, k) ->
  (forall v, ~ given c i n v) ->
  exists d w, call (defaults_of f) no_arguments = Ret d /\ getattr d n = Some w /\ getattr o n = Some w.
Proof.
  intros H T G. destruct (shows_default _ _ _ _ _ _ H T G) as [v [w [S [P Q]]]].
  assert (M : may_omit f n) by (apply (default_iff _ _ _ _ _ T S); discriminate).
  assert (X : forall m, may_omit (defaults_of f) m) by (intro m; destruct f; exact I || (destruct M)).
  destruct (no_arguments_ok _ X) as [d D]. exists d, w. split; [exact D|].
  assert (Y : exists j, nth_error (takes (defaults_of f)) j = Some (n, k) /\ nth_error (signature (defaults_of f)) j = Some (n, Some v)).
  { destruct f; try (exists i; split; assumption).
    - cbn in M. subst n. exists 4. cbn [takes] in T. cbn [signature map app] in S.
      do 5 (destruct i as [|i]; [discriminate T|]). destruct i as [|i]; [|destruct i; discriminate T].
      cbn in T. injection T as <-. apply pair_some in S. injection S as ->. split; reflexivity. }
  destruct Y as [j [T' S']].
  destruct (shows_default _ _ _ _ _ _ D T' (not_given _ _)) as [v' [w' [S2 [P' Q']]]].
  assert (v' = v) by congruence. subst v'. rewrite (holds_fun _ _ _ _ Q Q').
  split; [destruct f; try exact P'; destruct M|].
  rewrite <- (holds_fun _ _ _ _ Q Q'). destruct f; try exact P; destruct M.
Qed.

(** ** The function and the class of a solver *)
Lemma py_opt_inj {A} (f : A -> pyval) (x y : option A) :
  (forall a, f a <> VNone) -> (forall a b, f a = f b -> a = b) -> py_opt f x = py_opt f y -> x = y.
Proof.
  intros N I. destruct x as [a|], y as [b|]; cbn; intros H; try reflexivity.
  - f_equal. auto.
  - destruct (N a H).
  - destruct (N b). auto.
Qed.
Ltac same_field n :=
  match goal with H : forall m, getattr ?a m = getattr ?b m |- _ =>
    let E := fresh "E" in pose proof (H n) as E; cbn in E; injection E as E end.
Lemma config_ext ty c c' o o' : call (function_of ty) c = Ret o -> call (class_of ty) c' = Ret o' ->
  (forall n, getattr o n = getattr o' n) -> o = o'.
Proof.
  intros A B G.
  destruct (call_args _ _ _ A) as [vs [X _]]. destruct (call_args _ _ _ B) as [vs' [Y _]]. clear A B.
  destruct ty; cbn [function_of class_of] in X, Y;
    repeat (destruct vs as [|? vs]; try discriminate X); repeat (destruct vs' as [|? vs']; try discriminate Y);
    cbn [construct] in X, Y; unfold new_nelder_mead, new_trust_region, new_cobyla in X, Y;
    conv; injection X as <-; injection Y as <-.
  all: repeat match goal with E : _ = Ret _ |- _ => clear E end.
  - same_field "max_iter". same_field "tolerance_grad". same_field "tolerance_cost". same_field "history_size".
    same_field "line_search_params". pose proof (G "l1_coefficient") as L. cbn in L. apply some_eq in L.
    apply N2Z.inj in E. apply Nat2Z.inj in E2. symmetry in L. apply py_opt_inj in L; [congruence|discriminate|congruence].
  - same_field "simplex_delta". same_field "sd_tolerance". same_field "max_iter". same_field "alpha".
    same_field "gamma". same_field "rho". same_field "sigma". apply N2Z.inj in E1. congruence.
  - same_field "max_iter". same_field "line_search_params". apply N2Z.inj in E. congruence.
  - same_field "trust_region_radius_method". same_field "max_iter". same_field "radius".
    same_field "max_radius". same_field "eta". apply N2Z.inj in E0. congruence.
  - same_field "max_iter". same_field "curvature_threshold". same_field "tolerance". same_field "line_search_params".
    apply N2Z.inj in E. congruence.
  - same_field "max_iter". same_field "step_size". apply N2Z.inj in E.
    pose proof (G "ftol_rel") as F1. pose proof (G "ftol_abs") as F2. pose proof (G "xtol_rel") as F3.
    pose proof (G "xtol_abs") as F4. cbn in F1, F2, F3, F4.
    apply some_eq in F1, F2, F3, F4. apply py_opt_inj in F1, F2, F3, F4; try discriminate; try congruence.
Qed.
Lemma given_dec c i n : (exists v, given c i n v) \/ (forall v, ~ given c i n v).
Proof.
  destruct (nth_error (positional c) i) as [u|] eqn:E.
  - left. exists u. now apply ByPosition.
  - pose proof E as L. apply nth_error_None in L. destruct (lookup n (keyword c)) as [u|] eqn:F.
    + left. exists u. apply ByName; [exact L|]. now apply lookup_in.
    + right. intros w [A|_ B]; [congruence|].
      clear - F B. induction (keyword c) as [|[m x] kw IH]; [destruct B|]. cbn in F, B.
      destruct (String.eqb n m) eqn:Q; [discriminate|]. destruct B as [B|B]; [|auto].
      injection B as -> ->. rewrite String.eqb_refl in Q. discriminate.
Qed.
Definition compatible (k k' : kind) := k' = k \/ (k = AnySearch /\ k' = SearchParams).
Lemma compatible_holds k k' v w w' : compatible k k' -> holds k v w -> holds k' v w' -> w = w'.
Proof.
  intros [->|[-> ->]] A B; [eapply holds_fun; eassumption|].
  inversion B; subst. inversion A; reflexivity.
Qed.
Lemma agree_at ty c o o' i j n k k' :
  call (function_of ty) c = Ret o -> call (class_of ty) c = Ret o' ->
  nth_error (takes (function_of ty)) i = Some (n, k) -> nth_error (takes (class_of ty)) j = Some (n, k') ->
  compatible k k' -> (forall v, given c i n v <-> given c j n v) -> getattr o n = getattr o' n.
Proof.
  intros A B T T' K G.
  destruct (given_dec c i n) as [[v V]|V].
  - destruct (shows_given _ _ _ _ _ _ _ A T V) as [w [P Q]].
    destruct (shows_given _ _ _ _ _ _ _ B T' (proj1 (G v) V)) as [w' [P' Q']].
    rewrite (compatible_holds _ _ _ _ _ K Q Q') in P. destruct ty; cbn in P, P'; congruence.
  - assert (V' : forall v, ~ given c j n v) by (intros v X; apply G in X; exact (V v X)).
    destruct (shows_omitted _ _ _ _ _ _ A T V) as [d [w [D [P Q]]]].
    destruct (shows_omitted _ _ _ _ _ _ B T' V') as [d' [w' [D' [P' Q']]]].
    destruct (shows_default _ _ _ _ _ _ A T V) as [u [_ [S _]]].
    assert (M : may_omit (function_of ty) n) by (apply (default_iff _ _ _ _ _ T S); discriminate).
    assert (defaults_of (function_of ty) = defaults_of (class_of ty)) by (destruct ty; try reflexivity; destruct M).
    congruence.
Qed.
Lemma getattr_names f c o n w : call f c = Ret o -> getattr o n = Some w -> In n (map fst (takes f)).
Proof.
  intros H G. destruct (call_args _ _ _ H) as [vs [X _]]. clear H. unfold getattr in G. apply lookup_in in G.
  destruct f; repeat (destruct vs as [|? vs]; try discriminate X); cbn [construct] in X;
    unfold new_hager_zhang, new_more_thuente, new_nelder_mead, new_trust_region, new_cobyla in X; conv;
    injection X as <-; cbn [fields] in G; cbn [takes map fst];
    repeat (destruct G as [G|G]; [injection G as <- _; cbn; tauto|]); destruct G.
Qed.
Lemma same_index ty i n k : ty <> LBFGS \/ i < 4 -> nth_error (takes (function_of ty)) i = Some (n, k) ->
  exists k', nth_error (takes (class_of ty)) i = Some (n, k') /\ compatible k k'.
Proof.
  intros D T. unfold compatible. destruct ty; cbn [function_of takes] in T; cbn [class_of takes].
  - destruct D as [D|D]; [destruct D; reflexivity|].
    do 4 (destruct i as [|i]; [cbn in *; injection T as <- <-; eauto|]). lia.
  - exists k. eauto.
  - do 2 (destruct i as [|i]; [cbn in *; injection T as <- <-; eauto|]). destruct i; discriminate.
  - exists k. eauto.
  - do 4 (destruct i as [|i]; [cbn in *; injection T as <- <-; eauto|]). destruct i; discriminate.
  - exists k. eauto.
Qed.
Lemma late_given c i j n v : List.length (positional c) <= i -> List.length (positional c) <= j ->
  given c i n v -> given c j n v.
Proof.
  intros I J [A|A B]; [|now apply ByName].
  apply nth_error_None in I. congruence.
Qed.
Lemma function_class_agree ty c o o' :
  call (function_of ty) c = Ret o -> call (class_of ty) c = Ret o' -> o = o'.
Proof.
  intros A B. apply (config_ext ty c c); [exact A|exact B|]. intros n.
  assert (X : forall w, getattr o n = Some w -> getattr o n = getattr o' n).
  { intros w W. pose proof (getattr_names _ _ _ _ _ A W) as I. apply in_map_iff in I.
    destruct I as [[m k] [E I]]. cbn in E. subst m. apply In_nth_error in I. destruct I as [i T].
    assert (D : (ty <> LBFGS \/ i < 4) \/ (ty = LBFGS /\ 4 <= i)).
    { destruct ty; try (left; left; discriminate). destruct (Nat.lt_ge_cases i 4); auto. }
    destruct D as [D|[-> D]].
    - destruct (same_index _ _ _ _ D T) as [k' [T' K]]. eapply agree_at; try eassumption. reflexivity.
    - assert (P : List.length (positional c) <= 4).
      { destruct (nth_error (positional c) 4) as [v|] eqn:E; [|now apply nth_error_None].
        pose proof (ByPosition c 4 "line_search_params" v E) as G1.
        pose proof (ByPosition c 4 "l1_coefficient" v E) as G2.
        destruct (shows_given _ _ _ 4 "line_search_params" AnySearch _ A eq_refl G1) as [w1 [_ H1]].
        destruct (shows_given _ _ _ 4 "l1_coefficient" MaybeNumber _ B eq_refl G2) as [w2 [_ H2]].
        inversion H1; subst; inversion H2; subst;
          match goal with H : holds Number _ _ |- _ => inversion H end. }
      cbn [function_of takes] in T.
      do 4 (destruct i as [|i]; [lia|]). destruct i as [|i].
      + cbn in T. injection T as <- <-.
        eapply (agree_at LBFGS c o o' 4 5); try eassumption; try reflexivity.
        * right. split; reflexivity.
        * intros v. split; apply late_given; lia.
      + destruct i as [|i]; [|destruct i; discriminate]. cbn in T. injection T as <- <-.
        eapply (agree_at LBFGS c o o' 5 4); try eassumption; try reflexivity.
        * left. reflexivity.
        * intros v. split; apply late_given; lia. }
  destruct (getattr o n) as [w|] eqn:E; [apply (X w eq_refl)|].
  destruct (getattr o' n) as [w|] eqn:E'; [|reflexivity].
  exfalso. pose proof (getattr_names _ _ _ _ _ B E') as I.
  assert (I' : In n (map fst (takes (function_of ty)))) by (destruct ty; cbn in I |- *; tauto).
  apply in_map_iff in I'. destruct I' as [[m k] [Q I']]. cbn in Q. subst m. apply In_nth_error in I'.
  destruct I' as [i T].
  destruct (given_dec c i n) as [[v V]|V].
  - destruct (shows_given _ _ _ _ _ _ _ A T V) as [w' [P _]]. destruct ty; cbn in P; congruence.
  - destruct (shows_omitted _ _ _ _ _ _ A T V) as [d [w' [_ [_ P]]]]. congruence.
Qed.
(** Both accept a call that gives every argument by name, line searches as
    [PyLineSearchParams] *)
Lemma function_class_same ty c : positional c = [] ->
  (forall i n k, nth_error (takes (class_of ty)) i = Some (n, k) -> exists v, In (n, v) (keyword c)) ->
  (forall l, ~ In ("line_search_params", VLineSearch l) (keyword c)) ->
  forall o, call (function_of ty) c = Ret o <-> call (class_of ty) c = Ret o.
Proof.
  intros P G L o.
  assert (Q : forall f i n v, given c i n v <-> In (n, v) (keyword c) /\ f = f :> nat).
  { intros f i n v. split.
    - intros [A|_ B]; [rewrite P in A; destruct i; discriminate|tauto].
    - intros [B _]. apply ByName; [rewrite P; cbn; lia|exact B]. }
  assert (W : well_formed (takes (function_of ty)) c <-> well_formed (takes (class_of ty)) c).
  { unfold well_formed. rewrite P. cbn [List.length].
    assert (E : (forall n, (exists i k, nth_error (takes (function_of ty)) i = Some (n, k) /\ 0 <= i) <->
                           (exists i k, nth_error (takes (class_of ty)) i = Some (n, k) /\ 0 <= i))).
    { assert (F : forall f n, (exists i k, nth_error (takes f) i = Some (n, k) /\ 0 <= i) <-> In n (map fst (takes f))).
      { intros f n. rewrite in_map_iff. split.
        - intros [i [k [A _]]]. exists (n, k). split; [reflexivity|]. eapply nth_error_In; eassumption.
        - intros [[m k] [A B]]. cbn in A. subst m. apply In_nth_error in B. destruct B as [i B].
          exists i, k. split; [exact B|lia]. }
      intros n. rewrite !F. destruct ty; cbn; tauto. }
    split; intros [_ [A B]]; (split; [lia|]); (split; [exact A|]); intros n v I; apply E; eapply B; eassumption. }
  assert (X : forall n, In n (map fst (takes (function_of ty))) <-> In n (map fst (takes (class_of ty)))) by (intro n; destruct ty; cbn; tauto).
  assert (Kd : forall i n k j k', nth_error (takes (function_of ty)) i = Some (n, k) ->
            nth_error (takes (class_of ty)) j = Some (n, k') -> k = k' \/ (n = "line_search_params" /\ k = AnySearch /\ k' = SearchParams)).
  { intros i n k j k' A B. apply nth_error_In in A, B.
    destruct ty; cbn in A, B;
      repeat (destruct A as [A|A]; [injection A as <- <-;
        repeat (destruct B as [B|B]; [first [discriminate B|injection B as <-; tauto]|]); destruct B|]); destruct A. }
  assert (Y : (exists x, call (function_of ty) c = Ret x) <-> (exists x, call (class_of ty) c = Ret x)).
  { rewrite !accepts_iff, W.
    split; intros [F H]; (split; [exact F|]); intros i n k T.
    - destruct (G i n k T) as [v V].
      assert (I : In n (map fst (takes (function_of ty)))).
      { apply X. change n with (fst (n, k)). apply in_map. eapply nth_error_In; eassumption. }
      apply in_map_iff in I. destruct I as [[m k'] [E I]]. cbn in E. subst m. apply In_nth_error in I.
      destruct I as [j T']. left. exists v. split; [now apply (Q 0)|].
      destruct (H j n k' T') as [[u [U FK]]|[U _]]; [|destruct (U v); now apply (Q 0)].
      assert (v = u) as <- by (eapply given_fun; [exact (proj1 (proj2 F))|apply (Q 0); eauto|exact U]).
      destruct (Kd _ _ _ _ _ T' T) as [->|[-> [-> ->]]]; [exact FK|].
      destruct FK as [w FK]. inversion FK; subst; [eexists; constructor|]. destruct (L l V).
    - assert (I : In n (map fst (takes (class_of ty)))).
      { apply X. change n with (fst (n, k)). apply in_map. eapply nth_error_In; eassumption. }
      apply in_map_iff in I. destruct I as [[m k'] [E I]]. cbn in E. subst m. apply In_nth_error in I.
      destruct I as [j T']. destruct (G j n k' T') as [v V]. left. exists v. split; [now apply (Q 0)|].
      destruct (H j n k' T') as [[u [U FK]]|[U _]]; [|destruct (U v); now apply (Q 0)].
      assert (v = u) as <- by (eapply given_fun; [exact (proj1 (proj2 F))|apply (Q 0); eauto|exact U]).
      destruct (Kd _ _ _ _ _ T T') as [->|[-> [-> ->]]]; [exact FK|].
      destruct FK as [w FK]. inversion FK; subst. eexists; constructor. }
  split; intros H.
  - destruct (proj1 Y (ex_intro _ _ H)) as [x Z]. now rewrite (function_class_agree _ _ _ _ H Z).
  - destruct (proj2 Y (ex_intro _ _ H)) as [x Z]. now rewrite <- (function_class_agree _ _ _ _ Z H).
Qed.

(** ** Assignment to attributes *)
Lemma set_spec o n v o' : setattr o n v = Ret o' ->
  exists f k w, type_of o = Some f /\ type_of o' = Some f /\ In (n, k) (takes f) /\ holds k v w /\
    getattr o' n = Some w /\ forall m, m <> n -> getattr o' m = getattr o m.
Proof.
  intros H.
  assert (S : forall A (l : list (string * pres A)) r, select n l = Ret r -> In (n, Ret r) l).
  { intros A l r. induction l as [|[m x] l IH]; cbn; [discriminate|].
    destruct (String.eqb n m) eqn:E; [|auto]. apply String.eqb_eq in E. subst. intros ->. now left. }
  destruct o as [ | | | | | [] | | [] | ]; try discriminate H; cbn [setattr] in H;
    (match type of H with pbnd ?r _ = _ => destruct r as [x|e] eqn:E; [|discriminate H]; injection H as <-; apply S in E; clear S end);
    cbn [In] in E;
    repeat (destruct E as [E|E];
      [injection E as E0 E; conv; injection E as <-; eexists; eexists; eexists;
       (split; [reflexivity|]); (split; [reflexivity|]); rewrite <- E0;
       (split; [cbn [takes In]; repeat (first [left; reflexivity|right])|]); (split; [held|]); (split; [reflexivity|]);
       let m := fresh "m" in intros m M; unfold getattr; cbn [fields lookup];
       rewrite (proj2 (String.eqb_neq m _) M); reflexivity
      |]); destruct E.
Qed.

Lemma set_iff o n v : (exists o', setattr o n v = Ret o') <->
  exists f k, type_of o = Some f /\ In (n, k) (takes f) /\ fits k v.
Proof.
  split.
  - intros [o' H]. destruct (set_spec _ _ _ _ H) as [f [k [w [A [_ [B [C _]]]]]]]. exists f, k.
    split; [exact A|]. split; [exact B|]. now exists w.
  - intros [f [k [A [B C]]]].
    destruct o as [ | | | | | [] | | [] | ]; try discriminate A; injection A as <-; cbn [takes In] in B;
      repeat (destruct B as [B|B];
        [injection B as <- <-; fit; cbn [setattr select String.eqb Ascii.eqb Bool.eqb];
         repeat match goal with E : _ = Ret _ |- _ => rewrite E; clear E end; eexists; reflexivity|]);
      destruct B.
Qed.
Lemma function_usable ty c o : call (function_of ty) c = Ret o \/ call (class_of ty) c = Ret o ->
  exists k cfg, o = VConfig k /\ py_to_config ty k = Some cfg.
Proof.
  intros [H|H]; destruct (call_args _ _ _ H) as [vs [X _]]; clear H;
    (destruct ty; cbn [function_of class_of] in X; repeat (destruct vs as [|? vs]; try discriminate X);
     cbn [construct] in X; unfold new_nelder_mead, new_trust_region, new_cobyla in X; conv;
     injection X as <-; eexists; eexists; (split; [reflexivity|]); reflexivity).
Qed.
Lemma methods : (forall c o, call method_cauchy c = Ret o -> o = VMethod Cauchy) /\
  (forall c o, call method_steihaug c = Ret o -> o = VMethod Steihaug) /\
  (forall f c o i m, f = function_of TrustRegion \/ f = class_of TrustRegion -> call f c = Ret o ->
     nth_error (takes f) i = Some ("trust_region_radius_method", RadiusMethod) ->
     given c i "trust_region_radius_method" (VMethod m) ->
     exists a b d e k, o = VConfig k /\ py_to_config TrustRegion k = Some (CfgTrustRegion m a b d e)).
Proof.
  split; [|split].
  - intros c o H. destruct (call_args _ _ _ H) as [vs [X _]]. destruct vs; [injection X as <-; reflexivity|discriminate X].
  - intros c o H. destruct (call_args _ _ _ H) as [vs [X _]]. destruct vs; [injection X as <-; reflexivity|discriminate X].
  - intros f c o i m F H T G.
    destruct (call_args _ _ _ H) as [vs [C [W [_ [_ A]]]]]. destruct (A i _ _ T) as [u [d [V [S B]]]].
    rewrite (bind_one_given _ _ _ d _ (proj1 (proj2 W)) G) in B. injection B as <-.
    assert (I0 : i = 0).
    { destruct F as [->| ->]; cbn [function_of class_of takes] in T;
        (destruct i as [|[|[|[|[|i]]]]]; cbn in T; [reflexivity|discriminate T..|destruct i; discriminate T]). }
    subst i. destruct vs as [|v vs]; [discriminate V|]. cbn in V. injection V as ->. clear - F C.
    destruct F as [->| ->]; cbn [function_of class_of] in C; repeat (destruct vs as [|? vs]; try discriminate C);
      cbn [construct] in C; unfold new_trust_region in C; conv; cbn [as_method] in E; injection E as <-; injection C as <-; do 5 eexists; split; reflexivity.
Qed.
Lemma without_arguments ty : (exists o, call (function_of ty) no_arguments = Ret o) <-> ty = COBYLA.
Proof.
  split; [|intros ->; apply (no_arguments_ok cobyla); intro; exact I].
  intros H. apply accepts_iff in H. destruct H as [_ H].
  destruct ty; try reflexivity; destruct (H 0 _ _ eq_refl) as [[v [G _]]|[_ M]];
    try (destruct (not_given _ _ _ G)); try discriminate M; destruct M.
Qed.
