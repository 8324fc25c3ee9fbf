(** * The observer shows what Stage 1 found (C104)

    Statements only; the proofs are lemmas of Shown1P.v, the vocabulary is SpecShown1.v. *)
From Coq Require Import ZArith NArith List Bool Arith Lia String.
From Verif Require Import F64 Base Builders Types Filters Runner Observer Env EnvSpec ScatterSearch Codec
  Checkpoint Oqnlp Spec SpecStage1 SpecStage2 SpecObserver SpecShown1 Demo Demo2 DemoStage1 Properties_Stage2 Properties_Observer Shown1P.
Import ListNotations.

(** C104.  In full: whenever a callback runs in Stage 1, the observer shows the least value that
    Stage 1 has evaluated so far, or that its local search has found, and a point that has it. *)
Definition C104_full : Prop := forall E s set s' new st0 a e b ob st, env_ok E -> callbacks_keep_stage1 E ->
  observing1 (o_observer (s_o s)) st0 -> (forall cp, ~ resumes_from E s cp) -> run E s = (Ok set, s') -> recorded s s' new ->
  new = a ++ e :: b -> stage1_callback e = Some ob -> ob_stage1 ob = Some st -> shows_least st0 st (known E (s_o s) b).
(** and so it does when the run has ended *)
Definition C104_end : Prop := forall E s set s' new st0 st, env_ok E -> callbacks_keep_stage1 E ->
  observing1 (o_observer (s_o s)) st0 -> (forall cp, ~ resumes_from E s cp) -> run E s = (Ok set, s') -> recorded s s' new ->
  observing1 (o_observer (s_o s')) st -> shows_least st0 st (known E (s_o s) new).
(** and it shows the number of members of the reference set *)
Definition C104_size : Prop := forall E s set s' new st0 a e b ob st refs, env_ok E -> callbacks_keep_stage1 E ->
  observing1 (o_observer (s_o s)) st0 -> (forall cp, ~ resumes_from E s cp) -> run E s = (Ok set, s') -> recorded s s' new ->
  new = a ++ e :: b -> stage1_callback e = Some ob -> ob_stage1 ob = Some st ->
  o_custom (s_o s) = None -> o_ref (s_o s) = None -> o_ref (s_o s') = Some refs -> s1_ref_size st = List.length refs.

(** how the counterexamples find a callback in a record *)
Fixpoint some_callback (f : stage1 -> list event -> bool) (l : list event) : bool :=
  match l with
  | [] => false
  | e :: r => match stage1_callback e with
              | Some ob => match ob_stage1 ob with Some st => f st r | None => false end
              | None => false
              end || some_callback f r
  end.
Lemma callback_found : forall f l, some_callback f l = true -> exists a e b ob st,
  l = a ++ e :: b /\ stage1_callback e = Some ob /\ ob_stage1 ob = Some st /\ f st b = true.
Proof.
  intros f l. induction l as [|e l IH]; [discriminate|]. simpl. intro H. apply orb_true_iff in H as [H|H].
  - destruct (stage1_callback e) as [ob|] eqn:E1; [|discriminate H]. destruct (ob_stage1 ob) as [st|] eqn:E2; [|discriminate H].
    exists [], e, l, ob, st. auto.
  - destruct (IH H) as (a & e' & b & ob & st & -> & H1 & H2 & H3). exists (e :: a), e', b, ob, st. auto.
Qed.
(** a value is known that is less than the one shown, or the one shown is not a number *)
Definition hides (E : env) (o : oqnlp) (st : stage1) (l : list event) : bool :=
  existsb (fun x => negb (is_nan (snd x)) && (is_nan (s1_best st) || flt (snd x) (s1_best st))) (known E o l).
Lemma hides_least : forall E o st0 st l, shows_least st0 st (known E o l) -> hides E o st l = true -> False.
Proof.
  intros E o st0 st l [H _] Hx. apply existsb_exists in Hx as ([p v] & Hin & Hx). cbn [snd] in Hx.
  apply andb_true_iff in Hx as [H1 H2]. apply negb_true_iff in H1.
  assert (I : In v (s1_best st0 :: map snd (known E o l))) by (right; apply in_map_iff; exists (p, v); auto).
  destruct H as [[A B]|(A & _ & B)]; [rewrite (B v I) in H1; discriminate|].
  rewrite A, (B v I) in H2. discriminate.
Qed.
Lemma fresh_watched : forall E n o, o_cp o = None -> forall cp, ~ resumes_from E (start_state (watched n o)) cp.
Proof. intros E n o H cp (c & Hc & _). simpl in Hc. congruence. Qed.
Lemma watched_observing : forall n o, observing1 (o_observer (watched n o)) s1_new.
Proof. intros n o. exists (watcher n). split; [reflexivity|]. split; [discriminate|reflexivity]. Qed.
(** After the diversification, when the whole reference set has been evaluated, best_objective()
    is still NaN. *)
Theorem C104_callbacks_refuted : ~ C104_full.
Proof.
  intro H.
  assert (X : some_callback (hides wells_env demo_oqnlp) (record_of wells_env (watched 1 demo_oqnlp)) = true) by (vm_compute; reflexivity).
  apply callback_found in X as (a & e & b & ob & st & X1 & X2 & X3 & X4).
  assert (R : fst (run wells_env (start_state (watched 1 demo_oqnlp))) = Ok [sol1 (of_Z (-2)) f0; sol1 (of_Z 2) f0]) by (vm_compute; reflexivity).
  assert (P : run wells_env (start_state (watched 1 demo_oqnlp)) = (Ok [sol1 (of_Z (-2)) f0; sol1 (of_Z 2) f0], state_of wells_env (watched 1 demo_oqnlp)))
    by (rewrite <- R; apply run_pair).
  refine (hides_least wells_env demo_oqnlp s1_new st b _ X4).
  exact (H wells_env (start_state (watched 1 demo_oqnlp)) _ _ _ s1_new a e b ob st (demo_env_ok _ _) (fun _ _ => conj eq_refl eq_refl)
    (watched_observing 1 demo_oqnlp) (fresh_watched wells_env 1 demo_oqnlp eq_refl) P (record_recorded _ _) X1 X2 X3).
Qed.
Print Assumptions C104_callbacks_refuted.
(** "initialization_complete" is announced with 3 reference points, whatever their number. *)
Theorem C104_size_refuted : ~ C104_size.
Proof.
  intro H.
  assert (X : some_callback (fun st _ => s1_ref_size st =? 3) (record_of wells_env (watched 1 demo_oqnlp)) = true) by (vm_compute; reflexivity).
  apply callback_found in X as (a & e & b & ob & st & X1 & X2 & X3 & X4).
  assert (R : fst (run wells_env (start_state (watched 1 demo_oqnlp))) = Ok [sol1 (of_Z (-2)) f0; sol1 (of_Z 2) f0]) by (vm_compute; reflexivity).
  assert (P : run wells_env (start_state (watched 1 demo_oqnlp)) = (Ok [sol1 (of_Z (-2)) f0; sol1 (of_Z 2) f0], state_of wells_env (watched 1 demo_oqnlp)))
    by (rewrite <- R; apply run_pair).
  assert (L : option_map (fun r => List.length r =? 3) (o_ref (s_o (state_of wells_env (watched 1 demo_oqnlp)))) = Some false) by (vm_compute; reflexivity).
  destruct (o_ref (s_o (state_of wells_env (watched 1 demo_oqnlp)))) as [refs|] eqn:Hr; [|discriminate L]. injection L as L.
  pose proof (H wells_env (start_state (watched 1 demo_oqnlp)) _ _ _ s1_new a e b ob st refs (demo_env_ok _ _) (fun _ _ => conj eq_refl eq_refl)
    (watched_observing 1 demo_oqnlp) (fresh_watched wells_env 1 demo_oqnlp eq_refl) P (record_recorded _ _) X1 X2 X3 eq_refl eq_refl Hr) as G.
  rewrite <- G, X4 in L. discriminate L.
Qed.
Print Assumptions C104_size_refuted.
(** f(x) = (x - 6)^2 on [0, 8], undefined at 0: the trial point 6, the minimum, is evaluated but
    not taken, because no value is less than the NaN of the worst member *)
Definition cracked : problem :=
  mk_problem (fun p => match p with
      | [x] => if fle x f0 then inl (NaN false) else let d := fsub x (of_Z 6) in inl (fmul d d)
      | _ => inr 7%N end)
    (fun _ => inr 1%N) (fun _ => inr 1%N) [(f0, of_Z 8)] [].
Definition cracked_env : env := demo_env cracked stay.
Definition four : oqnlp := made (mk_params 4 4 1 (of_Z 20) (lit 75 100) COBYLA (cb_build cb_default) 3).
Lemma the_pair : forall E o, match fst (run E (start_state o)) with Ok _ => true | _ => false end = true ->
  exists set, run E (start_state o) = (Ok set, state_of E o).
Proof.
  intros E o H. destruct (fst (run E (start_state o))) as [set| |] eqn:R; [|discriminate H|discriminate H].
  exists set. rewrite <- R. apply run_pair.
Qed.
Lemma map_some : forall A B (f : A -> B) x b, option_map f x = Some b -> exists a, x = Some a /\ f a = b.
Proof. intros A B f [a|] b H; [|discriminate H]. injection H as H. exists a. auto. Qed.
Lemma seen_observing : forall o ob st, o_observer o = Some ob -> ob_mode ob <> Stage2Only -> stage1_of o = Some st ->
  observing1 (o_observer o) st.
Proof. intros o ob st H M S. unfold stage1_of in S. rewrite H in S. exists ob. auto. Qed.
Theorem C104_nan_refuted : ~ C104_end.
Proof.
  intro H.
  assert (S : option_map (fun st => hides cracked_env (watched 1 four) st (record_of cracked_env (watched 1 four)))
    (stage1_of (s_o (state_of cracked_env (watched 1 four)))) = Some true) by (vm_compute; reflexivity).
  assert (O : option_map ob_mode (o_observer (s_o (state_of cracked_env (watched 1 four)))) = Some (ob_mode (watcher 1))) by (vm_compute; reflexivity).
  assert (R : match fst (run cracked_env (start_state (watched 1 four))) with Ok _ => true | _ => false end = true) by (vm_compute; reflexivity).
  apply the_pair in R as (set & P).
  apply (map_some _ _ _ _ _) in S as (st & S1 & S).
  apply (map_some _ _ _ _ _) in O as (ob & O1 & O).
  refine (hides_least cracked_env (watched 1 four) s1_new st _ _ S).
  refine (H cracked_env (start_state (watched 1 four)) set _ _ s1_new st (demo_env_ok _ _) (fun _ _ => conj eq_refl eq_refl)
    (watched_observing 1 four) (fresh_watched cracked_env 1 four eq_refl) P (record_recorded _ _) _).
  refine (seen_observing _ ob st O1 _ S1). rewrite O. discriminate.
Qed.
Print Assumptions C104_nan_refuted.
(** What holds, when Stage 1 evaluates to no NaN: from the end of the scatter search on, and when
    the run has ended, the observer shows the least value known and a point that has it, and
    it shows the number of members of the reference set.  Missing: the callbacks inside the
    scatter search, and objectives that return NaN. *)
Theorem C104_least_partial : forall E s set s' new st0, env_ok E -> callbacks_keep_stage1 E ->
  observing1 (o_observer (s_o s)) st0 -> (forall cp, ~ resumes_from E s cp) -> run E s = (Ok set, s') -> recorded s s' new ->
  (forall p v, In (EvStage1 (SsEval p)) new -> pb_objective (e_problem E) p = inl v -> is_nan v = false) ->
  (forall a ob b st, new = a ++ EvCallback None ob :: b -> ob_stage1 ob = Some st -> shows_least st0 st (known E (s_o s) b)) /\
  exists st, observing1 (o_observer (s_o s')) st /\ shows_least st0 st (known E (s_o s) new) /\
    (o_ref (s_o s) = None -> forall refs, o_ref (s_o s') = Some refs -> s1_ref_size st = List.length refs).
Proof. exact c104. Qed.
Print Assumptions C104_least_partial.
(** three such callbacks; what is known are the values of six points and a local solution, which
    is shown *)
Example C104_case : let new := record_of wells_env (watched 1 demo_oqnlp) in
  callbacks_keep_stage1 wells_env /\ observing1 (o_observer (watched 1 demo_oqnlp)) s1_new /\
  (forall cp, ~ resumes_from wells_env (start_state (watched 1 demo_oqnlp)) cp) /\
  forallb (fun x => negb (is_nan (snd x))) (known wells_env demo_oqnlp new) = true /\ List.length (known wells_env demo_oqnlp new) = 7 /\
  List.length (filter (fun e => match e with EvCallback None _ => true | _ => false end) new) = 3 /\
  option_map (fun st => (s1_best st, s1_best_point st, s1_ref_size st)) (stage1_of (s_o (state_of wells_env (watched 1 demo_oqnlp))))
    = Some (f0, Some [of_Z (-2)], 6).
Proof.
  cbv zeta. split; [intros n o; auto|]. split; [apply watched_observing|]. split; [apply fresh_watched; reflexivity|].
  split; [vm_compute; reflexivity|]. split; [vm_compute; reflexivity|]. split; vm_compute; reflexivity.
Qed.
