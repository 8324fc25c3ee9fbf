(** * What the verbose output says (C89) *)
From Coq Require Import ZArith NArith List Bool Arith Lia String.
From Verif Require Import F64 Base Builders Types Filters Runner Observer Env EnvSpec
  ScatterSearch Codec Checkpoint Oqnlp Verbose Spec SpecStage2 SpecObserver SpecVerbose
  SolverP Wp Actions RunP SetP FrameP EmitsP CountP HoareP CheckpointP TargetP AllP VerboseP.
Import ListNotations.
Local Open Scope monad_scope.

(** ** A run that is not verbose prints nothing *)
Section Mute.
Context (E : env) (io : nat -> bool).
Definition mute {A} (m : VM A) : Prop := forall s c, snd (snd (m (s, c))) = c.
Lemma mu_bind : forall A B (m : VM A) (k : A -> VM B), mute m -> (forall a, mute (k a)) -> mute (bind m k).
Proof.
  intros A B m k H1 H2 s c. unfold bind. specialize (H1 s c). destruct (m (s, c)) as [[a|e|] [s1 c1]]; simpl in H1; subst; [apply H2|auto|auto].
Qed.
Lemma mu_quietly : forall A (m : OM A), mute (quietly m).
Proof. intros A m s c. unfold quietly. simpl. destruct (m s). reflexivity. Qed.
Lemma mu_ret : forall A (a : A), mute (ret a). Proof. intros A a s c. reflexivity. Qed.
Lemma mu_fail : forall A e, @mute A (fail e). Proof. intros A e s c. reflexivity. Qed.
Lemma mu_panic : forall A, @mute A panic. Proof. intros A s c. reflexivity. Qed.
Ltac mu1 :=
  match goal with
  | |- mute (bind _ _) => apply mu_bind; [|intro]
  | |- mute (quietly _) => apply mu_quietly
  | |- mute (ret _) => apply mu_ret
  | |- mute (fail _) => apply mu_fail
  | |- mute panic => apply mu_panic
  | |- mute (say _ false _) => unfold say
  | |- mute (say_target _ false _) => unfold say_target
  | |- mute (say_added _ false _ _ _) => unfold say_added
  | |- mute (let '(_, _) := ?x in _) => destruct x
  | |- mute (if ?b then _ else _) => destruct b
  | |- mute (match ?x with _ => _ end) => destruct x
  end.
Ltac mu := repeat mu1.
Lemma mu_process : forall s, mute (v_process_local_solution E io false s).
Proof. intro. unfold v_process_local_solution. cbv zeta. mu. Qed.
Lemma mu_count : forall i u, mute (v_count_unchanged io false i u). Proof. intros. unfold v_count_unchanged. mu. Qed.
Lemma mu_save : mute (v_maybe_save E io false). Proof. unfold v_maybe_save, v_save. mu. Qed.
Lemma mu_final : mute (v_final_save E io false). Proof. unfold v_final_save, v_save. mu. Qed.
Lemma mu_one : forall objs i p u, mute (v_process_one E io false objs i p u).
Proof. intros. unfold v_process_one. cbv zeta. mu; first [apply mu_process|apply mu_count|apply mu_save]. Qed.
Lemma mu_seq : forall start res objs l u, mute (v_batch_sequential E io false start res objs l u).
Proof. intros start res objs. induction l as [|[i p] l IH]; intro u; simpl; mu; auto. apply mu_one. Qed.
Lemma mu_quicks : forall l u, mute (v_quicks E io false l u).
Proof. induction l as [|[[i p] x] l IH]; intro u; simpl; mu; auto. unfold v_quick. mu; first [apply mu_count|apply mu_save]. Qed.
Lemma mu_results : forall l u, mute (v_par_results E io false l u).
Proof. induction l as [|[[[i p] x] [s n]] l IH]; intro u; simpl; mu; auto. unfold v_par_result. mu; first [apply mu_process|apply mu_save]. Qed.
Lemma mu_singles : forall l u, mute (v_singles E io false l u).
Proof. induction l as [|[[i p] x] l IH]; intro u; simpl; mu; auto. unfold v_single. mu; first [apply mu_process|apply mu_save]. Qed.
Lemma mu_par : forall start res objs l u, mute (v_batch_parallel E io false start res objs l u).
Proof.
  intros start res objs l u. unfold v_batch_parallel. cbv zeta. match goal with |- mute (if ?b then _ else _) => destruct b end; [mu|].
  do 5 (apply mu_bind; [apply mu_quietly|intro]). match goal with |- context [partition ?f ?x] => destruct (partition f x) as [local quick] end.
  apply mu_bind; [apply mu_quietly|intro]. apply mu_bind; [apply mu_quicks|intro]. mu; first [apply mu_results|apply mu_singles].
Qed.
Lemma mu_loop : forall size start res objs l u, mute (v_stage2_loop E io false size start res objs l u).
Proof. intros size start res objs. induction l as [|b l IH]; intro u; simpl; mu; auto; first [apply mu_par|apply mu_seq]. Qed.
Lemma mu_stage1 : mute (v_stage1 E io false).
Proof.
  unfold v_stage1. apply mu_bind; [mu|intro]. do 2 (apply mu_bind; [apply mu_quietly|intro]). destruct (stage1_init E _ _) as [s3|e|]; [|mu|mu]. destruct (ss_run E s3) as [res sf]. cbv zeta.
  mu. apply mu_process.
Qed.
Lemma mu_stage2 : forall res refs objs u, mute (v_stage2 E io false res refs objs u).
Proof. intros. unfold v_stage2. cbv zeta. mu; first [apply mu_loop|apply mu_final]. Qed.
Theorem mu_run : mute (v_run E io false).
Proof. unfold v_run, v_try_resume, v_restore. mu; first [apply mu_stage2|apply mu_stage1]. Qed.
End Mute.

(** ** The lines of a verbose run whose writes succeed *)
Lemma lines_push : forall s l out n m, lines (mk_con ((s, l) :: out) n) = lines (mk_con out m) ++ [l].
Proof. intros. unfold lines. simpl. reflexivity. Qed.
Lemma lines_out : forall c n, lines c = lines (mk_con (c_out c) n).
Proof. intros [out m] n. reflexivity. Qed.
Lemma sets_app : forall a b, sets_of (a ++ b) = sets_of b ++ sets_of a.
Proof. intros. unfold sets_of. rewrite rev_app_distr, flat_map_app. reflexivity. Qed.
Lemma relaxed_app : forall a b, relaxed_to (a ++ b) = relaxed_to b ++ relaxed_to a.
Proof. intros. unfold relaxed_to. rewrite rev_app_distr, flat_map_app. reflexivity. Qed.
Lemma files_app : forall a b, files_of (a ++ b) = files_of b ++ files_of a.
Proof. intros. unfold files_of. rewrite rev_app_distr, flat_map_app. reflexivity. Qed.
Lemma changes_app : forall a b, said_changes (a ++ b) = said_changes a ++ said_changes b.
Proof. intros. apply flat_map_app. Qed.
Lemma said_app : forall a b, said_files (a ++ b) = said_files a ++ said_files b.
Proof. intros. apply flat_map_app. Qed.
(** events that the output need not mention *)
Definition plain (e : event) : Prop :=
  match e with EvSolutionSet _ | EvRelax _ | EvSave _ _ => False | _ => True end.
Lemma plain_sets : forall l, Forall plain l -> sets_of l = [].
Proof.
  induction 1 as [|e l H _ IH]; [reflexivity|]. change (e :: l) with ([e] ++ l). rewrite sets_app, IH. destruct e; try contradiction; reflexivity.
Qed.
Lemma plain_relaxed : forall l, Forall plain l -> relaxed_to l = [].
Proof.
  induction 1 as [|e l H _ IH]; [reflexivity|]. change (e :: l) with ([e] ++ l). rewrite relaxed_app, IH. destruct e; try contradiction; reflexivity.
Qed.
Lemma plain_files : forall l, Forall plain l -> files_of l = [].
Proof.
  induction 1 as [|e l H _ IH]; [reflexivity|]. change (e :: l) with ([e] ++ l). rewrite files_app, IH. destruct e; try contradiction; reflexivity.
Qed.
Lemma last_cons : forall A (l : list A) a d, last (a :: l) d = last l a.
Proof.
  intros A l. induction l as [|b l IH]; intros a d; [reflexivity|]. change (last (a :: b :: l) d) with (last (b :: l) d). rewrite !IH. reflexivity.
Qed.
Lemma announce_snoc : forall sets b x, announce b (sets ++ [x]) = announce b sets ++ entry (last (map Some sets) b) x.
Proof.
  induction sets as [|y sets IH]; intros b x; cbn [announce app map]; [apply app_nil_r|]. rewrite IH, app_assoc, last_cons. reflexivity.
Qed.
Lemma last_snoc : forall A (l : list A) x d, last (l ++ [x]) d = x.
Proof. intros. apply last_last. Qed.

Section Narrate.
Context (E : env) (io : nat -> bool) (Hio : forall n, io n = true) (T0 : list event) (b0 : option solset) (f : f64).
(** the output so far tells the events so far; [X]: files not yet mentioned *)
Definition shape (X : list fname) (s : st) (c : con) : Prop :=
  exists new, trace s = new ++ T0 /\
    filter about_set (lines c) = announce b0 (sets_of new) /\ o_set (s_o s) = last (map Some (sets_of new)) b0 /\
    p_threshold_factor (o_params (s_o s)) = f /\
    relaxed_to new = map (fun ab => relaxed f (fst ab)) (said_changes (lines c)) /\
    files_of new = said_files (lines c) ++ X /\
    Forall (true_then E) (c_out c).
Definition told : st -> con -> Prop := shape [].
Definition cut (s : st) (c : con) : Prop := exists X, List.length X <= 1 /\ shape X s c.
Lemma told_cut : forall s c, told s c -> cut s c. Proof. intros s c H. exists []. split; [simpl; lia|exact H]. Qed.
(** from [P], a normal outcome satisfies [Q] and any other the narration up to there *)
Definition tri {A} (F : st -> Prop) (m : VM A) (G : A -> st -> Prop) : Prop := forall s c, told s c -> F s ->
  match m (s, c) with
  | (Ok a, (s', c')) => told s' c' /\ G a s'
  | (_, (s', c')) => cut s' c'
  end.
Lemma t_bind : forall A B (F : st -> Prop) (m : VM A) (G : A -> st -> Prop) (k : A -> VM B) H, tri F m G -> (forall a, tri (G a) (k a) H) -> tri F (bind m k) H.
Proof.
  intros A B F m G k H H1 H2 s c I1 I2. unfold bind. specialize (H1 s c I1 I2). destruct (m (s, c)) as [[a|e|] [s1 c1]]; [|exact H1|exact H1].
  destruct H1 as [J1 J2]. exact (H2 a s1 c1 J1 J2).
Qed.
Lemma t_pre : forall A (F F' : st -> Prop) (m : VM A) G, tri F' m G -> (forall s, F s -> F' s) -> tri F m G.
Proof. intros A F F' m G H1 H2 s c I1 I2. apply H1; auto. Qed.
Lemma t_post : forall A (F : st -> Prop) (m : VM A) (G G' : A -> st -> Prop), tri F m G' -> (forall a s, G' a s -> G a s) -> tri F m G.
Proof.
  intros A F m G G' H1 H2 s c I1 I2. specialize (H1 s c I1 I2). destruct (m (s, c)) as [[a|e|] [s1 c1]]; [|exact H1|exact H1].
  destruct H1. split; auto.
Qed.
Lemma t_ret : forall A (F : st -> Prop) (a : A) (G : A -> st -> Prop), (forall s, F s -> G a s) -> tri F (ret a) G.
Proof. intros A F a G H s c I1 I2. split; auto. Qed.
Lemma t_fail : forall A e (F : st -> Prop) (G : A -> st -> Prop), tri F (fail e) G.
Proof. intros A e F G s c I1 I2. apply told_cut. exact I1. Qed.
Lemma t_panic : forall A (F : st -> Prop) (G : A -> st -> Prop), tri F panic G.
Proof. intros A F G s c I1 I2. apply told_cut. exact I1. Qed.
Definition fixed (o : oqnlp) : option solset * params := (o_set o, o_params o).
Lemma told_plain : forall s c s', told s c -> (exists n, trace s' = n ++ trace s /\ Forall plain n) -> fixed (s_o s') = fixed (s_o s) -> told s' c.
Proof.
  intros s c s' (new & H1 & H2 & H3 & H4 & H5 & H6 & H7) (n & N1 & N2) K. unfold fixed in K. injection K as K1 K2.
  exists (n ++ new). rewrite sets_app, relaxed_app, files_app, (plain_sets n N2), (plain_relaxed n N2), (plain_files n N2), !app_nil_r.
  rewrite K1, K2. split; [rewrite N1, H1, app_assoc; reflexivity|]. rewrite app_nil_r in H6. auto 10.
Qed.
Lemma t_quiet : forall A (m : OM A) (F : st -> Prop) (G : A -> st -> Prop), emits plain m -> keeps fixed m ->
  (forall s a s', F s -> m s = (Ok a, s') -> G a s') -> tri F (quietly m) G.
Proof.
  intros A m F G He Hk HG s c I1 I2. unfold quietly. cbn [fst snd]. pose proof (told_plain s c (snd (m s)) I1 (He s) (Hk s)) as H.
  destruct (m s) as [[a|e|] s'] eqn:Hm; simpl in H; [split; eauto|apply told_cut, H|apply told_cut, H].
Qed.
(** reading the state *)
Lemma t_get : forall F : st -> Prop, tri F (quietly the_oqnlp) (fun o s => F s /\ o = s_o s).
Proof. intros F s c I1 I2. simpl. split; auto. Qed.
(** a step that leaves what [F] says *)
Lemma t_keep : forall A B (m : OM A) (h : oqnlp -> B) (F : st -> Prop), emits plain m -> keeps fixed m -> keeps h m ->
  (forall s s', F s -> h (s_o s') = h (s_o s) -> F s') -> tri F (quietly m) (fun _ => F).
Proof.
  intros A B m h F H1 H2 H3 H4. apply t_quiet; [exact H1|exact H2|]. intros s a s' I1 I2. eapply H4; [exact I1|].
  specialize (H3 s). rewrite I2 in H3. exact H3.
Qed.
Definition neutral (l : line) : Prop := about_set l = false /\ said_changes [l] = [] /\ said_files [l] = [].
Lemma t_print : forall l (F : st -> Prop), neutral l -> (forall s, F s -> true_then E (s, l)) -> tri F (print io l) (fun _ => F).
Proof.
  intros l F (N1 & N2 & N3) HT s c (new & H1 & H2 & H3 & H4 & H5 & H6 & H7) I2. unfold print. rewrite Hio. split; [|exact I2].
  exists new. rewrite (lines_push s l (c_out c) _ (c_writes c)), <- lines_out. rewrite filter_app, changes_app, said_app, N2, N3, !app_nil_r.
  simpl filter. rewrite N1, app_nil_r. rewrite app_nil_r in H6. cbn [c_out]. auto 10.
Qed.
Lemma t_say : forall l (F : st -> Prop), neutral l -> (forall s, F s -> true_then E (s, l)) -> tri F (say io true l) (fun _ => F).
Proof. intros. unfold say. apply t_print; auto. Qed.
End Narrate.

(** ** The parts of a run *)
Section Parts.
Context (E : env) (io : nat -> bool) (Hio : forall n, io n = true) (T0 : list event) (b0 : option solset) (f : f64).
Notation told := (told E T0 b0 f).
Notation cut := (cut E T0 b0 f).
Notation tri := (tri E T0 b0 f).
Lemma told_set : forall s c s' set l1 l2 sa sb n k, told s c -> trace s' = n ++ EvSolutionSet set :: trace s -> Forall plain n ->
  o_set (s_o s') = Some set -> o_params (s_o s') = o_params (s_o s) -> entry (o_set (s_o s)) set = [l1; l2] ->
  about_set l1 = true -> about_set l2 = true ->
  told s' (mk_con ((sb, l2) :: (sa, l1) :: c_out c) k).
Proof.
  intros s c s' set l1 l2 sa sb n k (new & H1 & H2 & H3 & H4 & H5 & H6 & H7) N1 N2 N3 N4 N5 L1 L2. exists (n ++ EvSolutionSet set :: new).
  assert (S1 : sets_of (n ++ EvSolutionSet set :: new) = sets_of new ++ [set]).
  { rewrite sets_app, (plain_sets n N2), app_nil_r. change (EvSolutionSet set :: new) with ([EvSolutionSet set] ++ new). rewrite sets_app. reflexivity. }
  assert (S2 : relaxed_to (n ++ EvSolutionSet set :: new) = relaxed_to new).
  { rewrite relaxed_app, (plain_relaxed n N2), app_nil_r. change (EvSolutionSet set :: new) with ([EvSolutionSet set] ++ new). rewrite relaxed_app. apply app_nil_r. }
  assert (S3 : files_of (n ++ EvSolutionSet set :: new) = files_of new).
  { rewrite files_app, (plain_files n N2), app_nil_r. change (EvSolutionSet set :: new) with ([EvSolutionSet set] ++ new). rewrite files_app. apply app_nil_r. }
  rewrite S1, S2, S3. rewrite (lines_push sb l2 _ k 0), (lines_push sa l1 _ 0 (c_writes c)), <- lines_out, <- (app_assoc (lines c)). cbn [app].
  rewrite filter_app, changes_app, said_app. cbn [filter]. rewrite L1, L2, announce_snoc, <- H3, N5, H2.
  assert (Z : said_changes [l1; l2] = [] /\ said_files [l1; l2] = []).
  { destruct l1; try discriminate L1; destruct l2; try discriminate L2; auto. }
  destruct Z as [-> ->]. rewrite !app_nil_r. rewrite app_nil_r in H6. rewrite map_app. cbn [map]. rewrite last_snoc, N4.
  split; [rewrite N1, H1, <- app_assoc; reflexivity|]. split; [reflexivity|]. split; [exact N3|]. split; [exact H4|]. split; [exact H5|]. split; [exact H6|].
  cbn [c_out]. constructor; [destruct l2; try discriminate L2; exact I|]. constructor; [destruct l1; try discriminate L1; exact I|exact H7].
Qed.
Definition at_iteration (i : nat) (s : st) : Prop := o_iteration (s_o s) = i.
Lemma out_of_bounds : forall b p, within_bounds b p = Some false -> outside b p.
Proof.
  induction b as [|[lo hi] b IH]; intros [|x p] H; simpl in H; try discriminate H.
  destruct (flt x lo || fgt x hi) eqn:H1.
  - exists 0, (lo, hi), x. split; [reflexivity|]. split; [reflexivity|]. apply orb_true_iff in H1. exact H1.
  - destruct (IH p H) as (i & r & y & H2 & H3 & H4). exists (S i), r, y. auto.
Qed.
Lemma rev_snoc_entry : forall b l x, l <> [] -> entry b (l ++ [x]) = [LAdded (ls_obj x) (ls_point x); LSize (List.length (l ++ [x]))].
Proof.
  intros b l x H. unfold entry. rewrite rev_app_distr. cbn [rev app]. destruct (rev l) eqn:R.
  - exfalso. apply H. rewrite <- (rev_involutive l), R. reflexivity.
  - destruct b; reflexivity.
Qed.
Lemma t_process : forall i x, tri (at_iteration i) (v_process_local_solution E io true x)
  (fun added s => at_iteration i s /\ (added = true -> newest (s_o s) x)).
Proof.
  intros i x. unfold v_process_local_solution. eapply t_bind; [apply t_get|intro o]. cbv beta.
  eapply t_bind with (G := fun inside s => (at_iteration i s /\ o = s_o s) /\
    (inside = false -> o_exclude o = true /\ outside (pb_bounds (e_problem E)) (ls_point x))).
  { apply t_quiet; [parts|parts|]. intros s a s' [H1 H2] H3.
    assert (X : s' = s) by (destruct (o_exclude o); [destruct (within_bounds _ _); [injection H3 as _ <-; reflexivity|discriminate H3]|injection H3 as _ <-; reflexivity]).
    subst s'. split; [auto|]. intros ->. destruct (o_exclude o); [|discriminate H3]. split; [reflexivity|].
    destruct (within_bounds _ _) eqn:W; [injection H3 as ->|discriminate H3]. apply out_of_bounds. exact W. }
  intros [|]; cbn [negb].
  - destruct (o_set o) as [sols|] eqn:Hset.
    + destruct sols as [|cur sols]; [apply t_panic|]. cbv zeta.
      eapply t_bind with (G := fun _ s => at_iteration i s /\ o_set (s_o s) = Some (cur :: sols)).
      { apply t_quiet; [parts|parts|]. intros s a s' [[H1 H2] _] H3. injection H3 as _ <-. subst o. split; [exact H1|exact Hset]. }
      intro. match goal with |- VerboseLinesP.tri _ _ _ _ _ (bind (if ?b then _ else _) _) _ => destruct b end.
      * intros s c T [H1 H2]. unfold say, print, bind, quietly, ret. cbn [fst snd]. unfold set_solutions, set_threshold, obs, add_to_filter, upd, emit, modify, bind. cbn [fst snd s_o s_w c_writes].
        rewrite !Hio. cbn [fst snd s_o s_w c_writes c_out].
        split; [|split; [exact H1|discriminate]].
        eapply told_set with (set := [x]) (n := [EvThreshold (ls_obj x)]); [exact T|reflexivity|repeat constructor|reflexivity|reflexivity| |reflexivity|reflexivity].
        rewrite H2. reflexivity.
      * match goal with |- VerboseLinesP.tri _ _ _ _ _ (bind (if ?b then _ else _) _) _ => destruct b end.
        -- intros s c T [H1 H2]. unfold say, print, bind, quietly, ret. cbn [fst snd]. unfold set_solutions, set_threshold, obs, add_to_filter, upd, emit, modify, bind. cbn [fst snd s_o s_w c_writes].
           rewrite !Hio. cbn [fst snd s_o s_w c_writes c_out].
           split; [|split; [exact H1|intros _; exists (cur :: sols); reflexivity]].
           eapply told_set with (set := (cur :: sols) ++ [x]) (n := []); [exact T|reflexivity|constructor|reflexivity|reflexivity| |reflexivity|reflexivity].
           apply rev_snoc_entry. discriminate.
        -- eapply t_bind; [apply t_ret with (G := fun added s => at_iteration i s /\ added = false); intros s [H _]; auto|]. intro added.
           eapply t_bind; [apply t_keep with (h := o_iteration) (F := fun s => at_iteration i s /\ added = false); [unfold add_to_filter; em|unfold add_to_filter; kp|unfold add_to_filter; kp|]|].
           { intros s s' [H1 H2] H3. split; [congruence|exact H2]. }
           intros u. apply t_ret. intros s [H ->]. split; [exact H|discriminate].
    + eapply t_bind with (G := fun _ s => at_iteration i s /\ o_set (s_o s) = None).
      { apply t_quiet; [parts|parts|]. intros s a s' [[H1 H2] _] H3. injection H3 as _ <-. subst o. split; [exact H1|exact Hset]. }
      intros u s c T [H1 H2]. unfold say, print, bind, quietly, ret. rewrite !Hio. cbn [fst snd c_writes c_out]. rewrite ?Hio.
      unfold set_solutions, set_threshold, obs, add_to_filter, upd, emit, modify, bind. cbn [fst snd s_o s_w c_writes c_out].
      split; [|split; [exact H1|intros _; exists []; reflexivity]].
      eapply told_set with (set := [x]) (n := [EvThreshold (ls_obj x)]); [exact T|reflexivity|repeat constructor|reflexivity|reflexivity| |reflexivity|reflexivity].
      rewrite H2. reflexivity.
  - eapply t_bind with (G := fun _ s => at_iteration i s /\ true_then E (s, LRejected (ls_obj x))).
    { apply t_quiet; [parts|parts|]. intros s a s' [[H1 H2] H4] H3. injection H3 as _ <-. destruct (H4 eq_refl) as [H5 H6]. split; [exact H1|].
      cbn [true_then s_o]. subst o. split; [exact H5|]. exists x. eexists. split; [reflexivity|]. auto. }
    intro. eapply t_bind; [apply t_say; [exact Hio|repeat split|intros s H; exact (proj2 H)]|]. intro.
    eapply t_bind; [apply t_pre with (F' := at_iteration i); [|intros s H; exact (proj1 H)]; apply t_keep with (h := o_iteration); [unfold add_to_filter; em|unfold add_to_filter; kp|unfold add_to_filter; kp|]|].
    { intros s s' H1 H3. unfold at_iteration in *. congruence. }
    intro. apply t_ret. intros s H. split; [exact H|discriminate].
Qed.
Lemma t_count : forall i u, tri (at_iteration i) (v_count_unchanged io true i u) (fun _ => at_iteration i).
Proof.
  intros i u. unfold v_count_unchanged. eapply t_bind; [apply t_get|intro o]. cbv beta. destruct (p_wait_cycle (o_params o) <=? S u); [|apply t_ret; intros s H; exact (proj1 H)].
  intros s c (new & H1 & H2 & H3 & H4 & H5 & H6 & H7) [I1 ->]. unfold say, print, bind, quietly, ret. rewrite Hio. cbn [fst snd].
  unfold adjust_threshold, the_oqnlp, get, ret, bind, upd, emit, modify. cbn [fst snd s_o s_w]. split; [|exact I1].
  set (a := mf_threshold (o_merit (s_o s))). set (l := LAdjust i a (announced a)).
  exists (EvRelax (relaxed (p_threshold_factor (o_params (s_o s))) a) :: new).
  change (EvRelax (relaxed (p_threshold_factor (o_params (s_o s))) a) :: new) with ([EvRelax (relaxed (p_threshold_factor (o_params (s_o s))) a)] ++ new).
  rewrite sets_app, relaxed_app, files_app. rewrite (lines_push s l (c_out c) _ (c_writes c)), <- lines_out, filter_app, changes_app, said_app.
  rewrite app_nil_r in H6. unfold l at 1 2 3. cbn [filter about_set]. change (sets_of [EvRelax (relaxed (p_threshold_factor (o_params (s_o s))) a)]) with (@nil solset).
  change (files_of [EvRelax (relaxed (p_threshold_factor (o_params (s_o s))) a)]) with (@nil fname).
  change (relaxed_to [EvRelax (relaxed (p_threshold_factor (o_params (s_o s))) a)]) with [relaxed (p_threshold_factor (o_params (s_o s))) a].
  change (said_changes [LAdjust i a (announced a)]) with [(a, announced a)]. change (said_files [LAdjust i a (announced a)]) with (@nil fname).
  rewrite !app_nil_r, map_app. cbn [map fst]. rewrite H5, H4, H6.
  split; [rewrite <- app_assoc, <- H1; reflexivity|]. split; [exact H2|]. split; [exact H3|]. split; [exact H4|]. split; [reflexivity|]. split; [reflexivity|].
  cbn [c_out]. constructor; [|exact H7]. cbn [true_then]. split; [exact I1|reflexivity].
Qed.
Lemma save_content : forall c cp i d fn d', save_checkpoint E c cp i d = (Ok fn, d') -> lookup (file_name c i) (d_files d') = Some (enc_checkpoint cp).
Proof.
  intros c cp i d fn d' H. destruct (e_io E (d_tick d)) eqn:W.
  - pose proof (content_save E c cp i d (file_name c i) W) as C. rewrite H in C. unfold SpecCheckpoint.content in C. cbn [snd] in C. rewrite C.
    replace (bytes_eqb (file_name c i) (file_name c i)) with true; [reflexivity|]. symmetry. apply bytes_eqb_refl.
  - exfalso. unfold save_checkpoint, fs_write, bind, next_io, fail in H. rewrite W in H. discriminate H.
  - exfalso. unfold save_checkpoint, fs_write, bind, next_io, fail, set_files, modify in H. rewrite W in H. discriminate H.
Qed.
(** what is true of the settings and stays so *)
Lemma t_save : forall (F : oqnlp -> Prop) b c, tri (fun s => F (s_o s)) (v_save E io true b c) (fun _ s => F (s_o s)).
Proof.
  intros F b c s cn (new & H1 & H2 & H3 & H4 & H5 & H6 & H7) I1. unfold v_save, bind at 1. unfold quietly at 1. cbn [fst snd].
  unfold save_now, create_checkpoint, tick, the_oqnlp, get, ret, emit, modify, bind, on_disk. cbn [fst snd s_o s_w w_disk w_tick w_trace rev app].
  match goal with |- context [save_checkpoint E c ?x ?i ?d] => set (cp := x); destruct (save_checkpoint E c cp i d) as [[fn|e|] d'] eqn:Hsv end; cbv beta iota zeta.
  all: set (s' := mk_st (s_o s) (mk_world d' (S (w_tick (s_w s))) (EvSave (file_name c (o_iteration (s_o s))) cp :: w_trace (s_w s)))).
  2,3: cbn [fst snd]; exists [file_name c (o_iteration (s_o s))]; split; [simpl; lia|]; exists (EvSave (file_name c (o_iteration (s_o s))) cp :: new);
       change (EvSave (file_name c (o_iteration (s_o s))) cp :: new) with ([EvSave (file_name c (o_iteration (s_o s))) cp] ++ new);
       rewrite sets_app, relaxed_app, files_app, app_nil_r, app_nil_r; rewrite app_nil_r in H6; rewrite H6;
       split; [unfold s', trace; cbn [s_w w_trace]; unfold trace in H1; rewrite H1; reflexivity|]; auto 10.
  unfold quietly. cbn [fst snd]. unfold say, print. rewrite Hio. split; [|exact I1].
  set (l := (if b then LFinal else LSaved) (file_name c (o_iteration (s_o s)))).
  exists (EvSave (file_name c (o_iteration (s_o s))) cp :: new).
  change (EvSave (file_name c (o_iteration (s_o s))) cp :: new) with ([EvSave (file_name c (o_iteration (s_o s))) cp] ++ new).
  rewrite sets_app, relaxed_app, files_app, app_nil_r, app_nil_r; rewrite app_nil_r in H6; rewrite H6.
  rewrite (lines_push s' _ (c_out cn) _ (c_writes cn)), <- lines_out, filter_app, changes_app, said_app.
  assert (L : about_set l = false /\ said_changes [l] = [] /\ said_files [l] = [file_name c (o_iteration (s_o s))]) by (unfold l; destruct b; repeat split).
  destruct L as (L1 & L2 & L3). cbn [s' s_o]. fold l. rewrite L2, L3. cbn [filter]. rewrite L1, !app_nil_r.
  split; [unfold s', trace; cbn [s_w w_trace]; unfold trace in H1; rewrite H1; reflexivity|].
  split; [exact H2|]. split; [exact H3|]. split; [exact H4|]. split; [exact H5|]. split; [reflexivity|]. cbn [c_out]. constructor; [|exact H7].
  assert (G : exists cp r, w_trace (s_w s') = EvSave (file_name c (o_iteration (s_o s))) cp :: r /\
      lookup (file_name c (o_iteration (s_o s))) (d_files (w_disk (s_w s'))) = Some (enc_checkpoint cp)).
  { exists cp. eexists. split; [reflexivity|]. eapply save_content. exact Hsv. }
  unfold l. destruct b; exact G.
Qed.
End Parts.

(** ** Whole runs *)
Section Whole.
Context (E : env) (io : nat -> bool) (Hio : forall n, io n = true) (T0 : list event) (b0 : option solset) (f : f64).
Notation told := (told E T0 b0 f).
Notation tri := (tri E T0 b0 f).
Definition anyway (s : st) : Prop := True.
Lemma t_any : forall A (F : st -> Prop) (m : VM A) (G : A -> st -> Prop), tri F m G -> tri F m (fun _ => anyway).
Proof. intros. eapply t_post; [eassumption|]. intros. exact I. Qed.
Lemma t_look : forall F : st -> Prop, tri F (quietly the_oqnlp) (fun _ => F).
Proof. intro F. eapply t_post; [apply t_get|]. intros a s H. exact (proj1 H). Qed.
Lemma t_process' : forall x, tri anyway (v_process_local_solution E io true x) (fun _ => anyway).
Proof.
  intros x s c T _. pose proof (t_process E io Hio T0 b0 f (o_iteration (s_o s)) x s c T eq_refl) as H.
  destruct (v_process_local_solution E io true x (s, c)) as [[a|e|] [s' c']]; [|exact H|exact H]. split; [exact (proj1 H)|exact I].
Qed.
(** an addition that is reported belongs to iteration [i] *)
Definition reports (added : bool) (i : nat) (x : lsol) (s : st) : Prop := at_iteration i s /\ (added = true -> newest (s_o s) x).
Definition watched (o : oqnlp) : nat * option solset := (o_iteration o, o_set o).
Lemma t_reports : forall A (m : OM A) added i x, emits plain m -> keeps fixed m -> keeps watched m ->
  tri (reports added i x) (quietly m) (fun _ => reports added i x).
Proof.
  intros A m added i x H1 H2 H3. eapply t_keep; [exact H1|exact H2|exact H3|]. intros s s' [G1 G2] G3. unfold watched in G3. injection G3 as G3 G4.
  split; [unfold at_iteration in *; congruence|]. intro Ha. unfold newest in *. rewrite G4. auto.
Qed.
Lemma t_at : forall A (m : OM A) i, emits plain m -> keeps fixed m -> keeps o_iteration m -> tri (at_iteration i) (quietly m) (fun _ => at_iteration i).
Proof. intros A m i H1 H2 H3. eapply t_keep; [exact H1|exact H2|exact H3|]. unfold at_iteration. congruence. Qed.
Lemma t_free : forall A (m : OM A) (F : st -> Prop), emits plain m -> keeps fixed m -> tri F (quietly m) (fun _ => anyway).
Proof. intros A m F H1 H2. apply t_quiet; [exact H1|exact H2|]. intros. exact I. Qed.
Lemma t_begin : forall (F : st -> Prop) i u, tri F (quietly (begin_iteration E i u)) (fun _ => at_iteration i).
Proof.
  intros F i u. apply t_quiet; [parts|parts|]. intros s a s' _ H.
  unfold begin_iteration, upd, the_oqnlp, get, ret, modify, unwrap, emit, bind in H. simpl in H.
  destruct (add_u64 _ _ _); [|discriminate H]. injection H as _ <-. reflexivity.
Qed.
Lemma t_added : forall added i x, tri (reports added i x) (say_added io true added i x) (fun _ => reports added i x).
Proof.
  intros added i x. unfold say_added. destruct added; [|apply t_ret; auto].
  eapply t_bind; [apply t_say; [exact Hio|repeat split|]|intro; apply t_say; [exact Hio|repeat split|]].
  - intros s [H1 H2]. split; [exact H1|]. exists x. auto.
  - intros s [H1 H2]. exists x. auto.
Qed.
Lemma t_stop : forall A (F : st -> Prop) l (ky kn : VM A) H, (forall t, neutral (l t)) -> (forall t s, F s -> at_target E (s_o s) t -> true_then E (s, l t)) ->
  tri F ky H -> tri F kn H ->
  tri F (o <- quietly the_oqnlp ;; stop <- quietly (unwrap (target_reached E o)) ;;
         if (stop : bool) then say_target io true l ;;; ky else kn) H.
Proof.
  intros A F l ky kn H Hl HT Hy Hn. eapply t_bind; [apply t_get|intro o]. cbv beta.
  eapply t_bind with (G := fun stop s => F s /\ o = s_o s /\ target_reached E (s_o s) = Some stop).
  { apply t_quiet; [parts|parts|]. intros s a s' [H1 H2] H3. destruct (target_reached E o) eqn:R; [injection H3 as -> <-|discriminate H3]. subst o. auto. }
  intros [|].
  - eapply t_bind with (G := fun _ => F); [|intro; exact Hy].
    intros s c T (H1 & -> & R). unfold say_target, bind, quietly, the_oqnlp, get, ret, bind. cbn [fst snd].
    apply reached_iff in R as (set & R1 & R2). destruct R2 as (t & best & R3 & R4). rewrite R3. cbn [unwrap ret].
    assert (G : tri (eq s) (print io (l t)) (fun _ => eq s)).
    { apply t_print; [exact Hio|apply Hl|]. intros s0 <-. apply HT; [exact H1|]. split; [exact R3|]. exists set. split; [exact R1|]. exists t, best. auto. }
    specialize (G s c T eq_refl). destruct (print io (l t) (s, c)) as [[a|e|] [s' c']]; [|exact G|exact G]. destruct G as [G1 <-]. split; [exact G1|exact H1].
  - eapply t_pre; [exact Hn|]. intros s G. exact (proj1 G).
Qed.
Lemma t_maybe_save : forall F : oqnlp -> Prop, tri (fun s => F (s_o s)) (v_maybe_save E io true) (fun _ s => F (s_o s)).
Proof.
  intro F. unfold v_maybe_save. eapply t_bind; [apply t_look|intro o]. destruct (o_cp o) as [c|]; [|apply t_ret; auto].
  destruct (cc_save_frequency c); [apply t_panic|]. match goal with |- VerboseLinesP.tri _ _ _ _ _ (if ?b then _ else _) _ => destruct b end; [apply t_save; exact Hio|apply t_ret; auto].
Qed.
Lemma t_maybe_save' : forall F : st -> Prop, tri F (v_maybe_save E io true) (fun _ => anyway).
Proof. intro F. apply t_pre with (F' := fun s => (fun _ : oqnlp => True) (s_o s)); [exact (t_maybe_save (fun _ => True))|intros; exact I]. Qed.
Lemma t_final_save : tri anyway (v_final_save E io true) (fun _ => anyway).
Proof.
  unfold v_final_save. eapply t_bind; [apply t_look|intro o]. destruct (o_cp o) as [c|]; [apply (t_save E io Hio T0 b0 f (fun _ => True))|apply t_ret; auto].
Qed.
Lemma t_iter_target : forall i (F : st -> Prop) t s, (forall s, F s -> at_iteration i s) -> F s -> at_target E (s_o s) t -> true_then E (s, LIterTarget i t).
Proof. intros i F t s H1 H2 H3. split; [exact (H1 s H2)|exact H3]. Qed.
Ltac any := eapply t_pre; [apply t_ret; intros; exact I|intros; exact I].
Ltac at_step := eapply t_bind; [apply t_at; [parts|parts|parts]|intro].
Ltac rep_step := eapply t_bind; [apply t_reports; [parts|parts|parts]|intro].
Lemma t_one : forall objs i p u, tri anyway (v_process_one E io true objs i p u) (fun _ => anyway).
Proof.
  intros objs i p u. unfold v_process_one. eapply t_bind; [apply t_begin|intro]. at_step.
  eapply t_bind; [apply t_at; [unfold emit_eval; parts|unfold emit_eval; parts|unfold emit_eval; parts]|intro].
  at_step. at_step. eapply t_bind; [apply t_look|intro o]. cbv zeta. at_step.
  eapply t_bind with (G := fun _ => anyway).
  - match goal with |- VerboseLinesP.tri _ _ _ _ _ (if ?b then _ else _) _ => destruct b end.
    + at_step. at_step. at_step. eapply t_bind; [apply t_process; exact Hio|intro added]. cbv beta.
      change (fun s => at_iteration i s /\ (added = true -> newest (s_o s) (fst a7))) with (reports added i (fst a7)).
      rep_step. eapply t_bind; [apply t_added|intro]. apply t_stop; [repeat split| |any|any].
      intros t s H. apply t_iter_target with (F := reports added i (fst a7)); [intros s0 G; exact (proj1 G)|exact H].
    + eapply t_bind; [apply t_count; exact Hio|intro]. any.
  - intros [u' stop]. destruct stop; [any|]. eapply t_bind; [apply t_free; [parts|parts]|intro]. eapply t_bind; [apply t_maybe_save'|intro]. any.
Qed.
Lemma t_seq : forall start res objs l u, tri anyway (v_batch_sequential E io true start res objs l u) (fun _ => anyway).
Proof.
  intros start res objs. induction l as [|[i p] l IH]; intro u; simpl; [any|]. destruct (res && (i <? start)); [apply IH|].
  eapply t_bind; [apply t_one|intros [u' stop]]. destruct stop; [any|apply IH].
Qed.
Lemma t_quicks : forall l u, tri anyway (v_quicks E io true l u) (fun _ => anyway).
Proof.
  induction l as [|[[i p] x] l IH]; intro u; simpl; [any|]. eapply t_bind; [|intro; apply IH]. unfold v_quick.
  eapply t_bind; [apply t_begin|intro]. eapply t_bind; [apply t_count; exact Hio|intro]. at_step. at_step. eapply t_bind; [apply t_maybe_save'|intro]. any.
Qed.
Lemma t_results : forall l u, tri anyway (v_par_results E io true l u) (fun _ => anyway).
Proof.
  induction l as [|[[[i p] x] [sol n]] l IH]; intro u; simpl; [any|].
  eapply t_bind with (G := fun _ => anyway); [|intros [|]; [any|apply IH]]. unfold v_par_result.
  eapply t_bind; [apply t_begin|intro]. at_step. eapply t_bind; [apply t_process; exact Hio|intro added]. cbv beta.
  change (fun s => at_iteration i s /\ (added = true -> newest (s_o s) sol)) with (reports added i sol).
  rep_step. eapply t_bind; [apply t_added|intro]. rep_step. rep_step. apply t_stop; [repeat split| |any|eapply t_bind; [apply t_maybe_save'|intro]; any].
  intros t s H. apply t_iter_target with (F := reports added i sol); [intros s0 G; exact (proj1 G)|exact H].
Qed.
Lemma t_singles : forall l u, tri anyway (v_singles E io true l u) (fun _ => anyway).
Proof.
  induction l as [|[[i p] x] l IH]; intro u; simpl; [any|].
  eapply t_bind with (G := fun _ => anyway); [|intros [|]; [any|apply IH]]. unfold v_single.
  eapply t_bind; [apply t_begin|intro]. at_step. eapply t_bind; [apply t_look|intro o]. at_step. eapply t_bind; [apply t_at; [parts|parts|parts]|intro r].
  eapply t_bind; [apply t_process; exact Hio|intro added]. cbv beta.
  change (fun s => at_iteration i s /\ (added = true -> newest (s_o s) (fst r))) with (reports added i (fst r)).
  rep_step. rep_step. rep_step. eapply t_bind; [apply t_added|intro]. apply t_stop; [repeat split| |any|eapply t_bind; [apply t_maybe_save'|intro]; any].
  intros t s H. apply t_iter_target with (F := reports added i (fst r)); [intros s0 G; exact (proj1 G)|exact H].
Qed.
Ltac free := eapply t_bind; [apply t_free; [parts|parts]|intro].
Lemma t_par : forall start res objs l u, tri anyway (v_batch_parallel E io true start res objs l u) (fun _ => anyway).
Proof.
  intros start res objs l u. unfold v_batch_parallel. cbv zeta.
  match goal with |- VerboseLinesP.tri _ _ _ _ _ (if ?b then _ else _) _ => destruct b end; [any|].
  free. free. free. free. eapply t_bind; [apply t_look|intro o].
  match goal with |- context [partition ?f ?x] => destruct (partition f x) as [local quick] end.
  free. eapply t_bind; [apply t_quicks|intro u']. eapply t_bind; [apply t_look|intro o2].
  eapply t_bind with (G := fun _ => anyway); [|intro; any].
  match goal with |- VerboseLinesP.tri _ _ _ _ _ (if ?b then _ else _) _ => destruct b end; [|apply t_singles]. free. free. apply t_results.
Qed.
Lemma t_loop : forall size start res objs l u, tri anyway (v_stage2_loop E io true size start res objs l u) (fun _ => anyway).
Proof.
  intros size start res objs. induction l as [|b l IH]; intro u; simpl; [any|].
  eapply t_bind; [apply t_get|intro o]. cbv beta.
  eapply t_bind with (G := fun timeout s => timeout = true -> exists m, o_max_time o = Some m /\ true_then E (s, LTimeout m)).
  { apply t_quiet; [parts|parts|]. intros s a s' [_ ->] H. destruct (o_max_time (s_o s)) as [m|] eqn:Hm.
    - unfold tick, emit, modify, ret, bind in H. simpl in H. injection H as <- <-. intro G. exists m. split; [reflexivity|]. split; [exact Hm|].
      eexists. eexists. split; [reflexivity|exact G].
    - injection H as <- _. discriminate. }
  intros [|].
  - destruct (o_max_time o) as [m|]; [|any]. eapply t_any, t_say; [exact Hio|repeat split|]. intros s H. destruct (H eq_refl) as (m' & M1 & M2). injection M1 as <-. exact M2.
  - free. eapply t_bind with (G := fun _ => anyway); [destruct (1 <? size); [apply t_par|apply t_seq]|intro u'].
    apply t_stop; [repeat split| |any|apply IH]. intros t s _ H. exact H.
Qed.
Lemma t_stage1 : tri anyway (v_stage1 E io true) (fun _ => anyway).
Proof.
  unfold v_stage1. eapply t_bind; [apply t_say; [exact Hio|repeat split|intros; exact I]|intro].
  eapply t_bind; [apply t_look|intro o]. free. destruct (stage1_init E o _) as [s3|e|]; [|apply t_fail|apply t_panic]. destruct (ss_run E s3) as [res sf].
  free. free. destruct res as [[pts cand]|e|]; [|apply t_fail|apply t_panic]. cbv zeta. free. free.
  eapply t_bind; [apply t_free; [unfold stage1_enter; parts|unfold stage1_enter; parts]|intro]. eapply t_bind; [apply t_look|intro o'].
  eapply t_bind with (G := fun _ s => exists r, w_trace (s_w s) = EvSearch None cand :: r).
  { apply t_quiet; [parts|parts|]. intros s x s' _ H. injection H as _ <-. eexists. reflexivity. }
  intro. eapply t_bind with (G := fun _ s => exists r, w_trace (s_w s) = EvSearch None cand :: r).
  { apply t_quiet; [parts|parts|]. intros s x s' G H. destruct (solve_tracked _ _ _ _ _); [injection H as _ <-; exact G|discriminate H|discriminate H]. }
  intro r. eapply t_bind with (G := fun _ s => true_then E (s, LStage1Local (ls_obj (fst r)))).
  { apply t_quiet; [parts|parts|]. intros s x s' [past G] H. injection H as _ <-. split; [reflexivity|]. exists cand, past. simpl. rewrite G. reflexivity. }
  intro. eapply t_bind; [apply t_say; [exact Hio|repeat split|auto]|intro]. free. free.
  eapply t_bind; [apply t_process'|intro]. apply t_stop; [repeat split| | |].
  - intros t s _ H. exact H.
  - eapply t_bind; [apply t_free; [unfold end_stage1, stage1_enter; em; parts|unfold end_stage1, stage1_enter; kp; parts]|intro]. any.
  - free. eapply t_bind; [apply t_free; [unfold end_stage1, stage1_enter; em; parts|unfold end_stage1, stage1_enter; kp; parts]|intro]. any.
Qed.
Lemma t_stage2 : forall res refs objs u, tri anyway (v_stage2 E io true res refs objs u) (fun _ => anyway).
Proof.
  intros. unfold v_stage2. eapply t_bind; [apply t_say; [exact Hio|repeat split|intros; exact I]|intro].
  eapply t_bind; [apply t_free; [unfold begin_stage2; parts|unfold begin_stage2; kp; parts]|intro]. eapply t_bind; [apply t_look|intro o].
  free. cbv zeta. eapply t_bind with (G := fun _ => anyway).
  { match goal with |- VerboseLinesP.tri _ _ _ _ _ (if ?b then _ else _) _ => destruct b end; [apply t_panic|apply t_loop]. }
  intro. eapply t_bind; [apply t_final_save|intro]. apply t_free; [unfold final_set; parts|unfold final_set; kp].
Qed.
End Whole.

Section Runs.
Context (E : env) (io : nat -> bool) (Hio : forall n, io n = true).
Lemma restore_case : forall cp s c, v_restore io true cp (s, c) = 
  let s1 := mk_st (restored cp (s_o s)) (s_w s) in
  (Ok tt, (s1, mk_con ((s1, LRestored (cp_iteration cp) (match cp_solution_set cp with Some l => List.length l | None => 0 end)) :: c_out c) (S (c_writes c)))).
Proof. intros cp s c. unfold v_restore, restore_from_checkpoint, upd, modify, bind, quietly, say, print. cbn. rewrite Hio. reflexivity. Qed.
Lemma try_cases : forall s c r s1 c1, v_try_resume E io true (s, c) = (r, (s1, c1)) ->
  trace s1 = trace s /\
  ((r = Ok false /\ s_o s1 = s_o s /\ c1 = c /\ forall cp, ~ resumes_from E s cp) \/
   (exists cp, r = Ok true /\ resumes_from E s cp /\ s_o s1 = restored cp (s_o s) /\
      c1 = mk_con ((s1, LRestored (cp_iteration cp) (match cp_solution_set cp with Some l => List.length l | None => 0 end)) :: c_out c) (S (c_writes c))) \/
   ((forall b, r <> Ok b) /\ s_o s1 = s_o s /\ c1 = c)).
Proof.
  intros s c r s1 c1 H. unfold v_try_resume, bind, quietly, the_oqnlp, get, ret, bind in H. cbn [fst snd] in H.
  destruct (o_cp (s_o s)) as [cc|] eqn:Hc; cbv beta iota zeta in H.
  2:{ injection H as <- <- <-. split; [reflexivity|]. left. split; [auto|]. split; [auto|]. split; [auto|]. intros cp (x & X & _). congruence. }
  destruct (cc_auto_resume cc) eqn:Ha.
  2:{ injection H as <- <- <-. split; [reflexivity|]. left. split; [auto|]. split; [auto|]. split; [auto|]. intros cp (x & X & Y & _). congruence. }
  unfold on_disk in H. cbn [fst snd] in H.
  destruct (checkpoint_exists E cc (w_disk (s_w s))) as [[[|]|e|] d] eqn:He; cbv beta iota zeta in H; cbn [fst snd s_o s_w w_disk w_tick w_trace] in H.
  - destruct (load_latest E cc d) as [[cp|e|] d2] eqn:Hl; cbv beta iota zeta in H; cbn [fst snd s_o s_w w_disk w_tick w_trace] in H.
    + rewrite restore_case in H. cbv zeta in H.
      injection H as <- <- <-. split; [reflexivity|]. right. left. exists cp. split; [reflexivity|]. split; [|split; reflexivity].
      exists cc. rewrite He. cbn [fst snd]. rewrite Hl. auto.
    + injection H as <- <- <-. split; [reflexivity|]. right. right. split; [discriminate|auto].
    + injection H as <- <- <-. split; [reflexivity|]. right. right. split; [discriminate|auto].
  - injection H as <- <- <-. split; [reflexivity|]. left. split; [auto|]. split; [auto|]. split; [auto|].
    intros cp (x & X & Y & Z & _). rewrite Hc in X. injection X as <-. rewrite He in Z. discriminate Z.
  - injection H as <- <- <-. split; [reflexivity|]. right. right. split; [discriminate|auto].
  - injection H as <- <- <-. split; [reflexivity|]. right. right. split; [discriminate|auto].
Qed.
Lemma told_start : forall s1 c1 b f, filter about_set (lines c1) = [] -> said_changes (lines c1) = [] -> said_files (lines c1) = [] -> Forall (true_then E) (c_out c1) ->
  o_set (s_o s1) = b -> p_threshold_factor (o_params (s_o s1)) = f -> told E (trace s1) b f s1 c1.
Proof.
  intros s1 c1 b f H1 H2 H3 H4 H5 H6. exists []. split; [reflexivity|]. rewrite H1, H2, H3. auto 10.
Qed.
Theorem told_run : forall s r s' c' b new, v_run E io true (s, silent) = (r, (s', c')) -> set_before E s b -> recorded s s' new ->
  exists X, filter about_set (lines c') = announce b (sets_of new) /\
    relaxed_to new = map (fun ab => relaxed (p_threshold_factor (o_params (s_o s'))) (fst ab)) (said_changes (lines c')) /\
    files_of new = said_files (lines c') ++ X /\ List.length X <= 1 /\ ((exists set, r = Ok set) -> X = []) /\
    Forall (true_then E) (c_out c').
Proof.
  intros s r s' c' b new H Hb Hn. unfold v_run in H. unfold bind at 1 in H.
  destruct (v_try_resume E io true (s, silent)) as [rr [s1 c1]] eqn:Ht. destruct (try_cases _ _ _ _ _ Ht) as [Tr Hc].
  assert (Go : forall (k : VM solset) f, tri E (trace s1) b f anyway k (fun _ => anyway) -> told E (trace s1) b f s1 c1 -> k (s1, c1) = (r, (s', c')) ->
    exists X, filter about_set (lines c') = announce b (sets_of new) /\
    relaxed_to new = map (fun ab => relaxed (p_threshold_factor (o_params (s_o s'))) (fst ab)) (said_changes (lines c')) /\
    files_of new = said_files (lines c') ++ X /\ List.length X <= 1 /\ ((exists set, r = Ok set) -> X = []) /\
    Forall (true_then E) (c_out c')).
  { intros k f K1 K2 K3. specialize (K1 s1 c1 K2 I). rewrite K3 in K1.
    assert (Sh : exists X, List.length X <= 1 /\ ((exists set, r = Ok set) -> X = []) /\ shape E (trace s1) b f X s' c').
    { destruct r as [set|e|]; [exists []; split; [simpl; lia|]; split; [auto|exact (proj1 K1)]|..];
        destruct K1 as (X & K1 & K4); exists X; (split; [exact K1|]); (split; [intros [? D]; discriminate D|exact K4]). }
    destruct Sh as (X & X1 & X2 & new' & N1 & N2 & N3 & N4 & N5 & N6 & N7). unfold recorded in Hn. unfold trace in *. rewrite Tr in N1.
    assert (new' = new) as -> by (rewrite Hn in N1; apply app_inv_tail in N1; auto). rewrite N4. exists X. auto 10. }
  destruct Hc as [(-> & H2 & -> & H4)|[(cp & -> & H2 & H3 & H4)|(H1 & H2 & ->)]].
  - eapply Go with (f := p_threshold_factor (o_params (s_o s1))); [| |exact H].
    + eapply t_bind; [apply t_stage1; exact Hio|]. intros [[refs objs]|]; [apply t_stage2; exact Hio|].
      apply t_free; [unfold final_set; parts|unfold final_set; kp].
    + apply told_start; auto; try (constructor). rewrite H2. destruct Hb as [[-> _]|(cp & Hb & _)]; [reflexivity|]. exfalso. exact (H4 cp Hb).
  - eapply Go with (f := p_threshold_factor (o_params (s_o s1))); [| |exact H].
    + eapply t_bind with (G := fun o s => o = s_o s).
      { eapply t_post; [apply t_get|]. intros a x G. exact (proj2 G). }
      intro o. eapply t_bind with (G := fun _ => anyway); [|intro; apply t_stage2; exact Hio].
      eapply t_post; [apply t_say; [exact Hio|repeat split|]|intros; exact I]. intros x ->. reflexivity.
    + subst c1. apply told_start; auto.
      * simpl. constructor; [|constructor]. cbn [true_then]. rewrite H3. split; reflexivity.
      * rewrite H3. destruct Hb as [[_ Hb]|(cp' & Hb & ->)]; [exfalso; exact (Hb cp H2)|].
        assert (cp' = cp) as ->; [|reflexivity]. destruct H2 as (c0 & A1 & A2 & A3 & A4), Hb as (c2 & B1 & B2 & B3 & B4). congruence.
  - assert (X : s' = s1 /\ c' = silent /\ forall set, r <> Ok set).
    { destruct rr as [x|e|]; [exfalso; exact (H1 x eq_refl)|..]; injection H as <- <- <-; (split; [auto|]); (split; [auto|discriminate]). }
    destruct X as (-> & -> & X). assert (new = []) as ->.
    { unfold recorded in Hn. unfold trace in Tr. rewrite Tr in Hn. symmetry in Hn. apply (app_inv_tail (w_trace (s_w s)) new []). exact Hn. }
    exists []. simpl. split; [reflexivity|]. split; [reflexivity|]. split; [reflexivity|]. split; [lia|]. split; [auto|constructor].
Qed.

Lemma say_case : forall l s c, say io true l (s, c) = (Ok tt, (s, mk_con ((s, l) :: c_out c) (S (c_writes c)))).
Proof. intros l s c. unfold say, print. rewrite Hio. reflexivity. Qed.
Lemma print_case : forall l s c, print io l (s, c) = (Ok tt, (s, mk_con ((s, l) :: c_out c) (S (c_writes c)))).
Proof. intros l s c. unfold print. rewrite Hio. reflexivity. Qed.
Lemma bind_inv : forall A B (m : VM A) (k : A -> VM B) x b y, bind m k x = (Ok b, y) -> exists a z, m x = (Ok a, z) /\ k a z = (Ok b, y).
Proof. intros A B m k x b y H. unfold bind in H. destruct (m x) as [[a|e|] z]; [eauto|discriminate H|discriminate H]. Qed.
Lemma quietly_inv : forall A (m : OM A) s c a y, quietly m (s, c) = (Ok a, y) -> exists s1, m s = (Ok a, s1) /\ y = (s1, c).
Proof. intros A m s c a y H. unfold quietly in H. cbn [fst snd] in H. destruct (m s) as [r s1]. injection H as -> <-. eauto. Qed.
Lemma on_disk_inv : forall A (f : DM A) s a s1, on_disk f s = (Ok a, s1) -> fst (f (w_disk (s_w s))) = Ok a /\ s_o s1 = s_o s /\ w_disk (s_w s1) = snd (f (w_disk (s_w s))).
Proof. intros A f s a s1 H. unfold on_disk in H. destruct (f (w_disk (s_w s))) as [[x|e|] d]; injection H as H1 <-; try discriminate H1. rewrite H1. auto. Qed.
Theorem told_modified : forall np s s' c', v_resume_modified E io true np (s, silent) = (Ok true, (s', c')) ->
  exists cp, latest_of E s cp /\
    lines c' = (if p_population (cp_params cp) <? p_population np then [LExpanded (p_population (cp_params cp)) (p_population np)]
                else if p_population np <? p_population (cp_params cp)
                then [LSmaller (p_population np) (p_population (cp_params cp)); LKeeping (p_population (cp_params cp))] else [])
               ++ [LRestored (cp_iteration cp) (set_size cp); LModified (p_iterations (cp_params cp)) (p_iterations np)] /\
    Forall (true_then E) (c_out c').
Proof.
  intros np s s' c' H. unfold v_resume_modified in H. apply bind_inv in H as (o & z & H1 & H). apply quietly_inv in H1 as (s1 & H1 & ->). injection H1 as <- <-.
  destruct (o_cp (s_o s)) as [cc|] eqn:Hc; [|discriminate H]. apply bind_inv in H as (ex & z & H1 & H). apply quietly_inv in H1 as (s1 & H1 & ->).
  destruct ex; [|discriminate H]. apply bind_inv in H as (cp & z & H2 & H). apply quietly_inv in H2 as (s2 & H2 & ->).
  apply on_disk_inv in H1 as (D1 & D2 & D3). apply on_disk_inv in H2 as (D4 & D5 & D6). rewrite D3 in D4.
  exists cp. split; [exists cc; auto|]. cbv zeta in H. apply bind_inv in H as (refs & [s3 c3] & H1 & H).
  assert (C3 : Forall (true_then E) (c_out c3) /\ lines c3 = (if p_population (cp_params cp) <? p_population np then [LExpanded (p_population (cp_params cp)) (p_population np)]
                else if p_population np <? p_population (cp_params cp)
                then [LSmaller (p_population np) (p_population (cp_params cp)); LKeeping (p_population (cp_params cp))] else [])).
  { destruct (p_population (cp_params cp) <? p_population np).
    - apply bind_inv in H1 as (r & z & H1 & H2). apply quietly_inv in H1 as (s4 & H1 & ->). unfold bind in H2. rewrite say_case in H2. injection H2 as _ _ <-.
      split; [repeat constructor|reflexivity].
    - destruct (p_population np <? p_population (cp_params cp)).
      + unfold bind in H1. rewrite print_case in H1. cbv beta iota zeta in H1. rewrite say_case in H1. injection H1 as _ _ <-. split; [repeat constructor|reflexivity].
      + injection H1 as _ _ <-. split; [constructor|reflexivity]. }
  destruct C3 as [C3 C4]. unfold bind in H. rewrite restore_case in H. cbv beta iota zeta in H. rewrite say_case in H. injection H as <- <-.
  unfold lines in *. cbn [c_out map rev snd fst]. rewrite C4, <- app_assoc. split; [reflexivity|].
  constructor; [reflexivity|]. constructor; [split; reflexivity|]. exact C3.
Qed.
Theorem told_path : forall f np s s' c', o_cp (s_o s) <> None -> v_resume_path E io true f np (s, silent) = (Ok tt, (s', c')) ->
  exists cp, fst (load_from_path E f (w_disk (s_w s))) = Ok cp /\
    lines c' = [LRestored (cp_iteration cp) (set_size cp); LModifiedFrom f (p_iterations (cp_params cp)) (p_iterations np)] /\
    Forall (true_then E) (c_out c').
Proof.
  intros f np s s' c' Hc H. unfold v_resume_path in H. apply bind_inv in H as (o & z & H1 & H). apply quietly_inv in H1 as (s1 & H1 & ->). injection H1 as <- <-.
  destruct (o_cp (s_o s)) as [cc|]; [|exfalso; apply Hc; reflexivity]. apply bind_inv in H as (cp & z & H1 & H). apply quietly_inv in H1 as (s1 & H1 & ->).
  apply on_disk_inv in H1 as (D1 & D2 & D3). exists cp. split; [exact D1|].
  unfold bind in H. rewrite restore_case in H. cbv beta iota zeta in H. rewrite say_case in H. injection H as <- <-. split; [reflexivity|].
  constructor; [reflexivity|]. constructor; [split; reflexivity|constructor].
Qed.
End Runs.
