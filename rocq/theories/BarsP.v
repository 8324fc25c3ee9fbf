(** * What the progress bars show and do (C84, C85) *)
From Coq Require Import ZArith NArith List Bool Arith Lia String.
From Verif Require Import F64 Base Builders Types Filters Runner Observer Env EnvSpec
  ScatterSearch Codec Checkpoint Oqnlp Bars Spec SpecStage2 SpecObserver SolverP Wp Actions RunP SetP FrameP EmitsP CountP HoareP SaveP SeqP3 ClockP.
Import ListNotations.
Local Open Scope monad_scope.

(** ** Apart from panics the run with bars is the run without them *)
Section Erase.
Context (io : nat -> bool).
(** the calls from [b] to [b'] succeeded *)
Definition fine (b b' : bars) : Prop := forall n, bars_calls b <= n < bars_calls b' -> io n = true.
Definition tracks {S X A} (m : M (S * bars) X A) (m' : M S X A) : Prop := forall s b,
  match m (s, b) with
  | (r, (s', b')) => bars_calls b <= bars_calls b' /\
      (fine b b' /\ m' s = (r, s') \/ r = Panic /\ exists n, bars_calls b <= n < bars_calls b' /\ io n = false)
  end.
Lemma tr_lift : forall S X A (m : M S X A), tracks (blift m) m.
Proof.
  intros S X A m s b. unfold blift. simpl. destruct (m s) as [r s'] eqn:H. split; [lia|]. left. split; [intros n Hn; simpl in Hn; lia|auto].
Qed.
Lemma tr_bind : forall S X A B (m : M (S * bars) X A) m' (k : A -> M (S * bars) X B) k', tracks m m' -> (forall a, tracks (k a) (k' a)) ->
  tracks (bind m k) (bind m' k').
Proof.
  intros S X A B m m' k k' H1 H2 s b. unfold bind. specialize (H1 s b). destruct (m (s, b)) as [[a|e|] [s1 b1]].
  - destruct H1 as [L [[G1 G2]|[G1 G2]]]; [|discriminate G1]. specialize (H2 a s1 b1). destruct (k a (s1, b1)) as [r [s2 b2]].
    destruct H2 as [L' H2]. split; [lia|]. rewrite G2. destruct H2 as [[H2 H3]|[-> (n & H3 & H4)]].
    + left. split; [|exact H3]. intros n Hn. destruct (le_lt_dec (bars_calls b1) n); [apply H2|apply G1]; lia.
    + right. split; [reflexivity|]. exists n. split; [lia|auto].
  - destruct H1 as [L [[G1 G2]|[G1 G2]]]; [|discriminate G1]. split; [auto|]. left. rewrite G2. auto.
  - destruct H1 as [L [[G1 G2]|[_ G2]]]; (split; [auto|]); [left; rewrite G2; auto|right; auto].
Qed.
Lemma tr_ret : forall S X A (a : A), @tracks S X A (ret a) (ret a).
Proof. intros. intros s b. simpl. split; [lia|]. left. split; [intros n Hn; lia|auto]. Qed.
Lemma tr_fail : forall S X A e, @tracks S X A (fail e) (fail e).
Proof. intros. intros s b. simpl. split; [lia|]. left. split; [intros n Hn; lia|auto]. Qed.
Lemma tr_panic : forall S X A, @tracks S X A panic panic.
Proof. intros. intros s b. simpl. split; [lia|]. left. split; [intros n Hn; lia|auto]. Qed.
(** an update of a bar, and what comes next *)
Definition counts_on (f : bars -> bars) : Prop := forall b, bars_calls (f b) = bars_calls b.
Lemma tr_expect : forall S X A f (k : M (S * bars) X A) k', counts_on f -> tracks k k' -> tracks (bind (expect io f) (fun _ => k)) k'.
Proof.
  intros S X A f k k' Hf Hk s b. unfold bind, expect. simpl. destruct (io (bars_calls b)) eqn:Hio.
  - match goal with |- context [k (s, ?x)] => set (b1 := x); assert (L : bars_calls b1 = Datatypes.S (bars_calls b)) by (unfold b1; rewrite Hf; reflexivity) end.
    specialize (Hk s b1). destruct (k (s, b1)) as [r [s2 b2]]. destruct Hk as [L' Hk]. split; [lia|].
    destruct Hk as [[H2 H3]|[-> (n & H3 & H4)]].
    + left. split; [|exact H3]. intros n Hn. destruct (Nat.eq_dec n (bars_calls b)) as [->|]; [auto|apply H2; lia].
    + right. split; [reflexivity|]. exists n. split; [lia|auto].
  - simpl. split; [lia|]. right. split; [reflexivity|]. exists (bars_calls b). split; [lia|auto].
Qed.
Lemma on_1 : counts_on step_1. Proof. intro b. unfold step_1. destruct (bars_1 b); reflexivity. Qed.
Lemma on_2 : counts_on step_2. Proof. intro b. unfold step_2. destruct (bars_2 b); reflexivity. Qed.
Lemma on_put1 : forall v, counts_on (put_1 v). Proof. intros v b. reflexivity. Qed.
Lemma on_put2 : forall v, counts_on (put_2 v). Proof. intros v b. reflexivity. Qed.
Lemma bind_ret_r : forall S X (m : M S X unit) s, bind m (fun _ => ret tt) s = m s.
Proof. intros S X m s. unfold bind, ret. destruct (m s) as [[[]|e|] s']; reflexivity. Qed.
Lemma tr_last : forall S X f, counts_on f -> @tracks S X unit (expect io f) (ret tt).
Proof.
  intros S X f Hf s b. pose proof (tr_expect S X unit f (ret tt) (ret tt) Hf (tr_ret _ _ _ _) s b) as G.
  rewrite bind_ret_r in G. exact G.
Qed.
Context (E : env).
Lemma tr_ext : forall S X A (m : M (S * bars) X A) m' m'', (forall s, m' s = m'' s) -> tracks m m' -> tracks m m''.
Proof. intros S X A m m' m'' H G s b. specialize (G s b). destruct (m (s, b)) as [r [s' b']]. rewrite <- H. exact G. Qed.
Lemma tr_init : tracks (initialize_bar E io) (initialize_reference_set E).
Proof.
  unfold initialize_bar. apply tr_expect; [apply on_1|].
  eapply tr_ext; [|apply tr_bind with (m' := initialize_reference_set E) (k' := fun _ => ret tt); [apply tr_lift|intro; apply tr_last, on_1]].
  intro s. apply bind_ret_r.
Qed.
Lemma tr_ss : tracks (ss_run_bar E io) (ss_run E).
Proof.
  unfold ss_run_bar, ss_run. apply tr_expect; [apply on_put1|]. apply tr_bind; [apply tr_init|intro].
  repeat (apply tr_bind; [apply tr_lift|intro]). apply tr_expect; [apply on_1|]. apply tr_bind; [apply tr_lift|intro].
  apply tr_expect; [apply on_1|]. repeat (apply tr_bind; [apply tr_lift|intro]). apply tr_expect; [apply on_1|].
  apply tr_bind; [apply tr_lift|intro]. apply tr_ret.
Qed.
Lemma tr_stage1 : tracks (stage1_bar E io) (stage1_run E).
Proof.
  unfold stage1_bar, stage1_run. apply tr_bind; [apply tr_lift|intro o]. apply tr_bind; [apply tr_lift|intro t].
  destruct (stage1_init E o t) as [s3|e|]; [|apply tr_fail|apply tr_panic].
  set (k' := fun rs : outcome ss_error (list (point * f64) * point) * ss => let '(res, sf) := rs in
    (if observes1 o then upd (set_o_observer (ss_observer sf)) else ret tt) ;;;
      emit (map EvStage1 (rev (ss_log sf))) ;;;
      match res with
      | Err e => fail (ScatterSearchRunError e)
      | Panic => panic
      | Ok (pts, cand) =>
          let refs := map fst pts in
          let objs := map snd pts in
          obs (upd_stage1 (fun s =>
            let s := s1_set_ref_size (List.length refs) (s1_enter "scatter_search_complete" s) in
            match min_by cmp_snd (enumerate objs) with
            | Some (i, b) => match nth_error refs i with
                             | Some p => s1_set_best_solution b p s
                             | None => s
                             end
            | None => s
            end)) ;;;
          callback E None ;;;
          stage1_enter "local_optimization" ;;;
          o <- the_oqnlp ;;
          emit [EvSearch None cand] ;;;
          r <- of_solver (solve_tracked E (o_solver_type o) (o_solver_config o) cand (observes1 o)) ;;
          set_threshold (ls_obj (fst r)) ;;;
          obs (upd_stage1 (fun s =>
            s1_add_evals (N.to_nat (snd r))
              (s1_set_best_solution (ls_obj (fst r)) (ls_point (fst r))
                (s1_enter "local_optimization_complete" s)))) ;;;
          callback E None ;;;
          process_local_solution E (fst r) ;;;
          o <- the_oqnlp ;;
          stop <- unwrap (target_reached E o) ;;
          if (stop : bool) then end_stage1 E ;;; ret None
          else
            upd (set_o_ref (Some refs)) ;;;
            end_stage1 E ;;;
            ret (Some (refs, objs))
      end).
  match goal with |- tracks (bind _ ?k) _ => set (kb := k) end.
  assert (K : forall rs, tracks (kb rs) (k' rs)).
  { intros [res sf]. unfold kb, k'. apply tr_bind; [apply tr_lift|intro]. apply tr_bind; [apply tr_lift|intro].
    destruct res as [[pts cand]|e|]; [|apply tr_fail|apply tr_panic]. cbv zeta. repeat (apply tr_bind; [apply tr_lift|intro]).
    match goal with |- tracks (if ?b then _ else _) _ => destruct b end.
    - apply tr_bind; [apply tr_lift|intro; apply tr_ret].
    - apply tr_bind; [apply tr_lift|intro]. apply tr_bind; [apply tr_lift|intro; apply tr_ret]. }
  assert (P : forall sf s b, fst (kb (Panic, sf) (s, b)) = Panic /\ snd (snd (kb (Panic, sf) (s, b))) = b).
  { intros sf s b. unfold kb. destruct (observes1 o); split; reflexivity. }
  change (let '(res, sf) := ss_run E s3 in k' (res, sf)) with (k' (ss_run E s3)).
  intros s b. pose proof (tr_ss s3 b) as G. unfold bind, search_bar. simpl.
  destruct (ss_run_bar E io (s3, b)) as [res [sf b1]]. destruct G as [L G].
  specialize (K (res, sf) s b1). destruct G as [[G1 G2]|[-> (n & G1 & G2)]].
  - destruct (kb (res, sf) (s, b1)) as [r2 [s2 b2]]. destruct K as [L' K]. split; [lia|]. rewrite G2.
    destruct K as [[H2 H3]|[-> (n & H3 & H4)]].
    + left. split; [|exact H3]. intros n Hn. destruct (le_lt_dec (bars_calls b1) n); [apply H2|apply G1]; lia.
    + right. split; [reflexivity|]. exists n. split; [lia|auto].
  - destruct (P sf s b1) as [P1 P2]. destruct (kb (Panic, sf) (s, b1)) as [r2 [s2 b2]]. simpl in P1, P2. subst. split; [auto|].
    right. split; [reflexivity|]. exists n. auto.
Qed.
Lemma tr_catch : forall n, tracks (catch_up io n) (ret tt).
Proof. induction n; simpl; [apply tr_ret|]. apply tr_expect; [apply on_2|exact IHn]. Qed.
Lemma tr_skip : forall S X A (m : M (S * bars) X unit) (k : M (S * bars) X A) k', tracks m (ret tt) -> tracks k k' -> tracks (bind m (fun _ => k)) k'.
Proof.
  intros S X A m k k' H1 H2. eapply tr_ext; [|apply tr_bind with (m' := ret tt) (k' := fun _ => k'); [exact H1|intro; exact H2]].
  intro s. reflexivity.
Qed.
Lemma tr_stage2 : forall res refs objs u, tracks (stage2_bar E io res refs objs u) (stage2_run E res refs objs u).
Proof.
  intros. unfold stage2_bar, stage2_run. apply tr_bind; [apply tr_lift|intro]. apply tr_bind; [apply tr_lift|intro o].
  apply tr_expect; [apply on_put2|]. apply tr_skip; [destruct res; [apply tr_catch|apply tr_ret]|].
  apply tr_bind; [apply tr_lift|intro l]. cbv zeta. apply tr_bind; [apply tr_lift|intro]. apply tr_bind; [apply tr_lift|intro; apply tr_lift].
Qed.
Lemma tr_run : tracks (run_bar E io) (run E).
Proof.
  unfold run_bar, run. apply tr_bind; [apply tr_lift|intros [|]].
  - apply tr_bind; [apply tr_lift|intro; apply tr_stage2].
  - apply tr_bind; [apply tr_stage1|intros [[refs objs]|]]; [apply tr_stage2|apply tr_lift].
Qed.
End Erase.

(** ** Where the bars stand after a run that returned *)
Section Positions.
Context (E : env) (io : nat -> bool).
Lemma bok : forall S X A B (m : M S X A) (k : A -> M S X B) s x s', bind m k s = (Ok x, s') -> exists a s1, m s = (Ok a, s1) /\ k a s1 = (Ok x, s').
Proof. intros S X A B m k s x s' H. unfold bind in H. destruct (m s) as [[a|e|] s1]; try discriminate H. eauto. Qed.
Lemma lift_ok : forall S X A (m : M S X A) s b x s' b', blift m (s, b) = (Ok x, (s', b')) -> b' = b /\ m s = (Ok x, s').
Proof. intros S X A m s b x s' b' H. unfold blift in H. simpl in H. destruct (m s) as [r s1]. injection H as -> -> <-. auto. Qed.
Lemma expect_ok : forall S X f s b x s' b', @expect io S X f (s, b) = (Ok x, (s', b')) ->
  s' = s /\ b' = f (mk_bars (bars_1 b) (bars_2 b) (Datatypes.S (bars_calls b))).
Proof. intros S X f s b x s' b' H. unfold expect in H. simpl in H. destruct (io (bars_calls b)); [|discriminate H]. injection H as <- <- <-. auto. Qed.
Ltac nxt H :=
  let a := fresh "a" in let s1 := fresh "s1" in let b1 := fresh "b1" in let X := fresh "X" in let L := fresh "L" in
  apply bok in H as (a & [s1 b1] & X & H);
  first [apply lift_ok in X as [L X] | apply expect_ok in X as [X L]; subst s1].
Lemma init_pos : forall s b x s' b', initialize_bar E io (s, b) = (Ok x, (s', b')) ->
  bars_2 b' = bars_2 b /\ forall v, bars_1 b = Some v -> bars_1 b' = Some (advance (advance v)).
Proof.
  intros s b x s' b' H. unfold initialize_bar in H. nxt H. nxt H. apply expect_ok in H as [_ H]. subst.
  unfold step_1. simpl. destruct b as [[v|] v2 n]; simpl; (split; [reflexivity|]); intros w Hw; [injection Hw as <-; reflexivity|discriminate Hw].
Qed.
Lemma ss_pos : forall s b x s' b', ss_run_bar E io (s, b) = (Ok x, (s', b')) -> bars_1 b' = Some (mk_bar 3 5 None) /\ bars_2 b' = bars_2 b.
Proof.
  intros s b x s' b' H. unfold ss_run_bar in H. nxt H. apply bok in H as (a1 & [s1 b2] & X1 & H).
  apply init_pos in X1 as [P1 P2]. subst. simpl in P1. specialize (P2 _ eq_refl).
  repeat nxt H. unfold ret in H. injection H as _ _ <-. subst. unfold step_1. simpl. rewrite P2. simpl. auto.
Qed.
Lemma stage1_pos : forall s b x s' b', stage1_bar E io (s, b) = (Ok x, (s', b')) -> bars_1 b' = Some (mk_bar 3 5 None) /\ bars_2 b' = bars_2 b.
Proof.
  intros s b x s' b' H. unfold stage1_bar in H. nxt H. nxt H. subst. destruct (stage1_init E a a0) as [s3|e|]; try discriminate H.
  apply bok in H as ([res sf] & [s4 b4] & X1 & H). unfold search_bar in X1. simpl in X1.
  destruct (ss_run_bar E io (s3, b)) as [rr [s5 b5]] eqn:Hs. injection X1 as -> -> <- <-.
  nxt H. nxt H. subst. destruct res as [[pts cand]|e|]; try discriminate H. apply ss_pos in Hs. cbv zeta in H.
  assert (G : b' = b5); [|subst; exact Hs]. clear - H. 
  do 11 nxt H. nxt H. subst. match type of H with (if ?c then _ else _) _ = _ => destruct c end.
  - nxt H. unfold ret in H. injection H as _ _ <-. auto.
  - nxt H. nxt H. unfold ret in H. injection H as _ _ <-. subst. auto.
Qed.
Lemma catch_pos : forall n s b x s' b', catch_up io n (s, b) = (Ok x, (s', b')) ->
  s' = s /\ bars_1 b' = bars_1 b /\ forall v, bars_2 b = Some v -> bars_2 b' = Some (mk_bar (bar_total v) (n + bar_pos v) (bar_shown v)).
Proof.
  induction n; intros s b x s' b' H; simpl in H.
  - unfold ret in H. injection H as _ <- <-. split; [auto|]. split; [auto|]. intros [] Hv. exact Hv.
  - nxt H. apply IHn in H as (-> & H1 & H2). subst. split; [auto|]. unfold step_2 in *. simpl in *. destruct b as [v1 [v2|] m]; simpl in *.
    + split; [auto|]. intros v Hv. injection Hv as <-. specialize (H2 _ eq_refl). simpl in H2. rewrite H2. f_equal. f_equal. lia.
    + split; [auto|]. intros v Hv. discriminate Hv.
Qed.
Lemma begin_pos : forall s u s', begin_stage2 s = (Ok u, s') -> o_params (s_o s') = o_params (s_o s) /\ o_set (s_o s') = o_set (s_o s) /\ o_iteration (s_o s') = o_iteration (s_o s).
Proof.
  intros s u s' H. pose proof (fun (B : Type) (f : oqnlp -> B) (K : keeps f begin_stage2) => K s) as K. rewrite H in K. simpl in K.
  repeat split; apply K; unfold begin_stage2; kp; parts.
Qed.
Lemma stage2_pos : forall resumed refs objs u s b x s' b', stage2_bar E io resumed refs objs u (s, b) = (Ok x, (s', b')) ->
  bars_1 b' = bars_1 b /\
  bars_2 b' = Some (mk_bar (p_iterations (o_params (s_o s))) (if resumed then o_iteration (s_o s) else 0) (Some (best_shown (o_set (s_o s))))).
Proof.
  intros resumed refs objs u s b x s' b' H. unfold stage2_bar in H. nxt H. apply begin_pos in X as (P1 & P2 & P3).
  nxt H. injection X as <- <-. nxt H. apply bok in H as (a3 & [s5 b5] & X & H).
  assert (G : bars_1 b5 = bars_1 b2 /\ bars_2 b5 = Some (mk_bar (p_iterations (o_params (s_o s))) (if resumed then o_iteration (s_o s) else 0) (Some (best_shown (o_set (s_o s)))))).
  { rewrite P1, P2, P3 in *. subst. destruct resumed.
    - apply catch_pos in X as (_ & G1 & G2). split; [exact G1|]. rewrite (G2 _ eq_refl). simpl. rewrite Nat.add_0_r. reflexivity.
    - unfold ret in X. injection X as _ _ <-. auto. }
  nxt H. cbv zeta in H. nxt H. nxt H. apply lift_ok in H as [H _]. subst. simpl in *. exact G.
Qed.
Theorem c85_resumed : forall s cp b set s' b', resumes_from E s cp -> run_bar E io (s, b) = (Ok set, (s', b')) ->
  bars_1 b' = bars_1 b /\ bars_2 b' = Some (mk_bar (p_iterations (cp_params cp)) (cp_iteration cp) (Some (best_shown (cp_solution_set cp)))).
Proof.
  intros s cp b set s' b' R H. unfold run_bar in H. nxt H. subst. pose proof (resume_ok E _ _ _ X) as Hst.
  destruct R as (c & R1 & R2 & R3 & R4). inversion Hst as [d D1 D2 Hb|c' d cp' D1 D2 D3 D4 D5 Hb]; subst.
  - specialize (D2 c R1 R2). rewrite R3 in D2. discriminate D2.
  - nxt H. injection X0 as <- <-. subst. apply stage2_pos in H. rewrite R1 in D1. injection D1 as <-. rewrite R4 in D4. injection D4 as <-. exact H.
Qed.
Theorem c85_fresh : forall s b set s' b' new, (forall cp, ~ resumes_from E s cp) -> run_bar E io (s, b) = (Ok set, (s', b')) -> recorded s s' new ->
  bars_1 b' = Some (mk_bar 3 5 None) /\
  (In EvBatch new -> exists v, bars_2 b' = Some (mk_bar (p_iterations (o_params (s_o s))) 0 (Some v))).
Proof.
  intros s b set s' b' new R H N. unfold run_bar in H. nxt H. subst. pose proof (resume_ok E _ _ _ X) as Hst.
  inversion Hst as [d D1 D2 Hb|c' d cp' D1 D2 D3 D4 D5 Hb]; subst.
  2:{ exfalso. eapply R. exists c'. eauto. }
  apply bok in H as (r & [s2 b2] & X1 & H). pose proof X1 as X2. apply stage1_pos in X1 as [P1 P2].
  pose proof (tr_stage1 io E (with_disk d s) b) as T. rewrite X2 in T. destruct T as [_ [[_ T]|[T _]]]; [|discriminate T].
  destruct r as [[refs objs]|].
  - apply stage2_pos in H as [H1 H2]. rewrite P1 in H1. split; [exact H1|]. intros _. rewrite H2.
    assert (K : o_params (s_o s2) = o_params (s_o s)).
    { assert (K : keeps o_params (stage1_run E)) by (unfold stage1_run, end_stage1, stage1_enter; kp; parts).
      specialize (K (with_disk d s)). rewrite T in K. exact K. }
    rewrite K. eauto.
  - apply lift_ok in H as [-> H]. split; [exact P1|]. intro I. exfalso.
    assert (Hs : s2 = s') by (unfold final_set, the_oqnlp, bind, get, ret, fail in H; destruct (o_set (s_o s2)); [injection H as _ H; exact H|discriminate H]). subst s2.
    pose proof (SeqP3.em_stage1 E (with_disk d s)) as (pre & Q1 & Q2). rewrite T in Q1. simpl in Q1. unfold recorded in N.
    unfold trace in Q1. rewrite N in Q1. apply app_inv_tail in Q1. subst. rewrite Forall_forall in Q2. apply Q2 in I. exact I.
Qed.
End Positions.
