(** * More iterations when the last batch grows (C106) *)
From Coq Require Import ZArith NArith List Bool Arith Lia String.
From Verif Require Import F64 Base Builders Types Filters Runner Observer Env EnvSpec
  ScatterSearch Codec Checkpoint Oqnlp Spec SpecStage2 SpecObserver SpecMore Wp Actions RunP SetP SimP ClockFreeP LeaderP FrameP EmitsP SeqP3 ResumeP AgainP
  FinishP MoreP.
Import ListNotations.
Local Open Scope monad_scope.

(** ** The solution sets a run stores *)
Definition stored_set (e : event) : list solset := match e with EvSolutionSet x => [x] | _ => [] end.
Definition ssets (l : list event) : list solset := flat_map stored_set l.
Definition other (e : event) : Prop := stored_set e = [].
Lemma ssets_app l l' : ssets (l ++ l') = ssets l ++ ssets l'. Proof. apply flat_map_app. Qed.
Lemma ssets_other l : Forall other l -> ssets l = [].
Proof. induction 1 as [|e l He _ IH]; [reflexivity|]. unfold ssets in *. simpl. rewrite He, IH. reflexivity. Qed.
Lemma ssets_steps l : ssets (steps l) = ssets l.
Proof.
  induction l as [|e l IH]; [reflexivity|]. change (steps (e :: l)) with (step e ++ steps l). rewrite ssets_app, IH.
  unfold ssets. simpl. f_equal. destruct e; reflexivity.
Qed.
Definition view (o : oqnlp) :=
  (o_set o, o_exclude o, (o_abs_tol o, o_rel_tol o), o_target o, p_asking 0 (o_params o), o_parallel o, (o_solver_type o, o_solver_config o)).
Definition alike (s t : st) : Prop := view (s_o t) = view (s_o s) /\ ssets (trace t) = ssets (trace s).
Definition leads (s t : st) : Prop := exists x, ssets (trace t) = x ++ ssets (trace s).
Lemma alike_refl s : alike s s. Proof. split; reflexivity. Qed.
Lemma alike_trans s t u : alike s t -> alike t u -> alike s u.
Proof. intros [A1 A2] [B1 B2]. split; congruence. Qed.
Lemma alike_sym s t : alike s t -> alike t s. Proof. intros [A1 A2]. split; congruence. Qed.

(** ** Batches of a longer list *)
Lemma candidates_split A n1 n (refs : list A) : n1 <= n ->
  enumerate (firstn n refs) = enumerate (firstn n1 refs) ++ enumerate_from (List.length (firstn n1 refs)) (firstn (n - n1) (skipn n1 refs)).
Proof.
  intro Hn. destruct (Nat.le_gt_cases (List.length refs) n1) as [H|H].
  - rewrite !firstn_all2 by (rewrite ?skipn_length; lia). rewrite skipn_all2 by lia. simpl. rewrite app_nil_r. reflexivity.
  - assert (D : firstn n refs = firstn n1 refs ++ firstn (n - n1) (skipn n1 refs)).
    { rewrite <- (firstn_skipn n1 refs) at 1. rewrite firstn_app, firstn_firstn, firstn_length.
      rewrite (Nat.min_r n n1) by lia. rewrite (Nat.min_l n1) by lia. reflexivity. }
    rewrite D at 1. unfold enumerate. apply enumerate_app.
Qed.
Lemma candidates_grow A k (l1 l2 : list A) : 0 < k ->
  (exists b2, chunks k (l1 ++ l2) = chunks k l1 ++ b2) \/
  (exists b1 c d b2, chunks k l1 = b1 ++ [c] /\ chunks k (l1 ++ l2) = b1 ++ (c ++ d) :: b2 /\ 1 < k).
Proof.
  intros Hk. remember (List.length l1) as m eqn:Hm. assert (Hle : List.length l1 <= m) by lia. clear Hm. revert l1 Hle.
  assert (D : forall x (l : list A), chunks k (x :: l) = firstn k (x :: l) :: chunks k (skipn k (x :: l))).
  { intros x l. unfold chunks at 1. cbn [List.length chunks_fuel]. f_equal. apply chunks_more; [exact Hk|].
    rewrite skipn_length. cbn [List.length]. lia. }
  induction m as [|m IH]; intros [|x l1] Hle; [left; exists (chunks k l2); reflexivity|cbn in Hle; lia|left; exists (chunks k l2); reflexivity|].
  destruct (Nat.lt_ge_cases (List.length (x :: l1)) k) as [H|H].
  - right. exists [], (x :: l1), (firstn (k - List.length (x :: l1)) l2), (chunks k (skipn k (x :: l1 ++ l2))).
    cbn [app]. rewrite !D. rewrite (firstn_all2 (x :: l1)) by lia. rewrite (skipn_all2 (x :: l1)) by lia.
    split; [reflexivity|]. split; [|cbn [List.length] in H; lia]. f_equal.
    rewrite (firstn_app k (x :: l1) l2 : firstn k (x :: l1 ++ l2) = _). rewrite (firstn_all2 (x :: l1)) by lia. reflexivity.
  - cbn [app]. rewrite !D. rewrite (firstn_app k (x :: l1) l2 : firstn k (x :: l1 ++ l2) = _).
    rewrite (skipn_app k (x :: l1) l2 : skipn k (x :: l1 ++ l2) = _).
    assert (Z : k - List.length (x :: l1) = 0) by lia. rewrite Z. simpl (firstn 0 l2). simpl (skipn 0 l2). rewrite app_nil_r.
    destruct (IH (skipn k (x :: l1))) as [[b2 R]|(b1 & c & d & b2 & R1 & R2 & R3)].
    { rewrite skipn_length. cbn [List.length] in *. lia. }
    + left. exists b2. rewrite R. reflexivity.
    + right. exists (firstn k (x :: l1) :: b1), c, d, b2. rewrite R1, R2. auto.
Qed.

Section Batch.
Context (E : env).
(** computations that neither store a set nor change what matters for it *)
Definition mute {A} (m : OM A) : Prop := emits other m /\ keeps view m.
Lemma mute_alike A (m : OM A) s : mute m -> alike s (snd (m s)).
Proof.
  intros [H1 H2]. split; [apply H2|]. destruct (H1 s) as (new & -> & Hn). rewrite ssets_app, (ssets_other _ Hn). reflexivity.
Qed.
Ltac em2 := repeat first [ apply e_callback | apply e_callback_at | apply e_maybe_save | apply e_obs_iteration | apply e_obs_search
  | apply e_count | apply e_threshold | apply e_begin | em1 ]; try (intros; exact eq_refl).
Ltac kp2 := repeat first [ apply EmitsP.k_callback | apply k_callback_at | apply k_maybe_save | apply k_obs_iteration | apply k_obs_search
  | apply k_count | apply k_threshold | apply k_begin | kp1 ]; try (intros; exact eq_refl).
Ltac mu := split; [em2|kp2].
Lemma u_begin i u : mute (begin_iteration E i u). Proof. mu. Qed.
Lemma u_threshold v : mute (set_threshold v). Proof. mu. Qed.
Lemma u_obs_search a k : mute (obs_search a k). Proof. mu. Qed.
Lemma u_obs_iteration i u : mute (obs_iteration i u). Proof. mu. Qed.
Lemma u_callback i : mute (callback E i). Proof. mu. Qed.
Lemma u_callback_at i : mute (callback_at E i). Proof. mu. Qed.
Lemma u_save : mute (maybe_save_checkpoint E). Proof. mu. Qed.
Lemma u_quicks : forall l u, mute (process_quicks E l u).
Proof.
  induction l as [|[[i p] v] l IH]; intro u; simpl; [mu|].
  assert (Q : mute (process_quick E i u)) by (unfold process_quick; mu).
  split; [apply e_bind; [apply Q|intro; apply IH]|apply k_bind; [apply Q|intro; apply IH]].
Qed.
Lemma u_final : mute (maybe_save_final_checkpoint E).
Proof. split; [apply e_final_save|apply k_final_save]; reflexivity. Qed.

(** the results of local searches, one after the other, up to the target *)
Fixpoint absorb (l : list lsol) : OM unit :=
  match l with
  | [] => ret tt
  | x :: r =>
      process_local_solution E x ;;;
      o <- the_oqnlp ;;
      stop <- unwrap (target_reached E o) ;;
      if (stop : bool) then ret tt else absorb r
  end.
Notation sim := (sim alike).
Lemma a_upd f : (forall o o', view o = view o' -> view (f o) = view (f o')) -> sim eq (upd f) (upd f).
Proof. intros H. apply sim_modify. intros s t [H1 H2]. split; [apply H; exact H1|exact H2]. Qed.
Lemma a_emit l : sim eq (emit l) (emit l).
Proof. apply sim_modify. intros s t [H1 H2]. split; [exact H1|]. unfold trace in *. simpl. rewrite !ssets_app, H2. reflexivity. Qed.
Lemma a_oqnlp : sim (fun o o' => view o' = view o) the_oqnlp the_oqnlp.
Proof. intros s t H. pose proof H as H'. destruct H' as [H' _]. simpl. auto. Qed.
Lemma view_set x o o' : view o = view o' -> view (set_o_set x o) = view (set_o_set x o').
Proof. intro H. exact (f_equal (fun v => let '(_, a, b, c, d, e, f) := v in (x, a, b, c, d, e, f)) H). Qed.
Ltac as1 :=
  match goal with
  | |- SimP.sim _ _ (bind _ _) _ => eapply sim_bind with (V := eq); [|intros ? ? <-]
  | |- SimP.sim _ _ (ret _) _ => apply sim_ret; auto
  | |- SimP.sim _ _ (fail _) _ => apply sim_fail
  | |- SimP.sim _ _ panic _ => apply sim_panic
  | |- SimP.sim _ _ (upd (set_o_set _)) _ => apply a_upd; intros ? ?; apply view_set
  | |- SimP.sim _ _ (upd _) _ => apply a_upd; let H := fresh in intros ? ? H; exact H
  | |- SimP.sim _ _ (obs _) _ => apply a_upd; let H := fresh in intros ? ? H; exact H
  | |- SimP.sim _ _ (emit _) _ => apply a_emit
  | |- SimP.sim _ _ (unwrap _) _ => apply sim_unwrap
  | |- SimP.sim _ _ (if ?b then _ else _) _ => destruct b
  | |- SimP.sim _ _ (match ?x with _ => _ end) _ => destruct x
  end.
Lemma a_process x : sim eq (process_local_solution E x) (process_local_solution E x).
Proof.
  unfold process_local_solution, set_solutions, set_threshold, add_to_filter.
  eapply sim_bind; [apply a_oqnlp|]. intros o o' Hv. unfold view in Hv. injection Hv as Hs He Ha Hr _ _ _ _ Hd _ _ _ _ _ _.
  rewrite Hs, He, Ha, Hr, Hd. cbv zeta. repeat as1.
Qed.
Lemma target_view o o' : view o' = view o -> target_reached E o' = target_reached E o.
Proof. intro Hv. unfold view in Hv. injection Hv as Hs He Ha Hr Ht _ _ _ _ _ _ _ _ _ _. unfold target_reached. rewrite Hs, He, Ht. reflexivity. Qed.
Lemma a_absorb : forall l, sim eq (absorb l) (absorb l).
Proof.
  induction l as [|x l IH]; simpl; [as1|]. eapply sim_bind with (V := eq); [apply a_process|intros ? ? _].
  eapply sim_bind; [apply a_oqnlp|]. intros o o' Hv. rewrite (target_view _ _ Hv).
  eapply sim_bind with (V := eq); [as1|intros stop ? <-]. destruct stop; [as1|apply IH].
Qed.
Lemma absorb_grows : forall l s, leads s (snd (absorb l s)).
Proof.
  induction l as [|x l IH]; intro s; simpl; [exists []; reflexivity|].
  unfold bind at 1. assert (G : leads s (snd (process_local_solution E x s))).
  { destruct (grows _ (process_local_solution E x) (fr_process E x) s) as [new Hn]. exists (ssets new). rewrite Hn. apply ssets_app. }
  destruct (process_local_solution E x s) as [[b|e|] s1]; cbn [snd] in *; [|exact G..].
  unfold bind, the_oqnlp, get, ret, bind, unwrap. cbn [fst snd].
  destruct (target_reached E (s_o s1)) as [[|]|]; cbn [snd ret panic]; [exact G| |exact G].
  destruct G as [x1 G]. destruct (IH s1) as [x2 G2]. exists (x2 ++ x1). rewrite G2, G, app_assoc. reflexivity.
Qed.
Lemma absorb_more : forall l l' s t s', alike s t -> absorb l s = (Ok tt, s') -> leads s' (snd (absorb (l ++ l') t)).
Proof.
  induction l as [|x l IH]; intros l' s t s' H Hs.
  - injection Hs as <-. destruct (absorb_grows l' t) as [y Hy]. exists y. cbn [app]. rewrite Hy, (proj2 H). reflexivity.
  - simpl in Hs. apply bind_inv in Hs as (b & s1 & H1 & Hs). apply bind_inv in Hs as (o & s2 & H2 & Hs). apply bind_inv in Hs as (stop & s3 & H3 & Hs).
    assert (s2 = s1 /\ o = s_o s1) as [-> ->] by (injection H2 as <- <-; auto). 
    assert (s3 = s1 /\ target_reached E (s_o s1) = Some stop) as [-> Hst].
    { destruct (target_reached E (s_o s1)); [injection H3 as <- <-; auto|discriminate]. }
    destruct (a_process x s t H) as [G1 G2]. rewrite H1 in G1, G2. cbn [fst snd app absorb] in *. unfold bind at 1.
    destruct (process_local_solution E x t) as [[b'|e|] t1]; cbn [fst snd vrel] in *; try contradiction.
    unfold bind, the_oqnlp, get, ret, bind. cbn [fst snd]. rewrite (target_view _ _ (proj1 G2)), Hst. cbn [unwrap ret].
    destruct stop; [|exact (IH l' _ _ _ G2 Hs)]. injection Hs as <-. exists []. simpl. exact (proj2 G2).
Qed.

(** what a batch does to the stored sets: it absorbs the results of its local searches *)
Definition search_result (ty : solver_type) (cf : solver_config) (c : nat * point * f64) (x : lsol) : Prop :=
  solve (e_ext E) (e_problem E) ty cf (snd (fst c)) = Ok x.
Lemma by_process x s b s1 t : process_local_solution E x s = (Ok b, s1) -> alike s t ->
  exists t1, process_local_solution E x t = (Ok b, t1) /\ alike s1 t1.
Proof.
  intros H1 H. destruct (a_process x s t H) as [G1 G2]. rewrite H1 in G1, G2. cbn [fst snd] in *.
  destruct (process_local_solution E x t) as [[b'|e|] t1]; cbn [fst snd vrel] in *; try contradiction. subst b'. eauto.
Qed.
Lemma mute_ok A (m : OM A) s a s' t : m s = (Ok a, s') -> mute m -> alike s t -> alike s' t.
Proof. intros H Hm Ha. pose proof (mute_alike _ m s Hm) as G. rewrite H in G. exact (alike_trans _ _ _ (alike_sym _ _ G) Ha). Qed.
Ltac bi H a s := apply bind_inv in H; destruct H as (a & s & ? & H).
Lemma absorb_step x r t t1 b stop : process_local_solution E x t = (Ok b, t1) -> target_reached E (s_o t1) = Some stop ->
  absorb (x :: r) t = (if stop then ret tt else absorb r) t1.
Proof. intros H1 H2. simpl. unfold bind at 1. rewrite H1. unfold bind, the_oqnlp, get, ret, bind. cbn [fst snd]. rewrite H2. reflexivity. Qed.
Lemma stop_inv o s stop s' : (unwrap (target_reached E o) : OM bool) s = (Ok stop, s') -> s' = s /\ target_reached E o = Some stop.
Proof. destruct (target_reached E o); [intro H; injection H as <- <-; auto|discriminate]. Qed.
Lemma o_inv s o s' : the_oqnlp s = (Ok o, s') -> s' = s /\ o = s_o s.
Proof. intro H; injection H as <- <-; auto. Qed.
Lemma par_results_absorb : forall rs u s t s', alike s t -> process_par_results E rs u s = (Ok tt, s') ->
  exists t', absorb (map (fun r => fst (snd r)) rs) t = (Ok tt, t') /\ alike s' t'.
Proof.
  induction rs as [|[[[i p] v] [x k]] rs IH]; intros u s t s' H Hs.
  - injection Hs as <-. exists t. split; [reflexivity|exact H].
  - simpl in Hs. bi Hs stop s9. rename H0 into H1. unfold process_par_result in H1.
    bi H1 y1 s1. pose proof (mute_ok _ _ _ _ _ _ H0 (u_begin _ _) H) as A1. clear H0.
    bi H1 y2 s2. pose proof (mute_ok _ _ _ _ _ _ H0 (u_threshold _) A1) as A2. clear H0.
    bi H1 added s3. destruct (by_process _ _ _ _ _ H0 A2) as (t3 & P3 & A3). clear H0.
    bi H1 y4 s4. pose proof (mute_ok _ _ _ _ _ _ H0 (u_obs_search _ _) A3) as A4. clear H0.
    bi H1 y5 s5. pose proof (mute_ok _ _ _ _ _ _ H0 (u_obs_iteration _ _) A4) as A5. clear H0.
    bi H1 y6 s6. pose proof (mute_ok _ _ _ _ _ _ H0 (u_callback_at _) A5) as A6. clear H0.
    bi H1 o s7. apply o_inv in H0 as [-> ->].
    bi H1 stop' s8. apply stop_inv in H0 as [-> Hst].
    rewrite <- (target_view _ _ (proj1 A6)) in Hst.
    cbn [map snd fst]. rewrite (absorb_step _ _ _ _ _ _ P3 Hst).
    destruct stop'.
    + injection H1 as <- <-. injection Hs as <-. exists t3. split; [reflexivity|exact A6].
    + bi H1 y7 sx. pose proof (mute_ok _ _ _ _ _ _ H0 u_save A6) as A7. injection H1 as <- <-. exact (IH u _ _ _ A7 Hs).
Qed.
Lemma solver_inv A (r : outcome ls_error A) s a s' : of_solver r s = (Ok a, s') -> s' = s /\ r = Ok a.
Proof. destruct r; [intro H; injection H as <- <-; auto|discriminate|discriminate]. Qed.
Lemma single_absorb c u s t s' : alike s t -> process_singles E [c] u s = (Ok tt, s') ->
  exists x t', search_result (o_solver_type (s_o s)) (o_solver_config (s_o s)) c x /\ absorb [x] t = (Ok tt, t') /\ alike s' t'.
Proof.
  destruct c as [[i p] v]. intros H Hs. simpl in Hs. bi Hs stop s9. rename H0 into H1. unfold process_single in H1.
    bi H1 y1 s1. pose proof (mute_ok _ _ _ _ _ _ H0 (u_begin _ _) H) as A1. clear H0.
    bi H1 y2 s2. pose proof (mute_ok _ _ _ _ _ _ H0 (u_threshold _) A1) as A2. clear H0.
    bi H1 o s2'. apply o_inv in H0 as [-> ->].
    bi H1 y2' s2'. assert (M : mute (emit [EvSearch (Some i) p])) by (split; [apply e_emit; repeat constructor|kp2]). pose proof (mute_ok _ _ _ _ _ _ H0 M A2) as A2'. clear H0 M.
    bi H1 r s2''. apply solver_inv in H0 as [-> Hr]. destruct r as [x k]. cbn [fst snd] in *.
    bi H1 added s3. destruct (by_process _ _ _ _ _ H0 A2') as (t3 & P3 & A3). clear H0.
    bi H1 y4 s4. pose proof (mute_ok _ _ _ _ _ _ H0 (u_obs_search _ _) A3) as A4. clear H0.
    bi H1 y5 s5. pose proof (mute_ok _ _ _ _ _ _ H0 (u_obs_iteration _ _) A4) as A5. clear H0.
    bi H1 y6 s6. pose proof (mute_ok _ _ _ _ _ _ H0 (u_callback _) A5) as A6. clear H0.
    bi H1 o s7. apply o_inv in H0 as [-> ->].
    bi H1 stop' s8. apply stop_inv in H0 as [-> Hst].
    rewrite <- (target_view _ _ (proj1 A6)) in Hst.
    exists x, t3. split.
    { apply solve_tracked_solve in Hr. unfold search_result. cbn [fst snd].
      pose proof (proj1 A2) as V2. rewrite (proj1 H) in V2. unfold view in V2. injection V2 as _ _ _ _ _ _ _ _ _ _ _ _ _ V2 V2'. rewrite V2, V2'. exact Hr. }
    rewrite (absorb_step _ _ _ _ _ _ P3 Hst). split; [destruct stop'; reflexivity|].
    destruct stop'.
    + injection H1 as <- <-. injection Hs as <-. exact A6.
    + bi H1 y7 sx. pose proof (mute_ok _ _ _ _ _ _ H0 u_save A6) as A7. injection H1 as <- <-. injection Hs as <-. exact A7.
Qed.

(** the judged candidates of a batch *)
Definition judged (objs : option (list f64)) (b : nat * point) (c : nat * point * f64) : Prop :=
  fst c = b /\ cand_objective E objs (fst b) (snd b) = Ok (snd c).
Lemma judged_all objs b : forall vs, map (fun b => match cand_objective E objs (fst b) (snd b) with
    | Ok v => Ok (fst b, snd b, v) | Err e => Err e | Panic => Panic end) b = map Ok vs -> Forall2 (judged objs) b vs.
Proof.
  induction b as [|[i p] b IH]; intros [|[[j q] v] vs] H; try discriminate; constructor; simpl in H;
    destruct (cand_objective E objs i p) eqn:Hc; try discriminate; injection H as; subst; [split; [reflexivity|exact Hc]|apply IH; assumption].
Qed.
Lemma judged_same objs b : forall d vs vs', Forall2 (judged objs) b vs -> Forall2 (judged objs) (b ++ d) vs' -> exists more, vs' = vs ++ more.
Proof.
  induction b as [|x b IH]; intros d vs vs' H H'.
  - inversion H. exists vs'. reflexivity.
  - inversion H as [|? c ? vs1 [J1 J2] Hr]; subst. inversion H' as [|? c' ? vs1' [J1' J2'] Hr']; subst.
    destruct (IH d _ _ Hr Hr') as [more ->]. exists more. cbn [app]. f_equal.
    destruct c as [ip v], c' as [ip' v']. cbn [fst snd] in *. subst. rewrite J2 in J2'. injection J2' as <-. reflexivity.
Qed.
Lemma results_all ty cf tr l : forall rs, map (fun c : nat * point * f64 => match lift_solver (solve_tracked E ty cf (snd (fst c)) tr) with
    | Ok r => Ok (c, r) | Err e => Err e | Panic => Panic end) l = map Ok rs ->
  Forall2 (search_result ty cf) l (map (fun r => fst (snd r)) rs).
Proof.
  induction l as [|c l IH]; intros [|[c' [x k]] rs] H; try discriminate; constructor; simpl in H;
    destruct (solve_tracked E ty cf (snd (fst c)) tr) as [[x' k']|e|] eqn:Hc; try discriminate; injection H as; subst.
  - exact (solve_tracked_solve _ _ _ _ _ _ _ Hc).
  - apply IH. assumption.
Qed.
Lemma results_same ty cf l : forall d xs xs', Forall2 (search_result ty cf) l xs -> Forall2 (search_result ty cf) (l ++ d) xs' -> exists more, xs' = xs ++ more.
Proof.
  induction l as [|c l IH]; intros d xs xs' H H'.
  - inversion H. exists xs'. reflexivity.
  - inversion H as [|? x ? xs1 J Hr]; subst. inversion H' as [|? x' ? xs1' J' Hr']; subst.
    destruct (IH d _ _ Hr Hr') as [more ->]. exists more. cbn [app]. f_equal. unfold search_result in *. congruence.
Qed.
Lemma view_parallel o o' : view o = view o' -> o_parallel o = o_parallel o' /\ o_solver_type o = o_solver_type o' /\
  o_solver_config o = o_solver_config o' /\ p_solver_type (o_params o) = p_solver_type (o_params o') /\ p_solver_config (o_params o) = p_solver_config (o_params o').
Proof. intro H. unfold view in H. injection H as _ _ _ _ _ _ _ _ _ H1 H2 _ H3 H4 H5. auto. Qed.
Lemma batch_absorb objs b u s u' s' : process_batch_parallel E 0 false objs b u s = (Ok u', s') -> o_parallel (s_o s) = true ->
  o_solver_type (s_o s) = p_solver_type (o_params (s_o s)) -> o_solver_config (s_o s) = p_solver_config (o_params (s_o s)) ->
  exists vs xs t', Forall2 (judged objs) b vs /\
    Forall2 (search_result (o_solver_type (s_o s)) (o_solver_config (s_o s))) (filter (fun c => should_start_local (s_o s) (snd (fst c)) (snd c)) vs) xs /\
    absorb xs s = (Ok tt, t') /\ alike s' t'.
Proof.
  intros H Hp Ht Hc. unfold process_batch_parallel in H. destruct b as [|b0 b].
  { injection H as <- <-. exists [], [], s. repeat split; constructor. }
  cbv iota zeta in H. set (fb := b0 :: b) in *. clearbody fb.
  bi H y1 s1. assert (A1 : alike s1 s /\ s_o s1 = s_o s).
  { destruct objs; [injection H0 as <- <-; split; [apply alike_refl|reflexivity]|]. split; [|injection H0 as <- <-; reflexivity].
    refine (mute_ok _ _ _ _ _ _ H0 _ (alike_refl s)). split; [apply e_emit_map; reflexivity|kp2]. }
  clear H0. destruct A1 as [A1 O1].
  bi H tk s2. assert (A2 : alike s2 s) by (refine (mute_ok _ _ _ _ _ _ H0 _ A1); mu).
  assert (O2 : s_o s2 = s_o s) by (injection H0 as <- <-; exact O1). clear H0.
  bi H judg s3. assert (s3 = s2 /\ Forall2 (judged objs) fb judg) as [-> J].
  { injection H0 as H0 <-. split; [reflexivity|]. apply judged_all. exact (par_collect_ok _ _ _ _ H0). }
  clear H0. bi H y4 s4. assert (A4 : alike s4 s /\ forall p v, should_start_local (s_o s4) p v = should_start_local (s_o s) p v).
  { destruct objs; [injection H0 as <- <-; split; [exact A2|rewrite O2; reflexivity]|].
    split; [refine (mute_ok _ _ _ _ _ _ H0 _ A2); mu|]. injection H0 as <- <-. simpl. rewrite O2. reflexivity. }
  clear H0. destruct A4 as [A4 S4]. bi H o s5. apply o_inv in H0 as [-> ->].
  rewrite partition_filter in H. cbv iota in H.
  rewrite (filter_ext _ (fun c => should_start_local (s_o s) (snd (fst c)) (snd c)) (fun c => S4 _ _)) in H.
  bi H y6 s6. assert (A6 : alike s6 s) by (refine (mute_ok _ _ _ _ _ _ H0 _ A4); split; [apply e_emit_map; reflexivity|kp2]). clear H0.
  bi H u1 s7. pose proof (mute_ok _ _ _ _ _ _ H0 (u_quicks _ _) A6) as A7. clear H0.
  bi H o s8. apply o_inv in H0 as [-> ->]. bi H y8 s8. injection H as <- <-.
  destruct (view_parallel _ _ (proj1 A7)) as (V1 & V2 & V3 & V4 & V5). rewrite <- V1, Hp, andb_true_r in H0.
  exists judg. destruct (filter (fun c => should_start_local (s_o s) (snd (fst c)) (snd c)) judg) as [|c [|c2 lr]]; cbn [List.length Nat.leb] in H0.
  - simpl in H0. injection H0 as _ <-. exists [], s. split; [exact J|]. split; [constructor|]. split; [reflexivity|exact A7].
  - destruct y8. destruct (single_absorb _ _ _ _ _ A7 H0) as (x & t' & F & G1 & G2). exists [x], t'. split; [exact J|].
    rewrite <- V2, <- V3 in F. split; [constructor; [exact F|constructor]|auto].
  - bi H0 y9 s9. assert (A9 : alike s9 s) by (refine (mute_ok _ _ _ _ _ _ H _ A7); split; [apply e_emit_map; reflexivity|kp2]). clear H.
    bi H0 rs s10. injection H as H <-.
    pose proof (results_all (p_solver_type (o_params (s_o s7))) (p_solver_config (o_params (s_o s7))) (observes2 (s_o s7)) (c :: c2 :: lr) rs (par_collect_ok _ _ _ _ H)) as F.
    rewrite <- V4, <- V5, <- Ht, <- Hc in F.
    destruct y8. destruct (par_results_absorb _ _ _ _ _ A9 H0) as (t' & G1 & G2). exists (map (fun r => fst (snd r)) rs), t'. auto.
Qed.

(** ** A loop whose last batch grows *)
Section Loop.
Context (n : nat) (T : list event) (p0 : params) (par0 : bool) (bat0 : option nat).
Notation cfg := (p0, par0, bat0, p_solver_type p0, p_solver_config p0).
Hypothesis Hpar : par0 = true.
Notation along := (along n T T cfg).
Lemma along_alike s t : along s t -> alike s t.
Proof.
  intros (_ & H1 & _ & _ & _ & l & l' & H2 & H3 & H4). split; [rewrite H1; reflexivity|].
  rewrite H2, H3, !ssets_app, <- (ssets_steps l), <- (ssets_steps l'), H4. reflexivity.
Qed.
Lemma along_solver s t : along s t -> o_parallel (s_o s) = true /\ o_solver_type (s_o s) = p_solver_type (o_params (s_o s)) /\
  o_solver_config (s_o s) = p_solver_config (o_params (s_o s)).
Proof. intros (H & _). unfold settings in H. injection H as -> -> _ -> ->. auto. Qed.
Lemma leads_alike s s1 t t1 : alike s s1 -> leads s1 t1 -> alike t t1 -> leads s t.
Proof. intros [_ H1] [x H2] [_ H3]. exists x. congruence. Qed.
Lemma last_batch objs c d u s t ua s' ub t' : along s t ->
  process_batch_parallel E 0 false objs c u s = (Ok ua, s') -> process_batch_parallel E 0 false objs (c ++ d) u t = (Ok ub, t') -> leads s' t'.
Proof.
  intros L Ha Hb. destruct (along_solver _ _ L) as (P1 & P2 & P3).
  assert (Ot : s_o t = asking n (s_o s)) by (destruct L as (_ & H & _); exact H).
  destruct (batch_absorb _ _ _ _ _ _ Ha P1 P2 P3) as (vs & xs & s1 & J & F & A & K).
  assert (Q1 : o_parallel (s_o t) = true) by (rewrite Ot; exact P1).
  assert (Q2 : o_solver_type (s_o t) = p_solver_type (o_params (s_o t))) by (rewrite Ot; exact P2).
  assert (Q3 : o_solver_config (s_o t) = p_solver_config (o_params (s_o t))) by (rewrite Ot; exact P3).
  destruct (batch_absorb _ _ _ _ _ _ Hb Q1 Q2 Q3) as (vs' & xs' & t1 & J' & F' & A' & K'). rewrite Ot in F'.
  change (o_solver_type (asking n (s_o s))) with (o_solver_type (s_o s)) in F'.
  change (o_solver_config (asking n (s_o s))) with (o_solver_config (s_o s)) in F'.
  destruct (judged_same _ _ _ _ _ J J') as [more ->]. rewrite filter_app in F'.
  destruct (results_same _ _ _ _ _ _ F F') as [more' ->].
  pose proof (absorb_more xs more' s t s1 (along_alike _ _ L) A) as G. rewrite A' in G. cbn [snd] in G.
  exact (leads_alike _ _ _ _ K G K').
Qed.
(** both succeed, and the second has stored what the first has *)
Definition okl {A} (m m' : OM A) : Prop := forall s t a s' b t', along s t -> m s = (Ok a, s') -> m' t = (Ok b, t') -> leads s' t'.
Lemma okl_bind A B (V : A -> A -> Prop) (m m' : OM A) (k k' : A -> OM B) :
  SimP.sim along V m m' -> (forall a b, V a b -> okl (k a) (k' b)) -> okl (bind m k) (bind m' k').
Proof.
  intros H1 H2 s t a s' b t' L Ha Hb. apply bind_inv in Ha as (x & s1 & X1 & Ha). apply bind_inv in Hb as (y & t1 & Y1 & Hb).
  destruct (H1 s t L) as [G1 G2]. rewrite X1, Y1 in G1, G2. exact (H2 x y G1 s1 t1 a s' b t' G2 Ha Hb).
Qed.
Lemma leads_more A (m : OM A) s t : FrameP.frame m -> leads s t -> leads s (snd (m t)).
Proof.
  intros Hf [x H]. destruct (grows _ m Hf t) as [new Hn]. exists (ssets new ++ x). rewrite Hn, ssets_app, H, app_assoc. reflexivity.
Qed.
Lemma okl_sim A (m m' : OM A) V : SimP.sim along V m m' -> okl m m'.
Proof. intros H s t a s' b t' L Ha Hb. destruct (H s t L) as [_ G]. rewrite Ha, Hb in G. exists []. exact (proj2 (along_alike _ _ G)). Qed.
Lemma okl_loop size objs c d b2 : 1 < size -> forall b1 u,
  okl (stage2_loop E size 0 false objs (b1 ++ [c]) u) (stage2_loop E size 0 false objs (b1 ++ (c ++ d) :: b2) u).
Proof.
  intro Hs. apply Nat.ltb_lt in Hs.
  assert (Tm : forall o, SimP.sim along eq
    (match o_max_time o with Some m => t <- tick ;; emit [EvClock (e_clock E t)] ;;; ret (fgt (e_clock E t) m) | None => ret false end)
    (match o_max_time o with Some m => t <- tick ;; emit [EvClock (e_clock E t)] ;;; ret (fgt (e_clock E t) m) | None => ret false end : OM bool)).
  { intro o. destruct (o_max_time o); [|apply sim_ret; reflexivity]. eapply sim_bind with (V := eq); [apply m_tick|intros k ? <-].
    eapply sim_bind with (V := eq); [apply m_emit; reflexivity|intros ? ? _]. apply sim_ret. reflexivity. }
  induction b1 as [|b b1 IH]; intros u; cbn [app stage2_loop].
  - eapply okl_bind; [apply m_oqnlp|]. intros o o' [-> _]. eapply okl_bind with (V := eq); [exact (Tm o)|]. intros w ? <-.
    destruct w; [apply okl_sim with (V := eq), sim_ret; reflexivity|].
    eapply okl_bind with (V := eq); [apply m_emit; reflexivity|intros ? ? _]. rewrite Hs.
    intros s t x s' y t' L Ha Hb. apply bind_inv in Ha as (u1 & s1 & X1 & Ha). apply bind_inv in Hb as (u2 & t1 & Y1 & Hb).
    pose proof (last_batch _ _ _ _ _ _ _ _ _ _ L X1 Y1) as G.
    assert (s' = s1).
    { apply bind_inv in Ha as (o1 & s2 & X2 & Ha). apply o_inv in X2 as [-> ->]. apply bind_inv in Ha as (st & s2 & X2 & Ha).
      apply stop_inv in X2 as [-> _]. destruct st; injection Ha as _ <-; reflexivity. }
    subst s'.
    assert (F : FrameP.frame (o2 <- the_oqnlp ;; stop <- unwrap (target_reached E o2) ;;
      (if stop : bool then ret tt else stage2_loop E size 0 false objs b2 u2) : OM unit)) by (repeat fr1; apply fr_loop).
    pose proof (leads_more _ _ _ _ F G) as G'. rewrite Hb in G'. exact G'.
  - eapply okl_bind; [apply m_oqnlp|]. intros o o' [-> _]. eapply okl_bind with (V := eq); [exact (Tm o)|]. intros w ? <-.
    destruct w; [apply okl_sim with (V := eq), sim_ret; reflexivity|].
    eapply okl_bind with (V := eq); [apply m_emit; reflexivity|intros ? ? _].
    eapply okl_bind with (V := eq); [rewrite Hs; apply m_batch_par|intros u' ? <-].
    eapply okl_bind; [apply m_oqnlp|]. intros o2 ? [-> _]. change (target_reached E (asking n o2)) with (target_reached E o2).
    eapply okl_bind with (V := eq); [apply sim_unwrap|intros stop ? <-].
    destruct stop; [apply okl_sim with (V := eq), sim_ret; reflexivity|apply IH].
Qed.
Lemma okl_stage2 refs objs u : p_iterations p0 <= n -> (exists k, bat0 = Some k) ->
  okl (stage2_run E false refs objs u) (stage2_run E false refs objs u).
Proof.
  intros Hn [k Hk]. unfold stage2_run. eapply okl_bind with (V := eq); [apply m_begin2|intros ? ? _].
  eapply okl_bind; [apply m_oqnlp|]. intros o o' [-> Hc]. eapply okl_bind with (V := eq).
  { eapply sim_bind with (V := eq); [apply sim_unwrap|intros sd ? <-]. eapply sim_bind with (V := eq); [apply m_upd; reflexivity|intros ? ? _]. apply sim_ret. reflexivity. }
  intros rs ? <-. cbv zeta iota.
  assert (Hb : batch_size E o 0 = k /\ batch_size E (asking n o) 0 = k /\ p_iterations (o_params o) <= n).
  { unfold settings in Hc. injection Hc as C1 C2 C3 _ _. unfold batch_size.
    change (o_parallel (asking n o)) with (o_parallel o). change (o_batch (asking n o)) with (o_batch o). rewrite C1, C2, C3, Hpar, Hk. auto. }
  destruct Hb as (Hb & Hb' & Hi). rewrite Hb, Hb'. change (p_iterations (o_params (asking n o))) with n. cbn [skipn].
  intros s t ra s' rb t' L Ha Hb1. apply bind_inv in Ha as ([] & s1 & X1 & Ha). apply bind_inv in Hb1 as ([] & t1 & Y1 & Hb1).
  assert (G : leads s1 t1).
  { destruct (k =? 0) eqn:Hz; [discriminate|]. apply Nat.eqb_neq in Hz.
    assert (Hk0 : 0 < k) by lia.
    destruct (candidates_grow (nat * point) k (enumerate (firstn (p_iterations (o_params o)) rs))
      (enumerate_from (List.length (firstn (p_iterations (o_params o)) rs)) (firstn (n - p_iterations (o_params o)) (skipn (p_iterations (o_params o)) rs))) Hk0) as [[b2 D]|(b1 & c & d & b2 & D1 & D2 & D3)];
    rewrite <- (candidates_split _ _ _ rs Hi) in *.
    - rewrite D in Y1. destruct (m_loop E n T T cfg k 0 false objs b2 (chunks k (enumerate (firstn (p_iterations (o_params o)) rs))) u s t L) as (tm & G1 & [new G2] & _). rewrite X1 in G1. rewrite Y1 in G2.
      cbn [snd] in *. exists (ssets new). rewrite G2, ssets_app, (proj2 (along_alike _ _ G1)). reflexivity.
    - rewrite D1 in X1. rewrite D2 in Y1. exact (okl_loop k objs c d b2 D3 b1 u s t _ _ _ _ L X1 Y1). }
  assert (A : alike s1 s').
  { apply bind_inv in Ha as ([] & s2 & X2 & Ha). pose proof (mute_alike _ _ s1 u_final) as A. rewrite X2 in A. cbn [snd] in A.
    unfold final_set, bind, the_oqnlp, get, ret, bind in Ha. cbn [fst snd] in Ha.
    destruct (o_set (s_o s2)); [injection Ha as _ <-; exact A|discriminate]. }
  assert (F : FrameP.frame (maybe_save_final_checkpoint E ;;; final_set)).
  { unfold maybe_save_final_checkpoint, final_set, save_now, create_checkpoint. apply fr_bind; [|intro]; repeat fr1. }
  pose proof (leads_more _ _ _ _ F G) as G'. rewrite Hb1 in G'. cbn [snd] in G'.
  destruct G' as [x G']. exists x. rewrite G', (proj2 A). reflexivity.
Qed.
End Loop.
End Batch.

(** ** Whole runs *)
Theorem c106_sets : forall E n s setA sA na setB sB nb,
  run E s = (Ok setA, sA) -> recorded s sA na -> run E (asking_state n s) = (Ok setB, sB) -> recorded (asking_state n s) sB nb ->
  (forall c, o_cp (s_o s) = Some c -> cc_auto_resume c = false) ->
  p_iterations (o_params (s_o s)) <= n -> fixed_batches (s_o s) -> exists x, ssets nb = x ++ ssets na.
Proof.
  intros E n s setA sA na setB sB nb Ha Na Hb Nb Hr Hn [Hw|([k Hk] & Ht & Hc)].
  { destruct (c106_steps E n s _ sA na _ sB nb Ha Na Hb Nb Hr Hn (or_introl Hw)) as [more M].
    exists (ssets more). rewrite <- (ssets_steps nb), M, ssets_app, ssets_steps. reflexivity. }
  destruct (o_parallel (s_o s)) eqn:Hp.
  2: { destruct (c106_steps E n s _ sA na _ sB nb Ha Na Hb Nb Hr Hn (or_introl Hp)) as [more M].
    exists (ssets more). rewrite <- (ssets_steps nb), M, ssets_app, ssets_steps. reflexivity. }
  set (T := w_trace (s_w s)). set (p0 := o_params (s_o s)).
  assert (L : along n T T (p0, true, Some k, p_solver_type p0, p_solver_config p0) s (asking_state n s)).
  { unfold along. split; [unfold settings, p0; rewrite Hp, Hk, Ht, Hc; reflexivity|]. repeat (split; [reflexivity|]). exists [], []. repeat split. }
  assert (G : okl n T p0 true (Some k) (stage1_r <- stage1_run E ;; match stage1_r with None => final_set | Some (refs, objs) => stage2_run E false refs (Some objs) 0 end)
    (stage1_r <- stage1_run E ;; match stage1_r with None => final_set | Some (refs, objs) => stage2_run E false refs (Some objs) 0 end)).
  { eapply okl_bind; [apply m_stage1|]. intros [[refs objs]|] ? <-.
    - apply okl_stage2; [reflexivity|exact Hn|exists k; reflexivity].
    - apply okl_sim with (V := eq). unfold final_set. eapply sim_bind; [apply m_oqnlp|]. intros o o' [-> _].
      change (o_set (asking n o)) with (o_set o). destruct (o_set o); [apply sim_ret; reflexivity|apply sim_fail]. }
  assert (Rn : forall x, no_resume (s_o x) -> run E x = (stage1_r <- stage1_run E ;; match stage1_r with None => final_set | Some (refs, objs) => stage2_run E false refs (Some objs) 0 end) x).
  { intros x Hx. unfold run. unfold bind at 1. rewrite (no_resume_start E x Hx). reflexivity. }
  rewrite Rn in Ha by exact Hr. rewrite Rn in Hb by exact Hr.
  destruct (G _ _ _ _ _ _ L Ha Hb) as [x G']. exists x. unfold recorded in Na, Nb. unfold trace in G'. rewrite Na, Nb, !ssets_app, app_assoc in G'.
  change (w_trace (s_w (asking_state n s))) with (w_trace (s_w s)) in G'. apply app_inv_tail in G'. exact G'.
Qed.
Lemma in_ssets x l : In x (ssets l) <-> In (EvSolutionSet x) l.
Proof.
  unfold ssets. rewrite in_flat_map. split.
  - intros (e & H1 & H2). destruct e; simpl in H2; try contradiction. destruct H2 as [<-|[]]. exact H1.
  - intro H. exists (EvSolutionSet x). split; [exact H|left; reflexivity].
Qed.
Theorem c106_no_worse : forall E n s setA sA na setB sB nb,
  run E s = (Ok setA, sA) -> recorded s sA na -> run E (asking_state n s) = (Ok setB, sB) -> recorded (asking_state n s) sB nb ->
  (forall c, o_cp (s_o s) = Some c -> cc_auto_resume c = false) ->
  p_iterations (o_params (s_o s)) <= n -> fixed_batches (s_o s) ->
  tolerances_ok (s_o s) -> (forall s0, o_set (s_o s) = Some s0 -> numeric_set s0) ->
  (forall x, In (EvResult x) nb -> number (ls_obj x)) -> not_worse setB setA.
Proof.
  intros E n s setA sA na setB sB nb Ha Na Hb Nb Hr Hn Hw Ht Hs Hnum.
  destruct (run_last E s setA sA na Ha Na Hr) as [H|H].
  - exact (proj2 (fresh_leader E (asking_state n s) _ sB nb Hb Nb Hr Ht Hs Hnum) setA setB H eq_refl).
  - destruct (c106_sets E n s _ sA na _ sB nb Ha Na Hb Nb Hr Hn Hw) as [more M].
    assert (Hin : In (EvSolutionSet setA) nb) by (apply in_ssets; rewrite M; apply in_or_app; right; apply in_ssets; exact H).
    refine (proj1 (proj2 (c25_from E (asking_state n s) _ sB nb Hb Nb _ Hnum)) setB eq_refl setA Hin).
    intros s1 res Hst. destruct Hst as [d _ _|c d cp H1 H2 _ _ _]; [split; [exact Ht|exact Hs]|].
    rewrite (Hr c H1) in H2. discriminate.
Qed.

(** ** Failures *)
Section Failures.
Context (E : env) (n : nat) (T0 T1 : list event) (cfg : params * bool * option nat * solver_type * solver_config).
Notation along := (along n T0 T1 cfg).
Definition late (e : oq_error) : Prop := e = NoFeasibleSolution \/ exists c, e = CheckpointError c.
(** a failure that is not among the late ones is a failure of both *)
Definition ef {A} (m m' : OM A) : Prop := forall s t, along s t ->
  (fst (m s) = Panic -> fst (m' t) = Panic) /\ (forall e, fst (m s) = Err e -> late e \/ fst (m' t) = Err e).
Lemma ef_sim A (m m' : OM A) V : SimP.sim along V m m' -> ef m m'.
Proof.
  intros H s t L. destruct (H s t L) as [H1 _]. destruct (fst (m s)), (fst (m' t)); simpl in H1; try contradiction; split; intros; try discriminate; auto.
  subst. right. congruence.
Qed.
Lemma ef_bind A B (V : A -> A -> Prop) (m m' : OM A) (k k' : A -> OM B) :
  SimP.sim along V m m' -> (forall a b, V a b -> ef (k a) (k' b)) -> ef (bind m k) (bind m' k').
Proof.
  intros H1 H2 s t L. destruct (H1 s t L) as [G1 G2]. unfold bind.
  destruct (m s) as [[a|e|] s1], (m' t) as [[b|e'|] t1]; cbn [fst snd vrel] in *; try contradiction.
  - exact (H2 a b G1 s1 t1 G2).
  - subst e'. split; [discriminate|intros e0 H; right; exact H].
  - split; [reflexivity|discriminate].
Qed.
Lemma ef_end A B (m m' : OM A) (k : A -> OM B) : pre n T0 T1 cfg m m' ->
  (forall a s, fst (k a s) <> Panic /\ forall e, fst (k a s) = Err e -> late e) -> ef (bind m k) (bind m' k).
Proof.
  intros H1 H2 s t L. destruct (H1 s t L) as (t' & _ & _ & G). unfold bind.
  destruct (m s) as [[a|e|] s1] eqn:Hm; cbn [fst snd] in *.
  - split; [intro X; contradiction (proj1 (H2 a s1) X)|intros e X; left; exact (proj2 (H2 a s1) e X)].
  - rewrite G by discriminate. cbn [fst]. split; [discriminate|intros e0 X; right; exact X].
  - rewrite G by discriminate. cbn [fst]. split; [reflexivity|discriminate].
Qed.
Definition fails_late {A} (m : OM A) : Prop := forall s, fst (m s) <> Panic /\ forall e, fst (m s) = Err e -> late e.
Lemma fl_bind A B (m : OM A) (k : A -> OM B) : fails_late m -> (forall a, fails_late (k a)) -> fails_late (bind m k).
Proof.
  intros H1 H2 s. unfold bind. specialize (H1 s). destruct (m s) as [[a|e|] s1]; cbn [fst] in *; [apply H2| |contradiction (proj1 H1 eq_refl)].
  split; [discriminate|]. intros e' X. injection X as <-. exact (proj2 H1 e eq_refl).
Qed.
Lemma fl_ok A (m : OM A) : (forall s, exists a, fst (m s) = Ok a) -> fails_late m.
Proof. intros H s. destruct (H s) as [a Ha]. rewrite Ha. split; [discriminate|intros; discriminate]. Qed.
Ltac fo := apply fl_ok; intro; eexists; reflexivity.
Lemma end_late : fails_late (maybe_save_final_checkpoint E ;;; final_set).
Proof.
  apply fl_bind; [|intros _].
  - unfold maybe_save_final_checkpoint. apply fl_bind; [fo|intro o]. destruct (o_cp o) as [c|]; [|fo].
    unfold save_now, create_checkpoint. apply fl_bind; [apply fl_bind; [fo|intro]; apply fl_bind; [fo|intro]; fo|intro cp].
    apply fl_bind; [fo|intro o']. apply fl_bind; [fo|intros _]. apply fl_bind; [|intros _; fo].
    intro s. unfold on_disk, save_checkpoint, fs_write, next_io, set_files, bind, modify, fail, ret. cbn [fst snd].
    destruct (e_io E (d_tick (w_disk (s_w s)))); cbn [fst snd]; split; try discriminate; intros e H; injection H as <-; right; eexists; reflexivity.
  - unfold final_set. apply fl_bind; [fo|intro o]. destruct (o_set o); [fo|].
    intro s. split; [discriminate|]. intros e H. injection H as <-. left. reflexivity.
Qed.
Lemma ef_stage2 refs objs u : (let '(p, par, bat, _, _) := cfg in
    p_iterations p <= n /\ (par = false \/ exists k, bat = Some k /\ exists m, p_iterations p = m * k)) ->
  ef (stage2_run E false refs objs u) (stage2_run E false refs objs u).
Proof.
  intro W. unfold stage2_run. eapply ef_bind with (V := eq); [apply m_begin2|intros ? ? _].
  eapply ef_bind; [apply m_oqnlp|]. intros o o' [-> Hc]. eapply ef_bind with (V := eq).
  { eapply sim_bind with (V := eq); [apply sim_unwrap|intros sd ? <-]. eapply sim_bind with (V := eq); [apply m_upd; reflexivity|intros ? ? _]. apply sim_ret. reflexivity. }
  intros rs ? <-. cbv zeta iota. apply ef_end; [|intros _; apply end_late]. apply m_whole; [exact W|exact Hc].
Qed.
End Failures.
Theorem c106_failures : forall E n s rA sA rB sB, run E s = (rA, sA) -> run E (asking_state n s) = (rB, sB) ->
  (forall c, o_cp (s_o s) = Some c -> cc_auto_resume c = false) ->
  p_iterations (o_params (s_o s)) <= n -> whole_batches (s_o s) ->
  (rA = Panic -> rB = Panic) /\
  (forall e, rA = Err e -> e <> NoFeasibleSolution -> (forall c, e <> CheckpointError c) -> rB = Err e).
Proof.
  intros E n s rA sA rB sB Ha Hb Hr Hn Hw.
  set (T := w_trace (s_w s)). set (cfg := settings (s_o s)).
  assert (L : along n T T cfg s (asking_state n s)).
  { unfold along. repeat (split; [reflexivity|]). exists [], []. repeat split. }
  assert (G : ef n T T cfg (stage1_r <- stage1_run E ;; match stage1_r with None => final_set | Some (refs, objs) => stage2_run E false refs (Some objs) 0 end)
    (stage1_r <- stage1_run E ;; match stage1_r with None => final_set | Some (refs, objs) => stage2_run E false refs (Some objs) 0 end)).
  { eapply ef_bind; [apply m_stage1|]. intros [[refs objs]|] ? <-.
    - apply ef_stage2. unfold cfg, settings. split; [exact Hn|]. exact Hw.
    - apply ef_sim with (V := eq). unfold final_set. eapply sim_bind; [apply m_oqnlp|]. intros o o' [-> _].
      change (o_set (asking n o)) with (o_set o). destruct (o_set o); [apply sim_ret; reflexivity|apply sim_fail]. }
  specialize (G _ _ L).
  assert (Rn : forall x, no_resume (s_o x) -> run E x = (stage1_r <- stage1_run E ;; match stage1_r with None => final_set | Some (refs, objs) => stage2_run E false refs (Some objs) 0 end) x).
  { intros x Hx. unfold run. unfold bind at 1. rewrite (no_resume_start E x Hx). reflexivity. }
  rewrite <- !Rn in G by (exact Hr). rewrite Ha, Hb in G. cbn [fst] in G. destruct G as [G1 G2]. split; [exact G1|].
  intros e He N1 N2. destruct (G2 e He) as [[X|[c X]]|X]; [contradiction|contradiction (N2 c X)|exact X].
Qed.
