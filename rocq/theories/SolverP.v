(** * Proofs about local solver dispatch, builders and solver names *)
From Coq Require Import ZArith NArith List Bool Arith Lia String Ascii.
From Verif Require Import F64 Base Builders Types Filters Runner Observer Env ScatterSearch
  Codec Checkpoint Oqnlp Spec.
Import ListNotations.

(** ** Dispatch *)
Lemma mismatch_iff : forall X P ty cfg x0 track,
  solve_with_tracking X P ty cfg x0 track = Err (mismatch_error ty) <-> ~ belongs ty cfg.
Proof.
  intros X P ty cfg x0 track. split.
  - intros H B. destruct ty, cfg; simpl in B; try contradiction; simpl in H;
      unfold build_ls, step, bounds2, exec in H;
      repeat match goal with
             | H : context [match ?x with _ => _ end] |- _ => destruct x; try discriminate
             end.
  - intro B. destruct ty, cfg; simpl in B; try (exfalso; apply B; exact I); reflexivity.
Qed.

Lemma bump_spec : forall d p i x, nth_error p i = Some x ->
  bump i d p = firstn i p ++ fadd x d :: skipn (S i) p.
Proof.
  induction p as [|y p IH]; intros [|i] x H; try discriminate; simpl in *.
  - injection H as ->; reflexivity.
  - rewrite (IH i x H). reflexivity.
Qed.
Lemma nm_simplex_spec : forall d x0, simplex_around d x0 (nm_simplex d x0).
Proof.
  intros d x0. unfold simplex_around, nm_simplex. split; [simpl; rewrite map_length, seq_length; auto|].
  split; [reflexivity|]. intros i x H. cbn [nth_error].
  assert (i < List.length x0) by (apply nth_error_Some; congruence).
  rewrite nth_error_map.
  assert (nth_error (seq 0 (List.length x0)) i = Some i) as ->.
  { rewrite nth_error_nth' with (d := 0); [|rewrite seq_length; auto]. rewrite seq_nth; auto. }
  cbn [option_map]. rewrite (bump_spec d x0 i x H). reflexivity.
Qed.

(** every accepted request is built from the configured settings *)
Lemma build_ls_ok : forall A X mk l (k : ls_job -> outcome ls_error A) r,
  build_ls X mk l k = Ok r -> exists j, configured_ls l j /\ k j = Ok r.
Proof.
  intros A X mk l k r H. destruct l; simpl in H; unfold step, bounds2 in H;
  repeat match goal with
         | H : context [if ext_ok X ?c then _ else _] |- _ => destruct (ext_ok X c); try discriminate
         | H : context [match ?b with [] => _ | _ => _ end] |- _ => destruct b; try discriminate
         end; eexists; split; try exact H; constructor.
Qed.
Lemma exec_ok : forall X P track j s n, exec X P track j = Ok (s, n) ->
  exists x c k, argmin_run X P j = XDone (Some x) c k /\ s = mk_lsol x c /\
                n = if track then k else 0%N.
Proof.
  intros X P track j s n H. unfold exec in H. destruct (argmin_run X P j) as [[x|] c k|]; try discriminate.
  injection H as <- <-. eauto 6.
Qed.
Definition ncg_hz (cfg : solver_config) : bool :=
  match cfg with CfgNewtonCG _ _ _ (HagerZhang _ _ _ _ _ _ _) => true | _ => false end.

Lemma solve_ok_runs_config : forall X P ty cfg x0 track s n,
  solve_with_tracking X P ty cfg x0 track = Ok (s, n) -> ncg_hz cfg = false ->
  belongs ty cfg /\
  ((exists job x c k, asks_for x0 cfg job /\ argmin_run X P job = XDone (Some x) c k /\
      s = mk_lsol x c /\ n = if track then k else 0%N) \/
   (exists job x c k, asks_for_cobyla P x0 cfg job /\ cobyla_run X job = XDone x c k /\
      s = mk_lsol x c /\ n = if track then k else 0%N)).
Proof.
  intros X P ty cfg x0 track s n H HZ.
  destruct ty; simpl in H; destruct cfg; try discriminate; (split; [exact I|]).
  - left. apply build_ls_ok in H as (j & Hc & H). unfold step in H.
    destruct (ext_ok X (XTolCost tolerance_cost)); try discriminate.
    destruct (ext_ok X (XTolGrad tolerance_grad)); try discriminate.
    destruct l1_coefficient as [v|]; [destruct (ext_ok X (XL1 v)); try discriminate|];
      apply exec_ok in H as (x & c & k & H & -> & ->); do 4 eexists; (split; [|eauto]); constructor; auto.
  - left. unfold solve_nelder_mead, step in H.
    repeat match goal with
           | H : context [if ext_ok X ?c then _ else _] |- _ => destruct (ext_ok X c); try discriminate
           end.
    apply exec_ok in H as (x & c & k & H & -> & ->). do 4 eexists; (split; [|eauto]).
    constructor. apply nm_simplex_spec.
  - left. apply build_ls_ok in H as (j & Hc & H).
    apply exec_ok in H as (x & c & k & H & -> & ->). do 4 eexists; (split; [|eauto]). constructor; auto.
  - left. unfold solve_trust_region, step in H.
    repeat match goal with
           | H : context [if ext_ok X ?c then _ else _] |- _ => destruct (ext_ok X c); try discriminate
           end.
    apply exec_ok in H as (x & c & k & H & -> & ->). do 4 eexists; (split; [|eauto]). constructor.
  - left. apply build_ls_ok in H as (j & Hc & H). destruct line_search_params; [|discriminate].
    unfold step in H. destruct (ext_ok X (XNCGTol tolerance)); try discriminate.
    apply exec_ok in H as (x & c & k & H & -> & ->). do 4 eexists; (split; [|eauto]). constructor; auto.
  - right. unfold solve_cobyla in H. destruct (Nat.eqb _ _); try discriminate.
    destruct (cobyla_run X _) as [x c k|] eqn:E; try discriminate. injection H as <- <-.
    do 4 eexists. split; [|split; [exact E|split; reflexivity]]. simpl. repeat split; reflexivity.
Qed.

(** with every setter accepted, a matching configuration is run and nothing else happens *)
Definition ls_of (cfg : solver_config) : option line_search :=
  match cfg with
  | CfgLBFGS _ _ _ _ _ l | CfgSteepestDescent _ l | CfgNewtonCG _ _ _ l => Some l
  | _ => None
  end.
Definition ls_bounds (l : line_search) : list f64 :=
  match l with MoreThuente _ _ _ b | HagerZhang _ _ _ _ _ _ b => b end.
Lemma build_ls_run : forall A X mk l (k : ls_job -> outcome ls_error A),
  (forall c, ext_ok X c = true) -> 2 <= List.length (ls_bounds l) ->
  exists j, configured_ls l j /\ build_ls X mk l k = k j.
Proof.
  intros A X mk l k HX Hl. destruct l; simpl in *; unfold step, bounds2;
    destruct bounds as [|lo [|hi more]]; simpl in Hl; try lia; rewrite !HX;
    eexists; (split; [constructor | reflexivity]).
Qed.
Lemma solve_matching_runs : forall X P ty cfg x0 track,
  belongs ty cfg -> ncg_hz cfg = false -> ty <> COBYLA ->
  (forall c, ext_ok X c = true) ->
  (forall l, ls_of cfg = Some l -> 2 <= List.length (ls_bounds l)) ->
  exists job, asks_for x0 cfg job /\
    solve_with_tracking X P ty cfg x0 track =
    match argmin_run X P job with
    | XDone (Some x) c k => Ok (mk_lsol x c, if track then k else 0%N)
    | XDone None _ _ => Err NoSolution
    | XFail r => Err (RunFailed (RRun r))
    end.
Proof.
  intros X P ty cfg x0 track B HZ NC HX HL.
  assert (EX : forall j, exec X P track j = match argmin_run X P j with
    | XDone (Some x) c k => Ok (mk_lsol x c, if track then k else 0%N)
    | XDone None _ _ => Err NoSolution
    | XFail r => Err (RunFailed (RRun r))
    end).
  { intro j. unfold exec. destruct (argmin_run X P j) as [[|]|]; reflexivity. }
  destruct ty, cfg; try contradiction; try congruence; simpl.
  - match goal with |- context [build_ls X ?mk ?l ?k] =>
      destruct (build_ls_run _ X mk l k HX (HL _ eq_refl)) as (j & Hc & ->) end.
    unfold step. rewrite !HX. exists (JLBFGS j history_size tolerance_cost tolerance_grad l1_coefficient x0 max_iter).
    split; [constructor; auto|]. rewrite <- EX. destruct l1_coefficient; [rewrite HX|]; reflexivity.
  - unfold step. rewrite !HX. eexists; split; [|apply EX]. constructor. apply nm_simplex_spec.
  - match goal with |- context [build_ls X ?mk ?l ?k] =>
      destruct (build_ls_run _ X mk l k HX (HL _ eq_refl)) as (j & Hc & ->) end.
    eexists; split; [|apply EX]. constructor; auto.
  - unfold step. rewrite !HX. eexists; split; [|apply EX]. constructor.
  - match goal with |- context [build_ls X ?mk ?l ?k] =>
      destruct (build_ls_run _ X mk l k HX (HL _ eq_refl)) as (j & Hc & ->) end.
    destruct line_search_params; [|discriminate]. unfold step. rewrite HX.
    eexists; split; [|apply EX]. constructor; auto.
Qed.
Lemma solve_cobyla_runs : forall X P cfg x0 track,
  belongs COBYLA cfg -> List.length (pb_bounds P) = List.length x0 ->
  exists job, asks_for_cobyla P x0 cfg job /\
    solve_with_tracking X P COBYLA cfg x0 track =
    match cobyla_run X job with
    | XDone x c k => Ok (mk_lsol x c, if track then k else 0%N)
    | XFail r => Err (RunFailed (RRun r))
    end.
Proof.
  intros X P cfg x0 track B H. destruct cfg; try contradiction. simpl.
  rewrite (proj2 (Nat.eqb_eq _ _) H). eexists; split; [|reflexivity]. simpl. repeat split; reflexivity.
Qed.

(** ** Newton-CG *)
Lemma ncg_drops_settings : ~ (forall X P it cu tol ls x0 track s n,
  solve_with_tracking X P NewtonCG (CfgNewtonCG it cu tol ls) x0 track = Ok (s, n) ->
  exists job x c k, asks_for x0 (CfgNewtonCG it cu tol ls) job /\
    argmin_run X P job = XDone (Some x) c k /\ s = mk_lsol x c /\ n = if track then k else 0%N).
Proof.
  intro H.
  set (X := mk_ext (fun _ => true)
    (fun _ j => match j with JNewtonCG _ None None _ _ => XDone (Some []) f0 0%N | _ => XFail 0%N end)
    (fun _ => XFail 0%N)).
  set (P := mk_problem (fun _ => inl f0) (fun _ => inl []) (fun _ => inl []) [] []).
  destruct (H X P 10%N f0 f0 (hz_build hz_default) [] false (mk_lsol [] f0) 0%N eq_refl)
    as (job & x & c & k & A & R & _).
  inversion A; subst. simpl in R. discriminate.
Qed.
Lemma ncg_wrong_error : ~ (forall X P it cu tol ls x0 track e,
  solve_with_tracking X P NewtonCG (CfgNewtonCG it cu tol ls) x0 track = Err e ->
  match e with InvalidNewtonCG _ | RunFailed _ | NoSolution => True | _ => False end).
Proof.
  intro H.
  set (X := mk_ext (fun _ => false) (fun _ _ => XFail 0%N) (fun _ => XFail 0%N)).
  set (P := mk_problem (fun _ => inl f0) (fun _ => inl []) (fun _ => inl []) [] []).
  exact (H X P 10%N f0 f0 ls_default [] false (InvalidSteepestDescentConfig (RRejected (XWithC (lit 1 10000) (lit 9 10)))) eq_refl).
Qed.

(** ** Builders *)
(** values that a sequence of calls writes to one field *)
Lemma last_written_fold : forall B C V (apply : B -> C -> B) (field : B -> V) (sel : C -> option V),
  (forall b c, field (apply b c) = match sel c with Some v => v | None => field b end) ->
  forall cs b, field (fold_left apply cs b) =
    last_written (field b) (sets sel cs).
Proof.
  intros B C V apply field sel H cs. unfold last_written, sets.
  assert (L : forall l (a d : V), last (a :: l) d = last l a).
  { induction l as [|x l IH]; intros; [reflexivity|].
    change (last (a :: x :: l) d) with (last (x :: l) d). rewrite !IH. reflexivity. }
  induction cs as [|c cs IH]; intro b; simpl; [reflexivity|]. rewrite IH, H.
  destruct (sel c); simpl app; [rewrite L|]; reflexivity.
Qed.

Lemma lb_last_write_wins : forall cs b,
  lb_build (fold_left lb_apply cs b) =
  CfgLBFGS
    (last_written (lb_max_iter b) (sets (fun c => match c with LB_max_iter v => Some v | _ => None end) cs))
    (last_written (lb_tolerance_grad b) (sets (fun c => match c with LB_tolerance_grad v => Some v | _ => None end) cs))
    (last_written (lb_tolerance_cost b) (sets (fun c => match c with LB_tolerance_cost v => Some v | _ => None end) cs))
    (last_written (lb_history_size b) (sets (fun c => match c with LB_history_size v => Some v | _ => None end) cs))
    (last_written (lb_l1_coefficient b) (sets (fun c => match c with LB_l1_coefficient v => Some v | _ => None end) cs))
    (last_written (lb_line_search_params b) (sets (fun c => match c with LB_line_search_params v => Some v | _ => None end) cs)).
Proof.
  intros cs b. unfold lb_build. f_equal; apply last_written_fold; intros ? []; reflexivity.
Qed.

Lemma nm_last_write_wins : forall cs b,
  nm_build (fold_left nm_apply cs b) =
  CfgNelderMead
    (last_written (nm_simplex_delta b) (sets (fun c => match c with NM_simplex_delta v => Some v | _ => None end) cs))
    (last_written (nm_sd_tolerance b) (sets (fun c => match c with NM_sd_tolerance v => Some v | _ => None end) cs))
    (last_written (nm_max_iter b) (sets (fun c => match c with NM_max_iter v => Some v | _ => None end) cs))
    (last_written (nm_alpha b) (sets (fun c => match c with NM_alpha v => Some v | _ => None end) cs))
    (last_written (nm_gamma b) (sets (fun c => match c with NM_gamma v => Some v | _ => None end) cs))
    (last_written (nm_rho b) (sets (fun c => match c with NM_rho v => Some v | _ => None end) cs))
    (last_written (nm_sigma b) (sets (fun c => match c with NM_sigma v => Some v | _ => None end) cs)).
Proof.
  intros cs b. unfold nm_build. f_equal; apply last_written_fold; intros ? []; reflexivity.
Qed.

Lemma sd_last_write_wins : forall cs b,
  sd_build (fold_left sd_apply cs b) =
  CfgSteepestDescent
    (last_written (sd_max_iter b) (sets (fun c => match c with SD_max_iter v => Some v | _ => None end) cs))
    (last_written (sd_line_search_params b) (sets (fun c => match c with SD_line_search_params v => Some v | _ => None end) cs)).
Proof.
  intros cs b. unfold sd_build. f_equal; apply last_written_fold; intros ? []; reflexivity.
Qed.

Lemma tr_last_write_wins : forall cs b,
  tr_build (fold_left tr_apply cs b) =
  CfgTrustRegion
    (last_written (tr_method_ b) (sets (fun c => match c with TR_method v => Some v | _ => None end) cs))
    (last_written (tr_max_iter b) (sets (fun c => match c with TR_max_iter v => Some v | _ => None end) cs))
    (last_written (tr_radius b) (sets (fun c => match c with TR_radius v => Some v | _ => None end) cs))
    (last_written (tr_max_radius b) (sets (fun c => match c with TR_max_radius v => Some v | _ => None end) cs))
    (last_written (tr_eta b) (sets (fun c => match c with TR_eta v => Some v | _ => None end) cs)).
Proof.
  intros cs b. unfold tr_build. f_equal; apply last_written_fold; intros ? []; reflexivity.
Qed.

Lemma ncg_last_write_wins : forall cs b,
  ncg_build (fold_left ncg_apply cs b) =
  CfgNewtonCG
    (last_written (ncg_max_iter b) (sets (fun c => match c with NCG_max_iter v => Some v | _ => None end) cs))
    (last_written (ncg_curvature_threshold b) (sets (fun c => match c with NCG_curvature_threshold v => Some v | _ => None end) cs))
    (last_written (ncg_tolerance b) (sets (fun c => match c with NCG_tolerance v => Some v | _ => None end) cs))
    (last_written (ncg_line_search_params b) (sets (fun c => match c with NCG_line_search_params v => Some v | _ => None end) cs)).
Proof.
  intros cs b. unfold ncg_build. f_equal; apply last_written_fold; intros ? []; reflexivity.
Qed.

Lemma mt_last_write_wins : forall cs b,
  mt_build (fold_left mt_apply cs b) =
  MoreThuente
    (last_written (mt_c1 b) (sets (fun c => match c with MT_c1 v => Some v | _ => None end) cs))
    (last_written (mt_c2 b) (sets (fun c => match c with MT_c2 v => Some v | _ => None end) cs))
    (last_written (mt_width_tolerance b) (sets (fun c => match c with MT_width_tolerance v => Some v | _ => None end) cs))
    (last_written (mt_bounds b) (sets (fun c => match c with MT_bounds v => Some v | _ => None end) cs)).
Proof.
  intros cs b. unfold mt_build. f_equal; apply last_written_fold; intros ? []; reflexivity.
Qed.

Lemma hz_last_write_wins : forall cs b,
  hz_build (fold_left hz_apply cs b) =
  HagerZhang
    (last_written (hz_delta b) (sets (fun c => match c with HZ_delta v => Some v | _ => None end) cs))
    (last_written (hz_sigma b) (sets (fun c => match c with HZ_sigma v => Some v | _ => None end) cs))
    (last_written (hz_epsilon b) (sets (fun c => match c with HZ_epsilon v => Some v | _ => None end) cs))
    (last_written (hz_theta b) (sets (fun c => match c with HZ_theta v => Some v | _ => None end) cs))
    (last_written (hz_gamma b) (sets (fun c => match c with HZ_gamma v => Some v | _ => None end) cs))
    (last_written (hz_eta b) (sets (fun c => match c with HZ_eta v => Some v | _ => None end) cs))
    (last_written (hz_bounds b) (sets (fun c => match c with HZ_bounds v => Some v | _ => None end) cs)).
Proof.
  intros cs b. unfold hz_build. f_equal; apply last_written_fold; intros ? []; reflexivity.
Qed.

Lemma cb_last_write_wins : forall cs b,
  cb_build (fold_left cb_apply cs b) =
  CfgCOBYLA
    (last_written (cb_max_iter b) (sets (fun c => match c with CB_max_iter v => Some v | _ => None end) cs))
    (last_written (cb_initial_step_size b) (sets (fun c => match c with CB_initial_step_size v => Some v | _ => None end) cs))
    (last_written (match cb_ftol_rel b with Some v => v | None => (lit 1 (10 ^ 6)) end)
       (sets (fun c => match c with CB_ftol_rel v => Some v | _ => None end) cs))
    (last_written (match cb_ftol_abs b with Some v => v | None => (lit 1 (10 ^ 8)) end)
       (sets (fun c => match c with CB_ftol_abs v => Some v | _ => None end) cs))
    (last_written (match cb_xtol_rel b with Some v => v | None => f0 end)
       (sets (fun c => match c with CB_xtol_rel v => Some v | _ => None end) cs))
    (last_written (match cb_xtol_abs b with Some v => v | None => [] end)
       (sets (fun c => match c with CB_xtol_abs v => Some v | _ => None end) cs)).
Proof.
  intros cs b. unfold cb_build. f_equal.
  - apply last_written_fold; intros ? []; reflexivity.
  - apply last_written_fold; intros ? []; reflexivity.
  - apply last_written_fold with (field := fun b => match cb_ftol_rel b with Some v => v | None => lit 1 (10 ^ 6) end); intros ? []; reflexivity.
  - apply last_written_fold with (field := fun b => match cb_ftol_abs b with Some v => v | None => lit 1 (10 ^ 8) end); intros ? []; reflexivity.
  - apply last_written_fold with (field := fun b => match cb_xtol_rel b with Some v => v | None => f0 end); intros ? []; reflexivity.
  - apply last_written_fold with (field := fun b => match cb_xtol_abs b with Some v => v | None => [] end); intros ? []; reflexivity.
Qed.

Lemma defaults_as_documented :
  lb_build lb_default = doc_lbfgs /\ nm_build nm_default = doc_nelder_mead /\
  sd_build sd_default = doc_steepest_descent /\ tr_build tr_default = doc_trust_region /\
  ncg_build ncg_default = doc_newton_cg /\ cb_build cb_default = doc_cobyla /\
  mt_build mt_default = doc_line_search /\ ls_default = doc_line_search.
Proof. vm_compute. repeat split. Qed.
Lemma hz_default_not_documented : hz_build hz_default <> doc_hager_zhang.
Proof. vm_compute. discriminate. Qed.

(** ** Solver names *)
Definition not_upper (c : ascii) : bool := negb (N.leb 65 (N_of_ascii c) && N.leb (N_of_ascii c) 90).
Fixpoint all_not_upper (s : string) : bool :=
  match s with EmptyString => true | String c r => not_upper c && all_not_upper r end.
Lemma lower_same : forall c, not_upper c = true -> lower_ascii c = c.
Proof. intros c H. unfold lower_ascii, not_upper in *. destruct (_ && _); [discriminate|reflexivity]. Qed.
Lemma lower_upper : forall c u, upper c = Some u -> lower_ascii u = c.
Proof.
  intros c u H. destruct c as [[] [] [] [] [] [] [] []]; vm_compute in H; inversion H; subst; reflexivity.
Qed.
Lemma lower_inv : forall c, lower_ascii c = c \/ upper (lower_ascii c) = Some c.
Proof.
  intros c. destruct c as [[] [] [] [] [] [] [] []]; vm_compute; auto.
Qed.
Lemma lowercase_iff : forall w s, all_not_upper w = true ->
  (to_lowercase s = w <-> same_letters s w).
Proof.
  induction w as [|d w IH]; intros [|c s] H; simpl in *.
  - split; constructor.
  - split; intro K; [discriminate | inversion K].
  - split; intro K; [discriminate | inversion K].
  - apply andb_prop in H as [H1 H2]. split; intro K.
    + injection K as K1 K2. apply (IH s H2) in K2. destruct (lower_inv c) as [E|E].
      * rewrite E in K1. subst d. apply SlSame; auto.
      * rewrite K1 in E. apply SlUpper; auto.
    + inversion K; subst; f_equal; try (apply IH; auto).
      * apply lower_same; auto.
      * apply lower_upper; auto.
Qed.
Lemma from_string_iff : forall s t,
  from_string s = Some t <-> exists w, In (w, t) spellings /\ same_letters s w.
Proof.
  intros s t. split.
  - unfold from_string; cbv zeta. intro H.
    repeat match goal with
    | H : context [if String.eqb ?a ?b then _ else _] |- _ =>
        destruct (String.eqb_spec a b) as [Hl|_];
        [injection H as <-; exists b; split; [simpl; tauto | apply lowercase_iff; [reflexivity|exact Hl]]|]
    end. discriminate.
  - intros (w & I & L). unfold from_string.
    simpl in I. repeat (destruct I as [I|I]; [injection I as <- <-; apply lowercase_iff in L; [|reflexivity]; rewrite L; reflexivity|]).
    contradiction.
Qed.
Lemma from_string_none : forall s,
  from_string s = None <-> forall w t, In (w, t) spellings -> ~ same_letters s w.
Proof.
  intros s. split.
  - intros H w t I L. assert (from_string s = Some t) by (apply from_string_iff; eauto). congruence.
  - intro H. destruct (from_string s) as [t|] eqn:E; auto.
    apply from_string_iff in E as (w & I & L). exfalso; eapply H; eauto.
Qed.
Lemma ncg_mt_ok : forall X P it cu tol c1 c2 w b x0 track s n,
  solve_with_tracking X P NewtonCG (CfgNewtonCG it cu tol (MoreThuente c1 c2 w b)) x0 track = Ok (s, n) ->
  exists job x c k, asks_for x0 (CfgNewtonCG it cu tol (MoreThuente c1 c2 w b)) job /\
    argmin_run X P job = XDone (Some x) c k /\ s = mk_lsol x c /\ n = if track then k else 0%N.
Proof.
  intros. apply solve_ok_runs_config in H as [_ [H|H]]; auto.
  destruct H as (job & ? & ? & ? & A & _). contradiction.
Qed.
