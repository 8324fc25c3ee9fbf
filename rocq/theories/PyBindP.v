(** * Proofs about the Python entry point *)
From Coq Require Import ZArith NArith List Bool Arith Lia String.
From Verif Require Import F64 Base Builders Types Filters Runner Observer Env ScatterSearch Codec Checkpoint
  Oqnlp Spec BasicP PyBind SpecPyBind.
Import ListNotations.

Lemma line_search_same l : same_line_search l (line_search_of l).
Proof. destruct l; constructor. Qed.
Lemma line_search_iff l l' : same_line_search l l' <-> l' = line_search_of l.
Proof.
  split; intros H; [|subst; apply line_search_same].
  inversion H; reflexivity.
Qed.
Lemma to_config_iff ty c cfg : py_to_config ty c = Some cfg <-> same_settings ty c cfg.
Proof.
  split.
  - destruct ty, c; simpl; intros H; try discriminate; inversion H; subst; clear H.
    + apply SameLBFGS, line_search_same.
    + apply SameNM.
    + apply SameSD, line_search_same.
    + apply SameTR.
    + apply SameNCG, line_search_same.
    + destruct ftol_rel, ftol_abs, xtol_rel, xtol_abs; apply SameCOBYLA.
  - intros H; inversion H; subst; clear H; simpl; try reflexivity;
      try (apply line_search_iff in H0; subst; reflexivity).
    destruct fr, fa, xr, xa; reflexivity.
Qed.
Lemma to_config_none ty c : py_to_config ty c = None <-> forall cfg, ~ same_settings ty c cfg.
Proof.
  split.
  - intros H cfg S. apply to_config_iff in S. congruence.
  - intros H. destruct (py_to_config ty c) eqn:P; auto. apply to_config_iff in P. destruct (H _ P).
Qed.
Lemma default_config_doc ty : rust_default_config ty = doc_config ty.
Proof. destruct ty; reflexivity. Qed.

Lemma asked_name a : from_string (or_else "cobyla"%string (pa_solver a)) = asked_solver a.
Proof. unfold asked_solver. destruct (pa_solver a); reflexivity. Qed.

Lemma build_ok E a o : py_build E a = Ok o -> as_asked a o.
Proof.
  unfold py_build. rewrite asked_name. destruct (asked_solver a) as [ty|] eqn:A; [|discriminate].
  destruct (match pa_config a with Some c => py_to_config ty c | None => Some (rust_default_config ty) end)
    as [cfg|] eqn:C; [|discriminate].
  set (p := mk_params _ _ _ _ _ _ _ _).
  destruct (oq_new p) as [o0| |] eqn:N; try discriminate.
  pose proof (proj2 (proj2 (proj2 (oq_new_spec p))) _ N) as F.
  assert (W : forall o1, (match pa_points a with
      | None => Ok o0
      | Some l => match points_array l with None => Err PyPointsShape | Some ps => from_oq (with_points E ps o0) end
      end) = Ok o1 -> exists c, o1 = set_o_custom c o0 /\ (pa_points a = None -> c = None)).
  { intros o1. destruct (pa_points a) as [l|].
    - destruct (points_array l) as [ps|]; [|discriminate].
      unfold with_points. destruct (check_points _ _ ps); simpl; intros H; inversion H.
      exists (Some ps). split; [reflexivity|discriminate].
    - intros H; inversion H; subst o1. exists None. split; auto.
      destruct F as [_ _ _ _ _ _ _ _ [_ Fc] _]. destruct o0; simpl in *. subst. reflexivity. }
  destruct (match pa_points a with
      | None => Ok o0
      | Some l => match points_array l with None => Err PyPointsShape | Some ps => from_oq (with_points E ps o0) end
      end) as [o1| |]; try discriminate.
  destruct (W o1 eq_refl) as (c & -> & Wc). clear W.
  intros H; inversion H; subst o; clear H.
  destruct F as [F1 [F2 F2'] F3 F4 [F5 F5'] (F6 & F7 & F8) [F9 F10] (F11 & F12 & F13 & F14) [F15 F16] [F17 F18]].
  assert (S : asked_config a ty cfg).
  { unfold asked_config. destruct (pa_config a).
    - apply to_config_iff; auto.
    - inversion C. apply default_config_doc. }
  destruct (pa_observer a) as [[ob cb]|] eqn:O, (pa_target a) as [tg|] eqn:T, (pa_max_time a) as [mt|] eqn:M,
    (pa_exclude a) as [[|]|] eqn:X, (pa_parallel a) as [[|]|] eqn:P, (pa_seed a) as [sd|] eqn:SD;
    (constructor; simpl; rewrite ?F1, ?F2, ?F2', ?O, ?T, ?M, ?X, ?P, ?SD; simpl; auto; try (repeat split; auto; fail);
     unfold clone_inner; simpl; try (destruct cb; eexists; split; reflexivity); auto).
Qed.

(** ** Points *)
Lemma rows_of_concat l cols : (forall r, In r l -> List.length r = cols) ->
  rows_of (List.length l) cols (List.concat l) = l.
Proof.
  induction l as [|r l IH]; intros H; [reflexivity|].
  assert (R : List.length r = cols) by (apply H; left; auto). simpl.
  rewrite firstn_app, skipn_app, R, Nat.sub_diag. simpl.
  rewrite (firstn_all2 r), app_nil_r by lia. rewrite (skipn_all2 r) by lia. simpl.
  f_equal. apply IH. intros; apply H; right; auto.
Qed.
Lemma concat_length l cols : (forall r : list f64, In r l -> List.length r = cols) ->
  List.length (List.concat l) = List.length l * cols.
Proof.
  induction l as [|r l IH]; intros H; [reflexivity|].
  assert (R : List.length r = cols) by (apply H; left; auto). simpl. rewrite app_length, R. f_equal.
  apply IH. intros q Q; apply H; right; auto.
Qed.
Lemma points_rectangular l : rectangular l -> points_array l = Some l.
Proof.
  intros R. unfold points_array. destruct l as [|r l]; [reflexivity|].
  assert (H : forall q, In q (r :: l) -> List.length q = List.length r) by (intros q Q; apply R; [auto|left; auto]).
  rewrite (concat_length _ _ H), Nat.eqb_refl, (rows_of_concat _ _ H). reflexivity.
Qed.
Lemma rows_of_lengths cols : forall n l, List.length l = n * cols ->
  List.length (rows_of n cols l) = n /\ List.concat (rows_of n cols l) = l /\
  forall r, In r (rows_of n cols l) -> List.length r = cols.
Proof.
  induction n as [|n IH]; intros l H; simpl in *.
  - destruct l; [repeat split; intros r []|discriminate].
  - destruct (IH (skipn cols l)) as (A & B & C); [rewrite skipn_length; lia|].
    split; [congruence|]. split; [rewrite B; apply firstn_skipn|].
    intros r [<-|R]; auto. rewrite firstn_length. lia.
Qed.
Lemma recut_iff l ps : points_array l = Some ps <-> recut l ps.
Proof.
  unfold points_array, recut.
  assert (Q : match l with r :: _ => List.length r | [] => 0 end = List.length (hd [] l)) by (destruct l; reflexivity).
  rewrite Q. set (cols := List.length (hd [] l)). clearbody cols. clear Q. split.
  - destruct (Nat.eqb_spec (List.length (List.concat l)) (List.length l * cols)) as [N|]; [|discriminate].
    intros H; inversion H; subst ps. destruct (rows_of_lengths cols _ _ N) as (A & B & C). split; [exact B|]. split; [exact A|exact C].
  - intros (A & B & C). pose proof (concat_length ps cols C) as D.
    rewrite <- A, <- B, D, Nat.eqb_refl, (rows_of_concat ps cols C). reflexivity.
Qed.
Lemma recut_none l : points_array l = None <-> forall ps, ~ recut l ps.
Proof.
  split.
  - intros H ps R. apply recut_iff in R. congruence.
  - intros H. destruct (points_array l) eqn:P; auto. apply recut_iff in P. destruct (H _ P).
Qed.
Lemma with_points_err E ps o e : with_points E ps o = Err e <-> bad_row (pb_bounds (e_problem E)) ps e.
Proof.
  pose proof (with_points_spec E ps o) as K. split.
  - intros H. rewrite H in K. exact K.
  - intros (i & row & (F1 & F2 & F3) & F). destruct (with_points E ps o) as [o'|e'|].
    + destruct K as [K _]. rewrite Forall_forall in K. destruct F2. apply K. eapply nth_error_In; eauto.
    + destruct K as (i' & row' & (G1 & G2 & G3) & G).
      assert (i' = i).
      { destruct (Nat.lt_trichotomy i i') as [L|[L|L]]; auto.
        - destruct (G3 _ _ L F1 F2).
        - destruct (F3 _ _ L G1 G2). }
      subst i'. assert (row' = row) by congruence. subst row'.
      destruct F as [[-> ?]|[-> ?]], G as [[-> ?]|[-> ?]]; auto; contradiction.
    + destruct K.
Qed.

Lemma build_err E a e : py_build E a = Err e <->
  match e with
  | PyUnknownSolver => asked_solver a = None
  | PyWrongConfig ty => asked_solver a = Some ty /\ exists c, pa_config a = Some c /\ forall cfg, ~ same_settings ty c cfg
  | PyPointsShape =>
      (exists ty cfg, asked_solver a = Some ty /\ asked_config a ty cfg /\
         valid_params (mk_params (pa_iterations a) (pa_population a) (pa_wait_cycle a)
                         (pa_threshold_factor a) (pa_distance_factor a) ty cfg (given 0%N (pa_seed a)))) /\
      exists l, pa_points a = Some l /\ forall ps, ~ recut l ps
  | PyOptimizer e' =>
      exists ty cfg, asked_solver a = Some ty /\ asked_config a ty cfg /\
        let p := mk_params (pa_iterations a) (pa_population a) (pa_wait_cycle a)
                         (pa_threshold_factor a) (pa_distance_factor a) ty cfg (given 0%N (pa_seed a)) in
        (first_violation p e' \/
         valid_params p /\ exists l ps, pa_points a = Some l /\ recut l ps /\
                                        bad_row (pb_bounds (e_problem E)) ps e')
  end.
Proof.
  assert (CF : forall ty, match (match pa_config a with Some c => py_to_config ty c | None => Some (rust_default_config ty) end) with
     | Some cfg => asked_config a ty cfg
     | None => exists c, pa_config a = Some c /\ forall cfg, ~ same_settings ty c cfg end).
  { intros ty. unfold asked_config. destruct (pa_config a) as [c|].
    - destruct (py_to_config ty c) eqn:C; [apply to_config_iff; auto|].
      exists c. split; auto. apply to_config_none; auto.
    - apply default_config_doc. }
  assert (CU : forall ty cfg, asked_config a ty cfg ->
     (match pa_config a with Some c => py_to_config ty c | None => Some (rust_default_config ty) end) = Some cfg).
  { intros ty cfg. unfold asked_config. destruct (pa_config a) as [c|].
    - apply to_config_iff.
    - intros ->. rewrite default_config_doc. reflexivity. }
  split.
  - unfold py_build. rewrite asked_name. destruct (asked_solver a) as [ty|] eqn:A.
    2:{ intros H; inversion H. reflexivity. }
    specialize (CF ty). destruct (match pa_config a with Some c => py_to_config ty c | None => Some (rust_default_config ty) end) as [cfg|].
    2:{ intros H; inversion H. auto. }
    change (or_else 0%N (pa_seed a)) with (given 0%N (pa_seed a)).
    set (p := mk_params _ _ _ _ _ _ _ _).
    pose proof (oq_new_spec p) as (S1 & S2 & S3 & S4).
    destruct (oq_new p) as [o0|e0|] eqn:N; [|intros H; inversion H; subst|congruence].
    2:{ exists ty, cfg. repeat split; auto. left. apply S2. reflexivity. }
    assert (V : valid_params p) by (apply S1; eauto).
    destruct (pa_points a) as [l|] eqn:P; [|discriminate].
    destruct (points_array l) as [ps|] eqn:PA.
    + destruct (with_points E ps o0) eqn:W; simpl; intros H; inversion H; subst; clear H.
      exists ty, cfg. repeat split; auto. right. split; auto. exists l, ps. split; auto. split; [apply recut_iff; auto|].
      apply (with_points_err E ps o0). auto.
    + intros H; inversion H. split; [|exists l; split; auto; apply recut_none; auto]. exists ty, cfg. auto.
  - destruct e as [|ty| |e'].
    + intros A. unfold py_build. rewrite asked_name, A. reflexivity.
    + intros (A & c & C & N). unfold py_build. rewrite asked_name, A, C.
      apply to_config_none in N. rewrite N. reflexivity.
    + intros ((ty & cfg & A & C & V) & l & P & PA). apply recut_none in PA. unfold py_build.
      rewrite asked_name, A, (CU _ _ C). change (or_else 0%N (pa_seed a)) with (given 0%N (pa_seed a)).
      set (p := mk_params _ _ _ _ _ _ _ _) in *.
      apply (proj1 (oq_new_spec p)) in V. destruct V as [o0 ->]. rewrite P, PA. reflexivity.
    + intros (ty & cfg & A & C & H). unfold py_build.
      rewrite asked_name, A, (CU _ _ C). change (or_else 0%N (pa_seed a)) with (given 0%N (pa_seed a)).
      cbv zeta in H. set (p := mk_params _ _ _ _ _ _ _ _) in *.
      pose proof (oq_new_spec p) as (S1 & S2 & S3 & S4). destruct H as [H|(V & l & ps & P & PA & W)].
      * apply S2 in H. rewrite H. reflexivity.
      * apply S1 in V. destruct V as [o0 ->]. apply recut_iff in PA. rewrite P, PA.
        apply (with_points_err E ps o0) in W. rewrite W. reflexivity.
Qed.

Lemma build_no_panic E a : py_build E a <> Panic.
Proof.
  unfold py_build. destruct (from_string _); [|discriminate].
  destruct (match pa_config a with Some c => py_to_config s c | None => Some (rust_default_config s) end); [|discriminate].
  set (p := mk_params _ _ _ _ _ _ _ _). pose proof (oq_new_spec p) as (S1 & S2 & S3 & S4).
  destruct (oq_new p); try congruence.
  destruct (pa_points a) as [l|]; [|discriminate]. destruct (points_array l) as [ps|]; [|discriminate].
  pose proof (with_points_spec E ps a0) as K. destruct (with_points E ps a0); simpl; try discriminate. destruct K.
Qed.

Lemma build_points E a o l : py_build E a = Ok o -> pa_points a = Some l -> rectangular l ->
  o_custom o = Some l /\ Forall (row_ok (pb_bounds (e_problem E))) l.
Proof.
  intros B P R. unfold py_build in B. destruct (from_string _); [|discriminate].
  destruct (match pa_config a with Some c => py_to_config s c | None => Some (rust_default_config s) end); [|discriminate].
  destruct (oq_new _) as [o0| |]; try discriminate.
  rewrite P, (points_rectangular _ R) in B.
  destruct (with_points E l o0) as [o1| |] eqn:W; simpl in B; try discriminate.
  inversion B; subst o; clear B. split.
  - pose proof W as W'. unfold with_points in W'. destruct (check_points _ _ l); inversion W'; subst o1.
    destruct (pa_observer a), (pa_target a), (pa_max_time a), (pa_exclude a) as [[|]|]; reflexivity.
  - apply (proj1 (with_points_ok_iff E l o0)). eauto.
Qed.

(** ** Results *)
Lemma optimize_ok E a l ob : py_optimize E a = (Ok l, ob) <->
  exists o s', py_build E a = Ok o /\ run E (mk_st o py_world) = (Ok l, s') /\
    ob = match pa_observer a, o_observer (s_o s') with
         | Some p, Some f => Some (mk_pob f (po_callback p))
         | p, _ => p
         end.
Proof.
  unfold py_optimize. split.
  - destruct (py_build E a) as [o| |]; try discriminate.
    destruct (run E (mk_st o py_world)) as [[set| |] s'] eqn:R; try discriminate.
    intros H. pose proof (f_equal fst H) as H1. pose proof (f_equal snd H) as H2. simpl in H1, H2.
    assert (set = l) by congruence. subst. exists o, s'. auto.
  - intros (o & s' & -> & -> & ->). reflexivity.
Qed.
Lemma optimize_not_ok E a r ob : py_optimize E a = (r, ob) -> (forall l, r <> Ok l) -> ob = pa_observer a.
Proof.
  unfold py_optimize. destruct (py_build E a) as [o| |].
  - destruct (run E (mk_st o py_world)) as [[set| |] s']; intros H N;
      pose proof (f_equal fst H) as H1; pose proof (f_equal snd H) as H2; simpl in H1, H2; auto.
    destruct (N set). auto.
  - congruence.
  - congruence.
Qed.

Lemma iterate_end l : forall n m k, List.length l <= m -> List.length l <= k ->
  iterate n l m = map (nth_error l) (seq k n).
Proof.
  induction n as [|n IH]; intros m k M K; [reflexivity|]. simpl. unfold py_next.
  destruct (Nat.ltb_spec m (List.length l)); [lia|].
  rewrite (proj2 (nth_error_None l k)) by lia. f_equal. apply IH; lia.
Qed.
Lemma iterate_all l : forall n i, i <= List.length l -> iterate n l i = map (nth_error l) (seq i n).
Proof.
  induction n as [|n IH]; intros i L; [reflexivity|].
  destruct (Nat.eq_dec i (List.length l)) as [->|N].
  - apply iterate_end; lia.
  - simpl. unfold py_next. destruct (Nat.ltb_spec i (List.length l)); [|lia].
    f_equal. apply IH. lia.
Qed.

(** ** Observers *)
Definition calls_after (cs : list pob_call) : Prop :=
  forall a n b, cs = a ++ PobCallback n :: b -> forall c, In c b -> installs_builtin c = false.
Lemma pob_but_callback cs : same_but_callback (clone_inner (fold_left pob_apply cs pob_new)) (fold_left same_call cs obs_new).
Proof.
  assert (H : forall cs p o, same_but_callback (po_inner p) o ->
    same_but_callback (po_inner (fold_left pob_apply cs p)) (fold_left same_call cs o)).
  { clear. induction cs as [|c cs IH]; intros p o H; simpl; auto. apply IH.
    destruct H as (H1 & H2 & H3 & H4 & H5 & H6 & H7 & H8 & H9).
    destruct c; unfold same_but_callback; simpl; try (repeat split; auto; fail).
    unfold with_callback_frequency. destruct (ob_callback (po_inner p)), (ob_callback o); simpl; repeat split; auto. }
  specialize (H cs pob_new obs_new). assert (H0 : same_but_callback (po_inner pob_new) obs_new) by (repeat split; auto).
  specialize (H H0). unfold clone_inner. destruct (po_callback _); auto.
Qed.
Lemma pob_inv cs : calls_after cs -> let p := fold_left pob_apply cs pob_new in
  let o := fold_left same_call cs obs_new in
  match po_callback p with Some n => ob_callback o = Some (CbUser n) /\ exists a b, cs = a ++ PobCallback n :: b
                      | None => ob_callback o = ob_callback (po_inner p) end.
Proof.
  induction cs as [|c cs IH] using rev_ind; intros H; [reflexivity|].
  assert (H' : calls_after cs).
  { intros a n b E d D. apply (H a n (b ++ [c])); [rewrite E, <- app_assoc; reflexivity|].
    apply in_or_app; auto. }
  specialize (IH H'). simpl in IH |- *. rewrite !fold_left_app. simpl.
  set (p := fold_left pob_apply cs pob_new) in *. set (o := fold_left same_call cs obs_new) in *.
  destruct (po_callback p) as [n|] eqn:P.
  - destruct IH as (I & a & b & E).
    assert (B : installs_builtin c = false).
    { apply (H a n (b ++ [c])); [rewrite E, <- app_assoc; reflexivity|]. apply in_or_app; right; left; auto. }
    assert (X : exists a' b', cs ++ [c] = a' ++ PobCallback n :: b').
    { exists a, (b ++ [c]). rewrite E, <- app_assoc. reflexivity. }
    destruct c; simpl in B |- *; try discriminate B; rewrite ?P; auto.
    + unfold with_callback_frequency. rewrite I. simpl. auto.
    + split; auto. exists cs, []. reflexivity.
  - destruct c; simpl; rewrite ?P; auto.
    + unfold with_callback_frequency. rewrite <- IH. destruct (ob_callback o) eqn:Q; simpl; auto; congruence.
    + split; auto. exists cs, []. reflexivity.
Qed.
Lemma pob_same cs : calls_after cs ->
  clone_inner (fold_left pob_apply cs pob_new) = fold_left same_call cs obs_new.
Proof.
  intros H. pose proof (pob_but_callback cs) as (B1 & B2 & B3 & B4 & B5 & B6 & B7 & B8 & B9).
  pose proof (pob_inv cs H) as I. simpl in I.
  assert (C : ob_callback (clone_inner (fold_left pob_apply cs pob_new)) = ob_callback (fold_left same_call cs obs_new)).
  { unfold clone_inner. destruct (po_callback _); [destruct I as [-> _]|]; auto. }
  destruct (clone_inner _), (fold_left same_call cs obs_new); simpl in *; congruence.
Qed.
