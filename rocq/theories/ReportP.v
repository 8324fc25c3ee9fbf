(** * Proofs about reports *)
From Coq Require Import ZArith NArith List Bool Arith Lia String.
From Verif Require Import F64 F64Order Base Builders Types PyBind Spec BasicP Report SpecReport.
Import ListNotations.

Lemma reading_app : forall a b, (forall n, ~ In (LSolution n) a) -> snd (reading (a ++ b)) = snd (reading b).
Proof.
  induction a as [|x a IH]; intros b H; [reflexivity|]. simpl.
  assert (G : snd (reading (a ++ b)) = snd (reading b)) by (apply IH; intros n I; apply (H n); right; auto).
  destruct (reading (a ++ b)) as [e es]. simpl in G. destruct x; auto. destruct (H n). left; auto.
Qed.
(** nothing before the first solution belongs to an entry *)
Lemma head_no_solution : forall s n, ~ In (LSolution n) (report_head s).
Proof.
  intros s n H. unfold report_head in H. repeat (apply in_app_or in H as [H|H]).
  - simpl in H. intuition discriminate.
  - destruct s; [destruct H|]. destruct (best_solution _); simpl in H; intuition discriminate.
  - simpl in H. intuition discriminate.
Qed.
Definition said_of (ds : option (list string)) (x : point) (jg : nat * (point -> f64)) : said :=
  mk_said (fst jg + 1) (match ds with Some l => if fst jg <? List.length l then nth_error l (fst jg) else None | None => None end)
    (fge (snd jg x) f0) (snd jg x) (if flt (snd jg x) f0 then Some (fopp (snd jg x)) else None).
Lemma reading_constraints : forall ds x cs r, 
  reading (map (constraint_line ds x) cs ++ r) =
  (mk_entry (match cs with [] => en_number (fst (reading r)) | _ => 0 end) (en_objectives (fst (reading r)))
     (en_points (fst (reading r))) (map (said_of ds x) cs ++ en_constraints (fst (reading r))), snd (reading r)).
Proof.
  induction cs as [|[j g] cs IH]; intro r.
  - simpl. destruct (reading r) as [[? ? ? ?] ?]. reflexivity.
  - simpl map. simpl app. unfold reading; fold reading. rewrite IH. simpl. reflexivity.
Qed.
(** every block is closed before the next one begins *)
Definition fresh (l : list line) : Prop := en_objectives (fst (reading l)) = [] /\ en_points (fst (reading l)) = [] /\
  en_constraints (fst (reading l)) = [].
Lemma block_reading : forall cs ds n i s r, fresh r ->
  let l := solution_lines cs ds n (i, s) ++ r in
  fresh l /\ snd (reading l) = mk_entry (i + 1) [ls_obj s] [ls_point s] (map (said_of ds (ls_point s)) (enumerate cs)) :: snd (reading r).
Proof.
  intros cs ds n i s r (F1 & F2 & F3). unfold solution_lines.
  assert (S : forall r', fresh r' -> snd (reading r') = snd (reading r) ->
     let l := ([LSolution (i + 1); LObjective (ls_obj s); LParameters; LPoint (ls_point s)] ++
      (match cs with [] => [] | _ => LViolations :: map (constraint_line ds (ls_point s)) (enumerate cs) end)) ++ r' in
     fresh l /\ snd (reading l) = mk_entry (i + 1) [ls_obj s] [ls_point s] (map (said_of ds (ls_point s)) (enumerate cs)) :: snd (reading r)).
  { intros r' (G1 & G2 & G3) Hr'. rewrite <- app_assoc.
    assert (R : exists m, reading ((match cs with [] => [] | _ => LViolations :: map (constraint_line ds (ls_point s)) (enumerate cs) end) ++ r') =
       (mk_entry m [] [] (map (said_of ds (ls_point s)) (enumerate cs)), snd (reading r))).
    { destruct cs as [|g cs].
      - simpl. destruct (reading r') as [[? ? ? ?] ?]. simpl in *. subst. eexists. reflexivity.
      - cbn [app]. unfold reading; fold reading. rewrite reading_constraints. rewrite G1, G2, G3, Hr', app_nil_r. eexists. reflexivity. }
    destruct R as [m R]. cbv zeta. cbn [app]. unfold fresh. unfold reading; fold reading. rewrite R. simpl. auto. }
  cbv zeta. rewrite app_assoc, <- (app_assoc _ _ r). apply S.
  - destruct (i <? n - 1); [|repeat split; auto]. unfold fresh. cbn [app]. unfold reading; fold reading.
    destruct (reading r); simpl in *; auto.
  - destruct (i <? n - 1); [|reflexivity]. cbn [app]. unfold reading; fold reading. destruct (reading r); reflexivity.
Qed.
Definition entry_of (cs : list (point -> f64)) (ds : option (list string)) (is : nat * lsol) : entry :=
  mk_entry (fst is + 1) [ls_obj (snd is)] [ls_point (snd is)] (map (said_of ds (ls_point (snd is))) (enumerate cs)).
Lemma blocks_reading : forall cs ds n l, fresh (flat_map (solution_lines cs ds n) l) /\
  snd (reading (flat_map (solution_lines cs ds n) l)) = map (entry_of cs ds) l.
Proof.
  induction l as [|[i s] l [F IH]]; [split; [repeat split|reflexivity]|]. cbn [flat_map].
  destruct (block_reading cs ds n i s _ F) as [G1 G2]. split; [exact G1|]. rewrite G2, IH. reflexivity.
Qed.
Lemma entries_eq : forall P ds s, entries (display_with_constraints P ds s) = map (entry_of (pb_constraints P) ds) (enumerate s).
Proof.
  intros P ds s. unfold entries, display_with_constraints. rewrite reading_app by apply head_no_solution.
  apply blocks_reading.
Qed.
Lemma display_eq : forall s, display s = report_head s ++ flat_map (solution_lines [] None (List.length s)) (enumerate s).
Proof.
  intro s. unfold display. f_equal. generalize (enumerate s) as l. induction l as [|[i x] l IH]; [reflexivity|].
  cbn [flat_map]. rewrite IH. reflexivity.
Qed.
Lemma entries_display : forall s, entries (display s) = map (entry_of [] None) (enumerate s).
Proof.
  intro s. rewrite display_eq. unfold entries. rewrite reading_app by apply head_no_solution. apply blocks_reading.
Qed.
Lemma py_reading : forall n l,
  let r := flat_map (fun is : nat * lsol =>
    [LSolution (fst is + 1); LObjective (ls_obj (snd is)); LPoint (ls_point (snd is))] ++
    (if fst is <? n - 1 then [LSeparator] else [])) l in
  fresh r /\ snd (reading r) = map (entry_of [] None) l.
Proof.
  induction l as [|[i s] l [(F1 & F2 & F3) IH]]; [split; [repeat split|reflexivity]|]. cbv zeta in *. cbn [flat_map fst snd].
  set (r := flat_map _ l) in *. unfold fresh.
  destruct (i <? n - 1); cbn [app]; unfold reading; fold reading; destruct (reading r) as [[? ? ? ?] ?]; simpl in *; subst; auto.
Qed.
Lemma entries_py : forall s, entries (py_display s) = map (entry_of [] None) (enumerate s).
Proof.
  intro s. unfold entries, py_display. rewrite !app_assoc.
  rewrite reading_app; [apply (py_reading (List.length s))|].
  intros n H. repeat (apply in_app_or in H as [H|H]); try (simpl in H; intuition discriminate).
  destruct s; [destruct H|]. destruct (py_best _); simpl in H; intuition discriminate.
Qed.
Lemma nth_enum : forall A (l : list A) k i, nth_error (enumerate_from k l) i = option_map (fun x => (k + i, x)) (nth_error l i).
Proof.
  induction l as [|x l IH]; intros k [|i]; simpl; auto.
  - rewrite Nat.add_0_r. reflexivity.
  - rewrite IH, Nat.add_succ_r. reflexivity.
Qed.
Lemma nth_enumerate : forall A (l : list A) i, nth_error (enumerate l) i = option_map (fun x => (i, x)) (nth_error l i).
Proof. intros. unfold enumerate. rewrite nth_enum. reflexivity. Qed.
Lemma entry_describes : forall cs ds s i e, nth_error (map (entry_of cs ds) (enumerate s)) i = Some e -> describes s i e.
Proof.
  intros cs ds s i e H. rewrite nth_error_map, nth_enumerate in H. destruct (nth_error s i) as [x|] eqn:Hx; [|discriminate].
  simpl in H. injection H as <-. exists x. unfold entry_of; cbn [en_number en_objectives en_points fst snd].
  rewrite Nat.add_1_r. auto.
Qed.
Lemma entries_length : forall cs ds s, List.length (map (entry_of cs ds) (enumerate s)) = List.length s.
Proof.
  intros. rewrite map_length. unfold enumerate. generalize 0. induction s as [|x s IH]; intro k; simpl; auto.
Qed.
Lemma c74_constraints : forall P ds s i e x, nth_error (entries (display_with_constraints P ds s)) i = Some e ->
  nth_error s i = Some x ->
  List.length (en_constraints e) = List.length (pb_constraints P) /\
  forall j c, nth_error (en_constraints e) j = Some c -> describes_constraint P ds (ls_point x) j c.
Proof.
  intros P ds s i e x H Hx. rewrite entries_eq, nth_error_map, nth_enumerate, Hx in H. simpl in H. injection H as <-.
  unfold entry_of; cbn [en_constraints fst snd]. split.
  - rewrite map_length. unfold enumerate. generalize 0 at 1. induction (pb_constraints P) as [|g l IH]; intro k; simpl; auto.
  - intros j c Hc. rewrite nth_error_map, nth_enumerate in Hc. destruct (nth_error (pb_constraints P) j) as [g|] eqn:Hg; [|discriminate].
    simpl in Hc. injection Hc as <-. exists g. unfold said_of; cbn [said_number said_value said_description said_check said_violated fst snd].
    rewrite Nat.add_1_r. split; [auto|]. split; [auto|]. split; [auto|]. split; [|split].
    + destruct ds as [l|]; auto. destruct (j <? List.length l) eqn:Hj; auto. apply Nat.ltb_ge in Hj. symmetry. apply nth_error_None. lia.
    + unfold fge. tauto.
    + intro d. destruct (flt (g (ls_point x)) f0); split; [intro K; injection K as <-; auto|intros [_ ->]; auto|discriminate|intros [K _]; discriminate].
Qed.
Lemma head_gen : forall s b body, b = min_by (fun a b => total_cmp (ls_obj a) (ls_obj b)) s ->
  (forall n, ~ In (LTotal n) body) -> (forall v, ~ In (LBest v) body) ->
  forall pre, (forall n, In (LTotal n) pre <-> n = List.length s) -> (forall v, ~ In (LBest v) pre) ->
  head_of s (pre ++ (match s with [] => [] | _ => match b with Some b => [LBest (ls_obj b)] | None => [] end end) ++ body).
Proof.
  intros s b body -> Hn Hv pre Hp Hq. pose proof (best_solution_spec s) as K. unfold best_solution in K.
  set (m := min_by _ s) in *. split; [|split].
  - intro n. split.
    + intro H. apply in_app_or in H as [H|H]; [apply Hp; auto|]. apply in_app_or in H as [H|H]; [|destruct (Hn _ H)].
      destruct s; [destruct H|]. destruct m; simpl in H; intuition discriminate.
    + intro H. apply in_or_app. left. apply Hp; auto.
  - intro Hs. destruct m as [y|]; [|contradiction]. exists (ls_obj y). apply in_or_app. right. apply in_or_app. left.
    destruct s; [congruence|left; auto].
  - intros v H. apply in_app_or in H as [H|H]; [destruct (Hq _ H)|]. apply in_app_or in H as [H|H]; [|destruct (Hv _ H)].
    assert (G : exists y, m = Some y /\ ls_obj y = v).
    { destruct s; [destruct H|]. destruct m as [y|]; simpl in H; [|destruct H]. destruct H as [H|[]]. injection H as H. eauto. }
    destruct G as (y & Hm & <-). rewrite Hm in K. destruct K as (n & Hy & Hle). split.
    + exists y. split; auto. eapply nth_error_In; eauto.
    + intros z Hz. apply In_nth_error in Hz as [j Hz]. apply (proj1 (Hle j z Hz)).
Qed.
Lemma lines_kind : forall cs ds n l x, In x (flat_map (solution_lines cs ds n) l) ->
  (forall k, x <> LTotal k) /\ (forall v, x <> LBest v).
Proof.
  intros cs ds n l x H. apply in_flat_map in H as ([i s] & _ & H). unfold solution_lines in H.
  apply in_app_or in H as [H|H]; [simpl in H; intuition (subst; discriminate)|].
  apply in_app_or in H as [H|H].
  - destruct cs as [|g cs]; [destruct H|]. destruct H as [<-|H]; [split; discriminate|].
    apply in_map_iff in H as ([j h] & <- & _). unfold constraint_line. split; discriminate.
  - destruct (i <? n - 1); simpl in H; intuition (subst; discriminate).
Qed.
Lemma head_report : forall s body, (forall x, In x body -> (forall k, x <> LTotal k) /\ (forall v, x <> LBest v)) ->
  head_of s (report_head s ++ body).
Proof.
  intros s body Hb. unfold report_head. rewrite <- !app_assoc. apply head_gen; auto.
  - intros n H. apply in_app_or in H as [H|H]; [simpl in H; intuition discriminate|]. apply (proj1 (Hb _ H) n eq_refl).
  - intros v H. apply in_app_or in H as [H|H]; [simpl in H; intuition discriminate|]. apply (proj2 (Hb _ H) v eq_refl).
  - intro n. simpl. split; [intuition (try discriminate); congruence|intros ->; auto].
  - intros v H. simpl in H. intuition discriminate.
Qed.
Lemma head_constraints : forall P ds s, head_of s (display_with_constraints P ds s).
Proof. intros. apply head_report. intros x H. eapply lines_kind; eauto. Qed.
Lemma head_display : forall s, head_of s (display s).
Proof. intros. rewrite display_eq. apply head_report. intros x H. eapply lines_kind; eauto. Qed.
Lemma head_py : forall s, head_of s (py_display s).
Proof.
  intro s. unfold py_display. set (body := flat_map _ _).
  assert (Hb : forall x, In x body -> (forall k, x <> LTotal k) /\ (forall v, x <> LBest v)).
  { intros x H. unfold body in H. apply in_flat_map in H as ([i y] & _ & H). apply in_app_or in H as [H|H].
    - simpl in H. intuition (subst; discriminate).
    - destruct (_ <? _); simpl in H; intuition (subst; discriminate). }
  apply head_gen; auto.
  - intros n H. apply in_app_or in H as [H|H]; [simpl in H; intuition discriminate|]. apply (proj1 (Hb _ H) n eq_refl).
  - intros v H. apply in_app_or in H as [H|H]; [simpl in H; intuition discriminate|]. apply (proj2 (Hb _ H) v eq_refl).
  - intro n. simpl. split; [intuition (try discriminate); congruence|intros ->; auto].
  - intros v H. simpl in H. intuition discriminate.
Qed.
Lemma not_nan_dichotomy : forall v, is_nan v = false -> (fle f0 v = true <-> flt v f0 = false).
Proof.
  intros v H. split; [apply fle_not_flt|]. intro K. destruct v as [s|s|s|s m e]; try discriminate H; destruct s; try discriminate K; reflexivity.
Qed.
