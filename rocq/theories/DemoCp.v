(** * Concrete checkpoints, and checkers that find counterexamples in the record of a run *)
From Coq Require Import ZArith NArith List Bool Arith Lia String Ascii.
From Verif Require Import F64 Base Builders Types Filters Runner Observer Env EnvSpec ScatterSearch Codec
  Checkpoint Oqnlp Spec SpecStage2 SpecObserver SpecCheckpoint SpecSave Demo Demo2 CheckpointP.
Import ListNotations.

(** a checkpoint of an optimizer *)
Definition checkpoint_of (E : env) (s : st) : checkpoint :=
  match fst (create_checkpoint E s) with Ok cp => cp | _ =>
    mk_cp demo_params 0 f0 None [] 0 f0 [] 0 None false None false f0 f0 EmptyString end.
Definition demo_cp : checkpoint := checkpoint_of wells_env (state_of wells_env (sequential demo_oqnlp)).
(** another one *)
Definition early_cp : checkpoint := checkpoint_of wells_env (start_state demo_oqnlp).

Definition Forall_b {A} (f : A -> bool) (P : A -> Prop) (l : list A) (H : forall a, f a = true -> P a)
  (Hl : forallb f l = true) : Forall P l := proj2 (Forall_forall P l) (fun a Ha => H a (proj1 (forallb_forall f l) Hl a Ha)).
Lemma small : forall n, (N.of_nat n <? 2 ^ 64)%N = true -> usize_ok n.
Proof. intros n H. apply N.ltb_lt. exact H. Qed.
Lemma small_n : forall n, (n <? 2 ^ 64)%N = true -> u64_ok n.
Proof. intros n H. apply N.ltb_lt. exact H. Qed.
Definition point_okb (p : point) : bool := (N.of_nat (List.length p) <? 2 ^ 64)%N && forallb wf p.
Lemma point_okb_ok : forall p, point_okb p = true -> point_ok p.
Proof.
  intros p H. apply andb_prop in H as [H1 H2]. split; [apply small; exact H1|]. apply Forall_forall. apply forallb_forall. exact H2.
Qed.
Definition lsol_okb (s : lsol) : bool := point_okb (ls_point s) && wf (ls_obj s).
Lemma lsol_okb_ok : forall p, lsol_okb p = true -> lsol_ok p.
Proof. intros p H. apply andb_prop in H as [H1 H2]. split; [apply point_okb_ok; exact H1|exact H2]. Qed.
Lemma list_okb : forall A (f : A -> bool) (P : A -> Prop) l, (forall a, f a = true -> P a) ->
  (N.of_nat (List.length l) <? 2 ^ 64)%N && forallb f l = true -> list_ok P l.
Proof. intros A f P l H G. apply andb_prop in G as [G1 G2]. split; [apply small; exact G1|exact (Forall_b f P l H G2)]. Qed.
Lemma demo_params_ok : params_ok demo_params.
Proof.
  unfold params_ok. split; [apply small; vm_compute; reflexivity|]. split; [apply small; vm_compute; reflexivity|].
  split; [apply small; vm_compute; reflexivity|]. split; [vm_compute; reflexivity|]. split; [vm_compute; reflexivity|].
  split; [|apply small_n; vm_compute; reflexivity].
  change (p_solver_config demo_params) with (cb_build cb_default). cbn [cb_build config_ok].
  split; [apply small_n; vm_compute; reflexivity|]. repeat (split; [vm_compute; reflexivity|]).
  apply point_okb_ok. vm_compute. reflexivity.
Qed.
Lemma demo_cp_ok : checkpoint_ok demo_cp.
Proof.
  unfold checkpoint_ok.
  replace (cp_params demo_cp) with demo_params by (vm_compute; reflexivity).
  replace (cp_solution_set demo_cp) with (Some [sol1 (of_Z (-2)) f0]) by (vm_compute; reflexivity).
  replace (cp_target demo_cp) with (@None f64) by (vm_compute; reflexivity).
  replace (cp_batch demo_cp) with (@None nat) by (vm_compute; reflexivity).
  split; [exact demo_params_ok|]. split; [apply small; vm_compute; reflexivity|]. split; [vm_compute; reflexivity|].
  split; [apply (list_okb _ lsol_okb _ _ lsol_okb_ok); vm_compute; reflexivity|].
  split; [apply (list_okb _ point_okb _ _ point_okb_ok); vm_compute; reflexivity|].
  split; [apply small; vm_compute; reflexivity|]. split; [vm_compute; reflexivity|].
  split; [apply (list_okb _ lsol_okb _ _ lsol_okb_ok); vm_compute; reflexivity|].
  split; [apply small_n; vm_compute; reflexivity|]. split; [exact I|]. split; [exact I|].
  split; [vm_compute; reflexivity|]. split; [vm_compute; reflexivity|].
  split; [apply small; vm_compute; reflexivity|vm_compute; reflexivity].
Qed.
Lemma early_cp_ok : checkpoint_ok early_cp.
Proof.
  unfold checkpoint_ok.
  replace (cp_params early_cp) with demo_params by (vm_compute; reflexivity).
  replace (cp_solution_set early_cp) with (@None solset) by (vm_compute; reflexivity).
  replace (cp_target early_cp) with (@None f64) by (vm_compute; reflexivity).
  replace (cp_batch early_cp) with (@None nat) by (vm_compute; reflexivity).
  split; [exact demo_params_ok|]. split; [apply small; vm_compute; reflexivity|]. split; [vm_compute; reflexivity|].
  split; [exact I|].
  split; [apply (list_okb _ point_okb _ _ point_okb_ok); vm_compute; reflexivity|].
  split; [apply small; vm_compute; reflexivity|]. split; [vm_compute; reflexivity|].
  split; [apply (list_okb _ lsol_okb _ _ lsol_okb_ok); vm_compute; reflexivity|].
  split; [apply small_n; vm_compute; reflexivity|]. split; [exact I|]. split; [exact I|].
  split; [vm_compute; reflexivity|]. split; [vm_compute; reflexivity|].
  split; [apply small; vm_compute; reflexivity|vm_compute; reflexivity].
Qed.
Lemma wells_io : io_works wells_env /\ lists_all wells_env.
Proof. split; [intro; reflexivity|intros t l; apply Permutation.Permutation_refl]. Qed.
(** the wells, with a write that stops after ten bytes *)
Definition torn_env : env := match wells_env with
  | mk_env a b c d e f g h i j k l m n _ p q r => mk_env a b c d e f g h i j k l m n (fun _ => IoShort 10) p q r end.
Lemma one_iteration : forall name f b, distinct_iterations name (mk_disk [(f, b)] 1).
Proof.
  intros name f b x y i Hx Hy _ _. apply present_in in Hx. apply present_in in Hy. cbn in Hx, Hy.
  destruct Hx as [<-|[]]. destruct Hy as [<-|[]]. reflexivity.
Qed.
(** ** Checkers *)
(** a save that breaks this *)
Fixpoint stale_counter (n : nat) (l : list event) : bool :=
  match l with
  | [] => false
  | EvSave f cp :: l2 => negb (rejections l2 =? relaxations l2 * n + cp_unchanged cp) || stale_counter n l2
  | _ :: l2 => stale_counter n l2
  end.
Lemma stale_counter_split : forall n l, stale_counter n l = true -> exists l1 f cp l2, l = l1 ++ EvSave f cp :: l2 /\
  rejections l2 <> relaxations l2 * n + cp_unchanged cp.
Proof.
  intros n l. induction l as [|e l IH]; intro H; [discriminate|].
  assert (G : stale_counter n l = true -> exists l1 f cp l2, e :: l = l1 ++ EvSave f cp :: l2 /\
    rejections l2 <> relaxations l2 * n + cp_unchanged cp).
  { intro G. destruct (IH G) as (l1 & f & cp & l2 & -> & N). exists (e :: l1), f, cp, l2. auto. }
  destruct e as [| | | | | | | | | |file cp| | |]; try exact (G H). cbn [stale_counter] in H. apply orb_prop in H as [H|H]; [|exact (G H)].
  exists [], file, cp, l. split; [reflexivity|]. apply negb_true_iff, Nat.eqb_neq in H. exact H.
Qed.
(** a save after which a new process returns another number of solutions *)
Definition count_of (r : outcome oq_error solset) : nat := match r with Ok s => List.length s | _ => 0 end.
Fixpoint other_count (E : env) (o : oqnlp) (n : nat) (l : list event) : bool :=
  match l with
  | [] => false
  | EvSave f cp :: l2 => negb (count_of (fst (run E (stopped_with f cp o))) =? n) || other_count E o n l2
  | _ :: l2 => other_count E o n l2
  end.
Lemma other_count_split : forall E o n l, other_count E o n l = true -> exists l1 f cp l2, l = l1 ++ EvSave f cp :: l2 /\
  count_of (fst (run E (stopped_with f cp o))) <> n.
Proof.
  intros E o n l. induction l as [|e l IH]; intro H; [discriminate|].
  assert (G : other_count E o n l = true -> exists l1 f cp l2, e :: l = l1 ++ EvSave f cp :: l2 /\
    count_of (fst (run E (stopped_with f cp o))) <> n).
  { intro G. destruct (IH G) as (l1 & f & cp & l2 & -> & N). exists (e :: l1), f, cp, l2. auto. }
  destruct e as [| | | | | | | | | |file cp| | |]; try exact (G H). cbn [other_count] in H. apply orb_prop in H as [H|H]; [|exact (G H)].
  exists [], file, cp, l. split; [reflexivity|]. apply negb_true_iff, Nat.eqb_neq in H. exact H.
Qed.
(** no rejection and no search of candidate [j] *)
Definition untouched (j : nat) (l : list event) : bool :=
  forallb (fun e => match e with
                    | EvDecide i _ _ _ false => negb (i =? j)
                    | EvSearch (Some i) _ => negb (i =? j)
                    | _ => true end) l.
Lemma untouched_not : forall E o j l, untouched j l = true -> ~ finished E o j l.
Proof.
  intros E o j l H. unfold untouched in H. rewrite forallb_forall in H.
  intros [(p & obj & o' & Hin)|(p & obj & o' & x & l1 & l2 & -> & _)].
  - specialize (H _ Hin). cbn in H. rewrite Nat.eqb_refl in H. discriminate.
  - assert (Hin : In (EvSearch (Some j) p) (l1 ++ EvResult x :: EvSearch (Some j) p :: l2)) by (apply in_or_app; simpl; auto).
    specialize (H _ Hin). cbn in H. rewrite Nat.eqb_refl in H. discriminate.
Qed.
Fixpoint skipping (j : nat) (l : list event) : bool :=
  match l with
  | [] => false
  | EvSave f cp :: l2 => ((j <? cp_iteration cp) && untouched j l2) || skipping j l2
  | _ :: l2 => skipping j l2
  end.
Lemma skipping_split : forall j l, skipping j l = true -> exists l1 f cp l2, l = l1 ++ EvSave f cp :: l2 /\
  j < cp_iteration cp /\ untouched j l2 = true.
Proof.
  intros j l. induction l as [|e l IH]; intro H; [discriminate|].
  assert (G : skipping j l = true -> exists l1 f cp l2, e :: l = l1 ++ EvSave f cp :: l2 /\ j < cp_iteration cp /\ untouched j l2 = true).
  { intro G. destruct (IH G) as (l1 & f & cp & l2 & -> & N). exists (e :: l1), f, cp, l2. auto. }
  destruct e as [| | | | | | | | | |file cp| | |]; try exact (G H). cbn [skipping] in H. apply orb_prop in H as [H|H]; [|exact (G H)].
  apply andb_prop in H as [H1 H2]. exists [], file, cp, l. split; [reflexivity|]. split; [apply Nat.ltb_lt; exact H1|exact H2].
Qed.
Lemma pair_fst : forall A B (p : A * B) a, fst p = a -> p = (a, snd p).
Proof. intros A B [x y] a H. cbn [fst] in H. rewrite H. reflexivity. Qed.
