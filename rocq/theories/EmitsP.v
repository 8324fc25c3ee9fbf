(** * Which events a computation records, and what it leaves unchanged *)
From Coq Require Import ZArith NArith List Bool Arith Lia String Permutation.
From Verif Require Import F64 Base Builders Types Filters Runner Observer Env EnvSpec
  ScatterSearch Codec Checkpoint Oqnlp Wp Actions RunP.
Import ListNotations.

Section Emits.
Context (P : event -> Prop).
Definition emits {A} (m : OM A) : Prop :=
  forall s, exists new, trace (snd (m s)) = new ++ trace s /\ Forall P new.
Lemma e_same : forall A (m : OM A), (forall s, trace (snd (m s)) = trace s) -> emits m.
Proof. intros A m H s. exists []. simpl. auto. Qed.
Lemma e_bind : forall A B (m : OM A) (k : A -> OM B), emits m -> (forall x, emits (k x)) -> emits (bind m k).
Proof.
  intros A B m k H1 H2 s. unfold bind. destruct (H1 s) as (n1 & T1 & L1).
  destruct (m s) as [[x|e|] s1] eqn:Em; simpl in *; [|exists n1; auto..].
  destruct (H2 x s1) as (n2 & T2 & L2). exists (n2 ++ n1). rewrite T2, T1, app_assoc. split; auto.
  apply Forall_app; auto.
Qed.
Lemma e_ret : forall A (a : A), emits (ret a). Proof. intros; apply e_same; auto. Qed.
Lemma e_fail : forall A e, @emits A (fail e). Proof. intros; apply e_same; auto. Qed.
Lemma e_panic : forall A, @emits A panic. Proof. intros; apply e_same; auto. Qed.
Lemma e_oqnlp : emits the_oqnlp. Proof. apply e_same; auto. Qed.
Lemma e_upd : forall f, emits (upd f). Proof. intros; apply e_same; auto. Qed.
Lemma e_tick : emits tick. Proof. apply e_same; auto. Qed.
Lemma e_on_disk : forall A (m : DM A), emits (on_disk m).
Proof. intros; apply e_same. intro s. rewrite on_disk_state. reflexivity. Qed.
Lemma e_unwrap : forall A (o : option A), emits (unwrap o). Proof. intros A []; [apply e_ret|apply e_panic]. Qed.
Lemma e_of_result : forall A r, @emits A (of_result r). Proof. intros; apply e_same; auto. Qed.
Lemma e_of_solver : forall A r, @emits A (of_solver r).
Proof. intros A [a|e|]; [apply e_ret|apply e_fail|apply e_panic]. Qed.
Lemma e_emit : forall l, Forall P l -> emits (emit l).
Proof. intros l H s. exists (rev l). split; auto. apply Forall_rev; auto. Qed.
Lemma e_emit_map : forall A (f : A -> event) l, (forall x, P (f x)) -> emits (emit (map f l)).
Proof. intros A f l H. apply e_emit. apply Forall_forall. intros x Hx. apply in_map_iff in Hx as (y & <- & _). auto. Qed.
End Emits.
Ltac em1 :=
  match goal with
  | |- emits _ (bind _ _) => apply e_bind; [|intro]
  | |- emits _ (ret _) => apply e_ret
  | |- emits _ (fail _) => apply e_fail
  | |- emits _ panic => apply e_panic
  | |- emits _ the_oqnlp => apply e_oqnlp
  | |- emits _ (upd _) => apply e_upd
  | |- emits _ (obs _) => apply e_upd
  | |- emits _ (emit (map _ _)) => apply e_emit_map; intro; solve [auto]
  | |- emits _ (emit _) => apply e_emit; repeat (apply Forall_cons; [solve [auto]|]); try apply Forall_nil
  | |- emits _ tick => apply e_tick
  | |- emits _ (on_disk _) => apply e_on_disk
  | |- emits _ (unwrap _) => apply e_unwrap
  | |- emits _ (of_result _) => apply e_of_result
  | |- emits _ (of_solver _) => apply e_of_solver
  | |- emits _ (let '(_, _) := ?x in _) => destruct x
  | |- emits _ (if ?b then _ else _) => destruct b
  | |- emits _ (match ?x with _ => _ end) => destruct x
  end.
Ltac em := repeat em1.

(** ** Parts of the driver that only report, save or relax *)
Section Parts.
Context (E : env) (P : event -> Prop).
Hypothesis Pcb : forall i ob, P (EvCallback i ob).
Hypothesis Ppr : forall m, P (EvPrint m).
Lemma e_callback : forall i, emits P (callback E i).
Proof.
  intro i. unfold callback. em. apply Forall_forall. intros ev Hx.
  apply in_map_iff in Hx as (y & <- & _). auto.
Qed.
Lemma e_callback_at : forall i, emits P (callback_at E i).
Proof. intro i. unfold callback_at. em. apply e_callback. Qed.
Hypothesis Psv : forall f c, P (EvSave f c).
Lemma e_save_now : forall c, emits P (save_now E c).
Proof. intro c. unfold save_now, create_checkpoint. em. Qed.
Lemma e_maybe_save : emits P (maybe_save_checkpoint E).
Proof. unfold maybe_save_checkpoint. em. apply e_save_now. Qed.
Lemma e_final_save : emits P (maybe_save_final_checkpoint E).
Proof. unfold maybe_save_final_checkpoint. em. apply e_save_now. Qed.
End Parts.
Lemma e_obs_iteration : forall P i u, emits P (obs_iteration i u). Proof. intros. unfold obs_iteration. em. Qed.
Lemma e_obs_search : forall P a n, emits P (obs_search a n). Proof. intros. unfold obs_search. em. Qed.
Lemma e_count : forall (P : event -> Prop) u, (forall v, P (EvRelax v)) -> emits P (count_unchanged u).
Proof. intros. unfold count_unchanged, adjust_threshold. em. Qed.
Lemma e_threshold : forall (P : event -> Prop) v, P (EvThreshold v) -> emits P (set_threshold v).
Proof. intros. unfold set_threshold. em. Qed.
Lemma e_begin : forall E (P : event -> Prop) i u, P (EvIteration i) -> emits P (begin_iteration E i u).
Proof. intros. unfold begin_iteration. em. Qed.

(** ** Fields a computation keeps *)
Section Keeps.
Context {B : Type} (f : oqnlp -> B).
Definition keeps {A} (m : OM A) : Prop := forall s, f (s_o (snd (m s))) = f (s_o s).
Lemma k_bind : forall A C (m : OM A) (k : A -> OM C), keeps m -> (forall x, keeps (k x)) -> keeps (bind m k).
Proof.
  intros A C m k H1 H2 s. unfold bind. specialize (H1 s). destruct (m s) as [[x|e|] s1]; simpl in *; auto.
  rewrite H2. auto.
Qed.
Lemma k_ret : forall A (a : A), keeps (ret a). Proof. repeat intro; reflexivity. Qed.
Lemma k_fail : forall A e, @keeps A (fail e). Proof. repeat intro; reflexivity. Qed.
Lemma k_panic : forall A, @keeps A panic. Proof. repeat intro; reflexivity. Qed.
Lemma k_oqnlp : keeps the_oqnlp. Proof. repeat intro; reflexivity. Qed.
Lemma k_upd : forall g, (forall o, f (g o) = f o) -> keeps (upd g). Proof. intros g H s. apply H. Qed.
Lemma k_emit : forall l, keeps (emit l). Proof. repeat intro; reflexivity. Qed.
Lemma k_tick : keeps tick. Proof. repeat intro; reflexivity. Qed.
Lemma k_on_disk : forall A (m : DM A), keeps (on_disk m).
Proof. intros A m s. rewrite on_disk_state. reflexivity. Qed.
Lemma k_unwrap : forall A (o : option A), keeps (unwrap o). Proof. intros A []; repeat intro; reflexivity. Qed.
Lemma k_of_result : forall A r, @keeps A (of_result r). Proof. repeat intro; reflexivity. Qed.
Lemma k_of_solver : forall A r, @keeps A (of_solver r). Proof. intros A []; repeat intro; reflexivity. Qed.
End Keeps.
Ltac kp1 :=
  match goal with
  | |- keeps _ (bind _ _) => apply k_bind; [|intro]
  | |- keeps _ (ret _) => apply k_ret
  | |- keeps _ (fail _) => apply k_fail
  | |- keeps _ panic => apply k_panic
  | |- keeps _ the_oqnlp => apply k_oqnlp
  | |- keeps _ (upd _) => apply k_upd; intro; try (reflexivity || solve [auto])
  | |- keeps _ (obs _) => apply k_upd; intro; try (reflexivity || solve [auto])
  | |- keeps _ (emit _) => apply k_emit
  | |- keeps _ tick => apply k_tick
  | |- keeps _ (on_disk _) => apply k_on_disk
  | |- keeps _ (unwrap _) => apply k_unwrap
  | |- keeps _ (of_result _) => apply k_of_result
  | |- keeps _ (of_solver _) => apply k_of_solver
  | |- keeps _ (let '(_, _) := ?x in _) => destruct x
  | |- keeps _ (if ?b then _ else _) => destruct b
  | |- keeps _ (match ?x with _ => _ end) => destruct x
  end.
Ltac kp := repeat kp1.
Section KeepParts.
Context (E : env) {B : Type} (f : oqnlp -> B).
Hypothesis Fob : forall o ob, f (set_o_observer ob o) = f o.
Lemma k_callback : forall i, keeps f (callback E i). Proof. intro. unfold callback. kp. Qed.
Lemma k_callback_at : forall i, keeps f (callback_at E i). Proof. intro. unfold callback_at. kp. apply k_callback. Qed.
Lemma k_save_now : forall c, keeps f (save_now E c). Proof. intro. unfold save_now, create_checkpoint. kp. Qed.
Lemma k_maybe_save : keeps f (maybe_save_checkpoint E). Proof. unfold maybe_save_checkpoint. kp. apply k_save_now. Qed.
Lemma k_final_save : keeps f (maybe_save_final_checkpoint E). Proof. unfold maybe_save_final_checkpoint. kp. apply k_save_now. Qed.
Lemma k_obs_iteration : forall i u, keeps f (obs_iteration i u). Proof. intros. unfold obs_iteration. kp. Qed.
Lemma k_obs_search : forall a n, keeps f (obs_search a n). Proof. intros. unfold obs_search. kp. Qed.
Lemma k_begin_stage2 : keeps f begin_stage2. Proof. unfold begin_stage2. kp. Qed.
Hypothesis Fme : forall o m, f (set_o_merit m o) = f o.
Lemma k_count : forall u, keeps f (count_unchanged u). Proof. intros. unfold count_unchanged, adjust_threshold. kp. Qed.
Lemma k_threshold : forall v, keeps f (set_threshold v). Proof. intros. unfold set_threshold. kp. Qed.
Hypothesis Fit : forall o i u, f (set_o_unchanged u (set_o_iteration i o)) = f o.
Hypothesis Fse : forall o s, f (set_o_seed s o) = f o.
Lemma k_begin : forall i u, keeps f (begin_iteration E i u). Proof. intros. unfold begin_iteration. kp. Qed.
End KeepParts.
