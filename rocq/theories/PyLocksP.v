(** * Proofs about the locks of the Python bindings *)
From Coq Require Import List Bool Arith Lia.
From Verif Require Import PyLocks SpecLocks.
Import ListNotations.

Section thread_ind.
  Variable P : thread -> Prop.
  Hypothesis H : forall c ts, Forall P ts -> P (Thread c ts).
  Fixpoint thread_ind2 (t : thread) : P t :=
    match t with
    | Thread c ts => H c ts ((fix go l : Forall P l := match l with [] => Forall_nil _ | x :: r => Forall_cons _ (thread_ind2 x) (go r) end) ts)
    end.
End thread_ind.

(** ** Counting what a thread holds *)
(** how often a thread holds each lock, and how many functions of each kind it is inside *)
Record own := mk_own { w_gil : nat; w_call : nat; w_reg : nat; w_obj : nat; w_con : nat; w_oth : nat }.
Definition zero := mk_own 0 0 0 0 0 0.
Definition add (a b : own) : own :=
  mk_own (w_gil a + w_gil b) (w_call a + w_call b) (w_reg a + w_reg b) (w_obj a + w_obj b) (w_con a + w_con b) (w_oth a + w_oth b).
Definition holds (l : lock) (o : own) : nat := match l with Gil => w_gil o | CallMutex => w_call o | Registry => w_reg o end.
Definition inside (f : kind) (o : own) : nat := match f with Objective => w_obj o | Constraints => w_con o | Other => w_oth o end.
Definition one_lock (l : lock) : own :=
  match l with Gil => mk_own 1 0 0 0 0 0 | CallMutex => mk_own 0 1 0 0 0 0 | Registry => mk_own 0 0 1 0 0 0 end.
Definition one_kind (f : kind) : own :=
  match f with Objective => mk_own 0 0 0 1 0 0 | Constraints => mk_own 0 0 0 0 1 0 | Other => mk_own 0 0 0 0 0 1 end.
Definition total (l : list own) : own := fold_right add zero l.
Lemma own_eq : forall a b, w_gil a = w_gil b -> w_call a = w_call b -> w_reg a = w_reg b ->
  w_obj a = w_obj b -> w_con a = w_con b -> w_oth a = w_oth b -> a = b.
Proof. intros [] []; simpl; intros; subst; reflexivity. Qed.
Ltac own := apply own_eq; simpl; lia.
Lemma add_comm a b : add a b = add b a. Proof. own. Qed.
Lemma add_assoc a b c : add a (add b c) = add (add a b) c. Proof. own. Qed.
Lemma add_zero a : add zero a = a. Proof. own. Qed.
Lemma holds_add l a b : holds l (add a b) = holds l a + holds l b. Proof. destruct l; reflexivity. Qed.
Lemma inside_add l a b : inside l (add a b) = inside l a + inside l b. Proof. destruct l; reflexivity. Qed.

(** [typed inv o c]: the code [c] of a thread that owns [o]; [inv] restricts instructions and
    ownership *)
Section Typed.
  Variable inv : own -> instr -> Prop.
  Inductive typed : own -> list instr -> Prop :=
  | T_nil : typed zero []
  | T_acq l o c : inv o (IAcquire l) -> typed (add (one_lock l) o) c -> typed o (IAcquire l :: c)
  | T_rel l o c : inv (add (one_lock l) o) (IRelease l) -> typed o c -> typed (add (one_lock l) o) (IRelease l :: c)
  | T_enter f o c : inv o (IEnter f) -> typed (add (one_kind f) o) c -> typed o (IEnter f :: c)
  | T_exit f o c : inv (add (one_kind f) o) (IExit f) -> typed o c -> typed (add (one_kind f) o) (IExit f :: c)
  | T_work o c : inv o IWork -> typed o c -> typed o (IWork :: c)
  | T_fork ts o c : inv o (IFork ts) -> Forall (typed zero) ts -> typed o c -> typed o (IFork ts :: c).
  (** a tree of threads that own [o] in all *)
  Inductive good : thread -> own -> Prop :=
  | G_node c ts o os : typed o c -> goods ts os -> (forallb ended ts = true \/ exists l, inv o (IFork l)) ->
      good (Thread c ts) (add o os)
  with goods : list thread -> own -> Prop :=
  | G_nil : goods [] zero
  | G_cons t ts o os : good t o -> goods ts os -> goods (t :: ts) (add o os).

  (** what one step does to the locks and to the ownership *)
  Inductive effect (s : locks) (o : own) : list event -> locks -> own -> Prop :=
  | E_none : effect s o [] s o
  | E_acquire l : taken l s = false -> effect s o [] (set_taken l true s) (add (one_lock l) o)
  | E_release l o' : o = add (one_lock l) o' -> effect s o [] (set_taken l false s) o'
  | E_enter f : effect s o [Enters f] s (add (one_kind f) o)
  | E_exit f o' : o = add (one_kind f) o' -> effect s o [Returns f] s o'.
  Lemma effect_frame : forall s o e s' o' x, effect s o e s' o' -> effect s (add x o) e s' (add x o').
  Proof.
    intros s o e s' o' x H. destruct H as [|l T|l o' ->|f|f o' ->].
    - constructor.
    - replace (add x (add (one_lock l) o)) with (add (one_lock l) (add x o)) by own. constructor; auto.
    - apply E_release. own.
    - replace (add x (add (one_kind f) o)) with (add (one_kind f) (add x o)) by own. constructor.
    - apply E_exit. own.
  Qed.
  Lemma goods_new : forall ts, Forall (typed zero) ts -> goods (map (fun c => Thread c []) ts) zero.
  Proof.
    induction 1 as [|c ts H _ IH]; simpl; [constructor|]. rewrite <- (add_zero zero). constructor; auto.
    rewrite <- (add_zero zero). constructor; auto. constructor.
  Qed.
  Lemma ended_stuck : forall t, ended t = true -> forall p s, step_at p s t = None.
  Proof.
    induction t as [c ts IH] using thread_ind2. intros H p s. simpl in H. apply andb_true_iff in H as [Hc Hts].
    destruct c; [|discriminate]. destruct p as [|n p]; [reflexivity|]. simpl.
    destruct (nth_error ts n) as [k|] eqn:Hn; auto. apply nth_error_In in Hn. rewrite Forall_forall in IH.
    rewrite forallb_forall in Hts. rewrite (IH k Hn (Hts k Hn) p s). reflexivity.
  Qed.
  Lemma goods_step : forall n ts k k' s e s', nth_error ts n = Some k ->
    (forall o, good k o -> exists o', good k' o' /\ effect s o e s' o') ->
    forall os, goods ts os -> exists os', goods (replace n k' ts) os' /\ effect s os e s' os'.
  Proof.
    induction n as [|n IH]; intros [|t ts] k k' s e s' Hn Hk os Hos; try discriminate Hn.
    - injection Hn as ->. inversion Hos as [|? ? o os1 Ht Hts]; subst. destruct (Hk o Ht) as (o' & Hg & He).
      exists (add o' os1). split; [constructor; auto|]. rewrite (add_comm o), (add_comm o'). apply effect_frame; auto.
    - inversion Hos as [|? ? o os1 Ht Hts]; subst. destruct (IH ts k k' s e s' Hn Hk os1 Hts) as (os' & Hg & He).
      exists (add o os'). split; [constructor; auto|]. apply effect_frame; auto.
  Qed.
  Lemma goods_ended : forall ts os, goods ts os -> forallb ended ts = true -> os = zero.
  Proof.
    assert (G : forall t o, good t o -> ended t = true -> o = zero).
    { induction t as [c ts IH] using thread_ind2. intros o Ho He. simpl in He. apply andb_true_iff in He as [Hc Hts].
      destruct c; [|discriminate]. inversion Ho as [? ? o1 os1 Ht Hos _]; subst. inversion Ht; subst. rewrite add_zero. clear Ho Ht Hc.
      revert os1 Hos IH Hts. induction ts as [|t ts IHts]; intros os1 Hos IH Hts; inversion Hos as [|? ? o2 os2 H1 H2]; subst; [reflexivity|].
      inversion IH as [|? ? P1 P2]; subst. simpl in Hts. apply andb_true_iff in Hts as [E1 E2].
      rewrite (P1 _ H1 E1), (IHts _ H2 P2 E2). reflexivity. }
    induction ts as [|t ts IH]; intros os H He; inversion H; subst; [reflexivity|].
    simpl in He. apply andb_true_iff in He as [E1 E2]. rewrite (G _ _ H2 E1), (IH _ H4 E2). reflexivity.
  Qed.
  Lemma step_good : forall p s t o e s' t', good t o -> step_at p s t = Some (e, s', t') ->
    exists o', good t' o' /\ effect s o e s' o'.
  Proof.
    induction p as [|n p IH]; intros s [c ts] o e s' t' Hg Hs; inversion Hg as [? ? o1 os Hc Hos Hw]; subst; simpl in Hs.
    - destruct c as [|i c]; [discriminate|]. destruct (forallb ended ts) eqn:He; [|discriminate].
      pose proof (goods_ended _ _ Hos He) as ->. replace (add o1 zero) with o1 by own.
      destruct (do_instr i s) as [[[e' s1] ts']|] eqn:Hd; [|discriminate]. injection Hs as -> -> <-.
      assert (K : forall o2, typed o2 c -> goods ts' zero -> (forallb ended ts' = true \/ exists l, inv o2 (IFork l)) -> good (Thread c ts') o2).
      { intros o2 A B C. replace o2 with (add o2 zero) by own. constructor; auto. }
      inversion Hc; subst; simpl in Hd.
      + destruct (taken l s) eqn:T; [discriminate|]. injection Hd as <- <- <-. eexists. split; [apply K; eauto; constructor|]. constructor; auto.
      + injection Hd as <- <- <-. eexists. split; [apply K; eauto; constructor|]. econstructor; eauto.
      + injection Hd as <- <- <-. eexists. split; [apply K; eauto; constructor|]. constructor.
      + injection Hd as <- <- <-. eexists. split; [apply K; eauto; constructor|]. econstructor; eauto.
      + injection Hd as <- <- <-. eexists. split; [apply K; eauto; constructor|]. constructor.
      + injection Hd as <- <- <-. exists o1. split; [|constructor]. apply K; eauto. apply goods_new; auto.
    - destruct (nth_error ts n) as [k|] eqn:Hn; [|discriminate].
      destruct (step_at p s k) as [[[e' s1] k']|] eqn:Hk; [|discriminate]. injection Hs as -> -> <-.
      destruct (goods_step n ts k k' s e s' Hn) with (os := os) as (os' & Hg' & He'); auto.
      { intros o Ho. eapply IH; eauto. }
      exists (add o1 os'). split; [|apply effect_frame; auto]. constructor; auto.
      destruct Hw as [Hw|Hw]; auto. exfalso.
      rewrite (ended_stuck k) in Hk; [discriminate|]. rewrite forallb_forall in Hw. apply Hw. eapply nth_error_In; eauto.
  Qed.
  (** the locks that are taken are those that some thread holds, once *)
  Definition agrees (s : locks) (o : own) : Prop := forall l, holds l o = if taken l s then 1 else 0.
  Lemma agrees_effect : forall s o e s' o', effect s o e s' o' -> agrees s o -> agrees s' o'.
  Proof.
    intros s o e s' o' H A l'. pose proof (A l') as B. destruct H as [|l T|l o' ->|f|f o' ->]; auto.
    - rewrite holds_add. destruct l, l', s; simpl in *; subst; lia.
    - rewrite holds_add in B. destruct l, l', s as [[] [] []]; simpl in *; lia.
    - rewrite holds_add. destruct f, l'; simpl in *; auto.
    - rewrite holds_add in B. destruct f, l'; simpl in *; auto.
  Qed.
  Lemma execute_good : forall sched s t o es s' t', good t o -> agrees s o -> execute sched s t = Some (es, s', t') ->
    exists o', good t' o' /\ agrees s' o' /\
      forall f, inside f o + begun_calls f es = inside f o' + returned_calls f es.
  Proof.
    induction sched as [|p sched IH]; intros s t o es s' t' Hg Ha He; simpl in He.
    - injection He as <- <- <-. exists o. repeat split; auto.
    - destruct (step_at p s t) as [[[e1 s1] t1]|] eqn:Hs; [|discriminate].
      destruct (execute sched s1 t1) as [[[es2 s2] t2]|] eqn:Hx; [|discriminate]. injection He as <- <- <-.
      destruct (step_good _ _ _ _ _ _ _ Hg Hs) as (o1 & Hg1 & He1).
      destruct (IH _ _ _ _ _ _ Hg1 (agrees_effect _ _ _ _ _ He1 Ha) Hx) as (o' & Hg' & Ha' & Hf).
      exists o'. split; [auto|]. split; [auto|]. intro f. specialize (Hf f). unfold begun_calls, returned_calls in *.
      rewrite !filter_app, !app_length.
      destruct He1 as [|l T|l o1 ->|f1|f1 o1 ->]; rewrite ?inside_add in *; simpl app; try (destruct l); try (destruct f1); destruct f; simpl in *; lia.
  Qed.
End Typed.

Scheme py_mut := Induction for py Sort Prop
with rust_mut := Induction for rust Sort Prop
with tasks_mut := Induction for tasks Sort Prop.
Combined Scheme code_mut from py_mut, rust_mut, tasks_mut.

Lemma typed_rel (inv : own -> instr -> Prop) l o o' c : o = add (one_lock l) o' -> inv o (IRelease l) -> typed inv o' c -> typed inv o (IRelease l :: c).
Proof. intros ->. apply T_rel. Qed.
Lemma typed_exit (inv : own -> instr -> Prop) f o o' c : o = add (one_kind f) o' -> inv o (IExit f) -> typed inv o' c -> typed inv o (IExit f :: c).
Proof. intros ->. apply T_exit. Qed.

Ltac sc := cbn [py_code rust_code tasks_code app call_code register_code plain_py plain_rust plain_tasks].

(** ** All programs: functions run under their locks *)
Definition covered (o : own) (_ : instr) : Prop := w_obj o <= w_call o /\ w_con o <= w_reg o.
Lemma covered_typed : forall o c, typed covered o c -> w_obj o <= w_call o /\ w_con o <= w_reg o.
Proof. intros o c H. inversion H; subst; auto; simpl; auto. Qed.
Definition take (l : lock) (o : own) := add (one_lock l) o.
Lemma covered_all :
  (forall p o c, typed covered (add (one_lock Gil) o) c -> typed covered (add (one_lock Gil) o) (py_code p ++ c)) /\
  (forall r o c, typed covered o c -> typed covered o (rust_code r ++ c)) /\
  (forall ts, Forall (typed covered zero) (tasks_code ts)).
Proof.
  apply code_mut; sc.
  - auto.
  - intros k IH o c H. apply T_work; [apply (covered_typed _ _ H)|]. auto.
  - intros k IH o c H. pose proof (covered_typed _ _ H) as [A B]. simpl in A, B.
    apply T_rel; [split; simpl; lia|]. apply T_acq; [split; simpl; lia|]. auto.
  - intros r IHr k IHk o c H. pose proof (covered_typed _ _ H) as [A B]. simpl in A, B.
    apply T_rel; [split; simpl; lia|]. rewrite <- app_assoc. apply IHr. sc. apply T_acq; [split; simpl; lia|]. auto.
  - auto.
  - intros f p IHp k IHk o c H. pose proof (covered_typed _ _ H) as [A B]. rewrite <- app_assoc.
    specialize (IHk o c H). destruct f; sc.
    + apply T_acq; [split; simpl; lia|]. apply T_acq; [split; simpl; lia|]. apply T_enter; [split; simpl; lia|].
      replace (add (one_kind Objective) (add (one_lock Gil) (add (one_lock CallMutex) o))) with
        (add (one_lock Gil) (add (one_kind Objective) (add (one_lock CallMutex) o))) by own.
      rewrite <- app_assoc. apply IHp. sc.
      eapply (typed_exit _ _ _ (add (one_lock Gil) (add (one_lock CallMutex) o))); [own|split; simpl; lia|].
      apply T_rel; [split; simpl; lia|]. apply T_rel; [split; simpl; lia|]. auto.
    + apply T_acq; [split; simpl; lia|]. apply T_acq; [split; simpl; lia|]. apply T_enter; [split; simpl; lia|].
      replace (add (one_kind Constraints) (add (one_lock Gil) (add (one_lock Registry) o))) with
        (add (one_lock Gil) (add (one_kind Constraints) (add (one_lock Registry) o))) by own.
      rewrite <- app_assoc. apply IHp. sc.
      eapply (typed_exit _ _ _ (add (one_lock Gil) (add (one_lock Registry) o))); [own|split; simpl; lia|].
      apply T_rel; [split; simpl; lia|]. apply T_rel; [split; simpl; lia|]. auto.
    + apply T_acq; [split; simpl; lia|]. apply T_enter; [split; simpl; lia|].
      replace (add (one_kind Other) (add (one_lock Gil) o)) with (add (one_lock Gil) (add (one_kind Other) o)) by own.
      rewrite <- app_assoc. apply IHp. sc.
      eapply (typed_exit _ _ _ (add (one_lock Gil) o)); [own|split; simpl; lia|].
      apply T_rel; [split; simpl; lia|]. auto.
  - intros k IH o c H. pose proof (covered_typed _ _ H) as [A B].
    apply T_acq; [split; simpl; lia|]. apply T_acq; [split; simpl; lia|].
    eapply (typed_rel _ _ _ (add (one_lock Gil) o)); [own|split; simpl; lia|]. apply T_rel; [split; simpl; lia|]. auto.
  - intros ts IHt k IHk o c H. apply T_fork; [apply (covered_typed _ _ H)|auto|auto].
  - constructor.
  - intros r IHr ts IHt. constructor; auto. rewrite <- (app_nil_r (rust_code r)). apply IHr. constructor.
Qed.
Lemma program_good (inv : own -> instr -> Prop) ps : (forall p, In p ps -> typed inv zero (thread_code p)) -> (exists l, inv zero (IFork l)) ->
  good inv (program ps) zero.
Proof.
  intros H W. unfold program. rewrite <- (add_zero zero). constructor; auto; [constructor|].
  replace (map (fun p => Thread (thread_code p) []) ps) with (map (fun c => Thread c []) (map thread_code ps)) by apply map_map.
  apply goods_new. apply Forall_forall. intros c Hc. apply in_map_iff in Hc as (p & <- & Hp). auto.
Qed.
Lemma covered_program ps : good covered (program ps) zero.
Proof.
  apply program_good; [|exists []; split; auto]. intros p _. unfold thread_code.
  apply T_acq; [split; simpl; lia|]. apply covered_all. apply T_rel; [split; simpl; lia|]. constructor.
Qed.
Lemma good_covered : forall t o, good covered t o -> w_obj o <= w_call o /\ w_con o <= w_reg o.
Proof.
  induction t as [c ts IH] using thread_ind2. intros o Ho. inversion Ho as [? ? o1 os Ht Hos _]; subst.
  pose proof (covered_typed _ _ Ht) as [A B].
  assert (K : w_obj os <= w_call os /\ w_con os <= w_reg os).
  { clear - IH Hos. revert os Hos. induction IH as [|t ts Pt _ IHts]; intros os Hos; inversion Hos as [|? ? o2 os2 H1 H2]; subst; [simpl; auto|].
    destruct (Pt _ H1), (IHts _ H2). simpl. lia. }
  simpl. lia.
Qed.
Lemma free_agrees : agrees all_free zero.
Proof. intros []; reflexivity. Qed.
Lemma c77_once : forall ps sched es s t, execute sched all_free (program ps) = Some (es, s, t) ->
  begun_calls Objective es <= returned_calls Objective es + 1 /\
  begun_calls Constraints es <= returned_calls Constraints es + 1.
Proof.
  intros ps sched es s t H. destruct (execute_good covered _ _ _ zero _ _ _ (covered_program ps) free_agrees H) as (o & Hg & Ha & Hf).
  destruct (good_covered _ _ Hg) as [A B]. pose proof (Ha CallMutex) as C. pose proof (Ha Registry) as D.
  pose proof (Hf Objective) as F1. pose proof (Hf Constraints) as F2. simpl in C, D, F1, F2.
  destruct (l_call s), (l_registry s); lia.
Qed.

(** ** Programs whose objectives and constraints do not call optimize *)
Definition no_lock (o : own) : Prop := w_gil o = 0 /\ w_call o = 0 /\ w_reg o = 0.
Definition orderly (o : own) (i : instr) : Prop :=
  match i with
  | IAcquire Gil => w_gil o = 0
  | IAcquire _ => no_lock o
  | IFork _ => no_lock o
  | _ => True
  end.
Lemma no_optimize_typed : forall p o c, w_gil o = 0 -> no_optimize p -> typed orderly (add (one_lock Gil) o) c ->
  typed orderly (add (one_lock Gil) o) (py_code p ++ c).
Proof.
  induction p as [|p IH|p IH|]; intros o c Ho Hp H; cbn [no_optimize] in Hp; sc; auto; try contradiction.
  - apply T_work; [exact I|auto].
  - apply T_rel; [exact I|]. apply T_acq; [exact Ho|auto].
Qed.
Lemma orderly_all :
  (forall p, plain_py p -> forall o c, no_lock o -> typed orderly (add (one_lock Gil) o) c -> typed orderly (add (one_lock Gil) o) (py_code p ++ c)) /\
  (forall r, plain_rust r -> forall o c, no_lock o -> typed orderly o c -> typed orderly o (rust_code r ++ c)) /\
  (forall ts, plain_tasks ts -> Forall (typed orderly zero) (tasks_code ts)).
Proof.
  apply code_mut; sc.
  - auto.
  - intros k IH Hk o c Ho H. apply T_work; [exact I|]. auto.
  - intros k IH Hk o c Ho H. apply T_rel; [exact I|]. apply T_acq; [apply Ho|]. auto.
  - intros r IHr k IHk [Hr Hk] o c Ho H. apply T_rel; [exact I|]. rewrite <- app_assoc. apply IHr; auto. sc. apply T_acq; [apply Ho|]. auto.
  - auto.
  - intros f p IHp k IHk [Hp Hk] o c Ho H. rewrite <- app_assoc. specialize (IHk Hk o c Ho H). pose proof Ho as (H1 & H2 & H3). destruct f; sc.
    + apply T_acq; [exact Ho|]. apply T_acq; [simpl; lia|]. apply T_enter; [exact I|].
      replace (add (one_kind Objective) (add (one_lock Gil) (add (one_lock CallMutex) o))) with
        (add (one_lock Gil) (add (one_kind Objective) (add (one_lock CallMutex) o))) by own.
      rewrite <- app_assoc. apply no_optimize_typed; [simpl; lia|auto|]. sc.
      eapply (typed_exit _ _ _ (add (one_lock Gil) (add (one_lock CallMutex) o))); [own|exact I|].
      apply T_rel; [exact I|]. apply T_rel; [exact I|]. auto.
    + apply T_acq; [exact Ho|]. apply T_acq; [simpl; lia|]. apply T_enter; [exact I|].
      replace (add (one_kind Constraints) (add (one_lock Gil) (add (one_lock Registry) o))) with
        (add (one_lock Gil) (add (one_kind Constraints) (add (one_lock Registry) o))) by own.
      rewrite <- app_assoc. apply no_optimize_typed; [simpl; lia|auto|]. sc.
      eapply (typed_exit _ _ _ (add (one_lock Gil) (add (one_lock Registry) o))); [own|exact I|].
      apply T_rel; [exact I|]. apply T_rel; [exact I|]. auto.
    + apply T_acq; [simpl; lia|]. apply T_enter; [exact I|].
      replace (add (one_kind Other) (add (one_lock Gil) o)) with (add (one_lock Gil) (add (one_kind Other) o)) by own.
      rewrite <- app_assoc. apply IHp; [exact Hp|exact Ho|]. sc.
      eapply (typed_exit _ _ _ (add (one_lock Gil) o)); [own|exact I|].
      apply T_rel; [exact I|]. auto.
  - intros k IH Hk o c Ho H. pose proof Ho as (H1 & H2 & H3).
    apply T_acq; [exact Ho|]. apply T_acq; [simpl; lia|].
    eapply (typed_rel _ _ _ (add (one_lock Gil) o)); [own|exact I|]. apply T_rel; [exact I|]. auto.
  - intros ts IHt k IHk [Ht Hk] o c Ho H. apply T_fork; [exact Ho|auto|auto].
  - constructor.
  - intros r IHr ts IHt [Hr Ht]. constructor; auto. rewrite <- (app_nil_r (rust_code r)). apply IHr; auto; [repeat split|constructor].
Qed.
Lemma orderly_program ps : (forall p, In p ps -> plain_py p) -> good orderly (program ps) zero.
Proof.
  intro H. apply program_good; [|exists []; repeat split]. intros p Hp. unfold thread_code.
  apply T_acq; [reflexivity|]. apply orderly_all; auto; [repeat split|]. apply T_rel; [exact I|]. constructor.
Qed.

Lemma move_kid : forall s c ts n k, nth_error ts n = Some k -> can_move s k -> can_move s (Thread c ts).
Proof.
  intros s c ts n k Hn (p & e & s' & t' & H). exists (n :: p), e, s', (Thread c (replace n t' ts)). simpl. rewrite Hn, H. reflexivity.
Qed.
Lemma move_here : forall s i c ts, forallb ended ts = true -> do_instr i s <> None -> can_move s (Thread (i :: c) ts).
Proof.
  intros s i c ts He Hd. destruct (do_instr i s) as [[[e s'] ts']|] eqn:E; [|congruence].
  exists [], e, s', (Thread c ts'). simpl. rewrite He, E. reflexivity.
Qed.
Lemma goods_find : forall (inv : own -> instr -> Prop) (m : own -> nat), m zero = 0 -> (forall a b, m (add a b) = m a + m b) ->
  forall ts os, goods inv ts os -> 1 <= m os -> exists n k o, nth_error ts n = Some k /\ good inv k o /\ 1 <= m o.
Proof.
  intros inv m M0 Ma. induction ts as [|t ts IH]; intros os H Hm; inversion H as [|? ? o os' H1 H2]; subst; [lia|].
  rewrite Ma in Hm. destruct (le_lt_dec 1 (m o)).
  - exists 0, t, o. auto.
  - destruct (IH _ H2) as (n & k & o' & A & B & C); [lia|]. exists (S n), k, o'. auto.
Qed.
(** the thread that holds the GIL can go on *)
Lemma gil_moves : forall s t o, good orderly t o -> 1 <= w_gil o -> can_move s t.
Proof.
  intros s. induction t as [c ts IH] using thread_ind2. intros o Ho Hg. inversion Ho as [? ? o1 os Ht Hos Hw]; subst.
  simpl in Hg. destruct (le_lt_dec 1 (w_gil o1)) as [Hx|Hx].
  - destruct Hw as [Hw|(l & Hw & _)]; [|lia]. inversion Ht; subst; try (simpl in Hx; lia); apply move_here; auto; try discriminate.
    + exfalso. destruct l; simpl in H; try (destruct H as [H _]); lia.
  - destruct (goods_find orderly w_gil eq_refl (fun _ _ => eq_refl) ts os Hos) as (n & k & o' & A & B & C); [lia|].
    rewrite Forall_forall in IH. eapply move_kid; eauto. eapply IH; eauto. eapply nth_error_In; eauto.
Qed.
(** when the GIL is free, a thread that holds a mutex can go on *)
Lemma mutex_moves : forall s, l_gil s = false -> forall t o, good orderly t o -> 1 <= w_call o + w_reg o -> can_move s t.
Proof.
  intros s Hs. induction t as [c ts IH] using thread_ind2. intros o Ho Hg. inversion Ho as [? ? o1 os Ht Hos Hw]; subst.
  simpl in Hg. destruct (le_lt_dec 1 (w_call o1 + w_reg o1)) as [Hx|Hx].
  - destruct Hw as [Hw|(l & _ & H1 & H2)]; [|lia]. inversion Ht; subst; try (simpl in Hx; lia); apply move_here; auto; try discriminate.
    simpl. destruct l; simpl; [rewrite Hs; discriminate| |]; exfalso; destruct H as (_ & H3 & H4); lia.
  - destruct (goods_find orderly (fun o => w_call o + w_reg o) eq_refl) with (ts := ts) (os := os) as (n & k & o' & A & B & C); auto; [simpl; intros; lia|lia|].
    rewrite Forall_forall in IH. eapply move_kid; eauto. eapply IH; eauto. eapply nth_error_In; eauto.
Qed.
(** when all locks are free, any thread can go on *)
Lemma free_moves : forall s, (forall l, taken l s = false) -> forall t, ended t = false -> can_move s t.
Proof.
  intros s Hs. induction t as [c ts IH] using thread_ind2. intro He. simpl in He.
  destruct (forallb ended ts) eqn:Ht.
  - destruct c as [|i c]; [discriminate|]. apply move_here; auto. destruct i; simpl; try discriminate. rewrite Hs. discriminate.
  - clear He. assert (G : exists n k, nth_error ts n = Some k /\ ended k = false).
    { clear - Ht. induction ts as [|t ts IH]; [discriminate|]. simpl in Ht. destruct (ended t) eqn:E.
      - destruct (IH Ht) as (n & k & A & B). exists (S n), k. auto.
      - exists 0, t. auto. }
    destruct G as (n & k & A & B). rewrite Forall_forall in IH. eapply move_kid; eauto. apply IH; auto. eapply nth_error_In; eauto.
Qed.
Lemma good_moves : forall s t o, good orderly t o -> agrees s o -> ended t = false -> can_move s t.
Proof.
  intros s t o Hg Ha He. pose proof (Ha Gil) as A. pose proof (Ha CallMutex) as B. pose proof (Ha Registry) as C. simpl in A, B, C.
  destruct (l_gil s) eqn:E1; [eapply gil_moves; eauto; lia|].
  destruct (l_call s) eqn:E2; [eapply mutex_moves; eauto; lia|].
  destruct (l_registry s) eqn:E3; [eapply mutex_moves; eauto; lia|].
  apply free_moves; auto. intros []; auto.
Qed.
Lemma c76_moves : forall ps sched es s t, (forall p, In p ps -> plain_py p) ->
  execute sched all_free (program ps) = Some (es, s, t) -> ended t = true \/ can_move s t.
Proof.
  intros ps sched es s t Hp H. destruct (execute_good orderly _ _ _ zero _ _ _ (orderly_program ps Hp) free_agrees H) as (o & Hg & Ha & _).
  destruct (ended t) eqn:E; auto. right. eapply good_moves; eauto.
Qed.

(** ** Every execution is finite *)
Fixpoint isize (i : instr) : nat :=
  match i with
  | IFork ts => S (list_sum (map (fun c => list_sum (map isize c)) ts))
  | _ => 1
  end.
Definition csize (c : list instr) : nat := list_sum (map isize c).
Fixpoint tsize (t : thread) : nat :=
  match t with Thread c ts => csize c + list_sum (map tsize ts) end.
Lemma sum_replace : forall n ts k k', nth_error ts n = Some k -> tsize k = S (tsize k') ->
  list_sum (map tsize ts) = S (list_sum (map tsize (replace n k' ts))).
Proof.
  induction n as [|n IH]; intros [|t ts] k k' Hn Hk; try discriminate Hn; simpl in *.
  - injection Hn as ->. rewrite Hk. reflexivity.
  - rewrite (IH ts k k' Hn Hk). lia.
Qed.
Lemma ended_size : forall t, ended t = true <-> tsize t = 0.
Proof.
  induction t as [c ts IH] using thread_ind2. simpl. rewrite andb_true_iff.
  assert (K : forallb ended ts = true <-> list_sum (map tsize ts) = 0).
  { induction IH as [|t ts Pt _ IHts]; simpl; [tauto|]. rewrite andb_true_iff, Pt, IHts. lia. }
  rewrite K. unfold csize. destruct c as [|i c]; simpl; [split; [tauto|auto]|]. split; [intros [? _]; discriminate|].
  destruct i; simpl; lia.
Qed.
Lemma step_size : forall p s t e s' t', step_at p s t = Some (e, s', t') -> tsize t = S (tsize t').
Proof.
  induction p as [|n p IH]; intros s [c ts] e s' t' H; simpl in H.
  - destruct c as [|i c]; [discriminate|]. destruct (forallb ended ts) eqn:He; [|discriminate].
    assert (Z : list_sum (map tsize ts) = 0).
    { clear - He. induction ts as [|t ts IH]; auto. simpl in *. apply andb_true_iff in He as [A B]. apply ended_size in A. rewrite A. auto. }
    destruct (do_instr i s) as [[[e' s1] ts']|] eqn:Hd; [|discriminate]. injection H as <- <- <-. simpl. rewrite Z. unfold csize. simpl.
    destruct i; simpl in Hd; try (destruct (taken l s); [discriminate|]); injection Hd as <- <- <-; simpl; try lia.
    rewrite map_map. f_equal. unfold csize.
    replace (map (fun x => tsize (Thread x [])) ts0) with (map (fun c => list_sum (map isize c)) ts0); [lia|].
    apply map_ext. intro x. simpl. unfold csize. lia.
  - destruct (nth_error ts n) as [k|] eqn:Hn; [|discriminate].
    destruct (step_at p s k) as [[[e' s1] k']|] eqn:Hk; [|discriminate]. injection H as <- <- <-. simpl.
    rewrite (sum_replace _ _ _ _ Hn (IH _ _ _ _ _ Hk)). lia.
Qed.
Lemma execute_size : forall sched s t es s' t', execute sched s t = Some (es, s', t') -> tsize t = length sched + tsize t'.
Proof.
  induction sched as [|p sched IH]; intros s t es s' t' H; simpl in H.
  - injection H as <- <- <-. reflexivity.
  - destruct (step_at p s t) as [[[e1 s1] t1]|] eqn:Hs; [|discriminate].
    destruct (execute sched s1 t1) as [[[es2 s2] t2]|] eqn:Hx; [|discriminate]. injection H as <- <- <-.
    rewrite (step_size _ _ _ _ _ _ Hs), (IH _ _ _ _ _ Hx). reflexivity.
Qed.
Lemma c76_finite : forall ps, exists n, forall sched es s t,
  execute sched all_free (program ps) = Some (es, s, t) -> length sched <= n /\ (ended t = true <-> length sched = n).
Proof.
  intro ps. exists (tsize (program ps)). intros sched es s t H. apply execute_size in H. rewrite ended_size. lia.
Qed.
