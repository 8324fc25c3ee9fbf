(** * Assertions about executions of the driver

    [hoare okay P m Q]: from a state with [P], every outcome of [m] leaves a state with
    [okay], and a normal outcome one with [Q].  [stable] assertions survive computations
    that record only certain events and keep certain fields. *)
From Coq Require Import ZArith NArith List Bool Arith Lia String Permutation.
From Verif Require Import F64 Base Builders Types Filters Runner Observer Env EnvSpec
  ScatterSearch Codec Checkpoint Oqnlp Spec SpecStage2 Wp Actions RunP SetP FrameP FilterP EmitsP.
Import ListNotations.

Section Hoare.
Context (okay : st -> Prop).
Definition hoare {A} (P : st -> Prop) (m : OM A) (Q : A -> st -> Prop) : Prop :=
  forall s, P s -> okay (snd (m s)) /\ (forall a s', m s = (Ok a, s') -> Q a s').
Lemma h_bind : forall A B (P : st -> Prop) (m : OM A) Q (k : A -> OM B) R,
  hoare P m Q -> (forall a, hoare (Q a) (k a) R) -> hoare P (bind m k) R.
Proof.
  intros A B P m Q k R H1 H2 s Hp. unfold bind. destruct (H1 s Hp) as [G1 G2].
  destruct (m s) as [[a|e|] s1] eqn:Em; simpl in *; [|split; [auto|intros; discriminate]..].
  apply H2. apply G2. auto.
Qed.
Lemma h_weak : forall A (P P' : st -> Prop) (m : OM A) (Q Q' : A -> st -> Prop),
  hoare P' m Q' -> (forall s, P s -> P' s) -> (forall a s, Q' a s -> Q a s) -> hoare P m Q.
Proof. intros A P P' m Q Q' H H1 H2 s Hp. destruct (H s (H1 s Hp)). split; auto. Qed.
Lemma h_pre : forall A (P : st -> Prop) (m : OM A) (Q : A -> st -> Prop) (X : Prop),
  (forall s, P s -> X) -> (X -> hoare P m Q) -> hoare P m Q.
Proof. intros A P m Q X H1 H2 s Hp. apply (H2 (H1 s Hp) s Hp). Qed.
Lemma h_post : forall A (P : st -> Prop) (m : OM A) (Q Q' : A -> st -> Prop),
  hoare P m Q' -> (forall a s, Q' a s -> Q a s) -> hoare P m Q.
Proof. intros. eapply h_weak; eauto. Qed.
Lemma h_ret : forall A (P : st -> Prop) (a : A) (Q : A -> st -> Prop),
  (forall s, P s -> okay s /\ Q a s) -> hoare P (ret a) Q.
Proof. intros A P a Q H s Hp. destruct (H s Hp). split; auto. intros a' s' Hx. injection Hx as <- <-. auto. Qed.
Lemma h_fail : forall A e (P : st -> Prop) (Q : A -> st -> Prop), (forall s, P s -> okay s) -> hoare P (fail e) Q.
Proof. intros A e P Q H s Hp. split; [apply H; auto|intros; discriminate]. Qed.
Lemma h_panic : forall A (P : st -> Prop) (Q : A -> st -> Prop), (forall s, P s -> okay s) -> hoare P panic Q.
Proof. intros A P Q H s Hp. split; [apply H; auto|intros; discriminate]. Qed.
Lemma h_oqnlp : forall P : st -> Prop, (forall s, P s -> okay s) ->
  hoare P the_oqnlp (fun o s => P s /\ o = s_o s).
Proof. intros P H s Hp. split; [apply H; auto|]. intros a s' Hx. injection Hx as <- <-. auto. Qed.
Lemma h_unwrap : forall A (o : option A) (P : st -> Prop), (forall s, P s -> okay s) ->
  hoare P (unwrap o) (fun a s => P s /\ o = Some a).
Proof. intros A [a|] P H; [apply h_ret|apply h_panic]; auto. Qed.
Lemma h_of_result : forall A (r : outcome oq_error A) (P : st -> Prop), (forall s, P s -> okay s) ->
  hoare P (of_result r) (fun a s => P s /\ r = Ok a).
Proof. intros A r P H s Hp. split; [apply H; auto|]. intros a s' Hx. injection Hx as -> ->. auto. Qed.
Lemma h_of_solver : forall A (r : outcome ls_error A) (P : st -> Prop), (forall s, P s -> okay s) ->
  hoare P (of_solver r) (fun a s => P s /\ r = Ok a).
Proof. intros A [a|e|] P H; [apply h_ret|apply h_fail|apply h_panic]; auto. Qed.

(** ** Stable assertions *)
Context (calm : event -> Prop) {B : Type} (f : oqnlp -> B).
Definition stable (P : st -> Prop) : Prop := forall s s' new, P s -> trace s' = new ++ trace s ->
  Forall calm new -> f (s_o s') = f (s_o s) -> P s'.
Lemma h_stable : forall A (m : OM A) (P : st -> Prop), stable P -> (forall s, P s -> okay s) ->
  emits calm m -> keeps f m -> hoare P m (fun _ => P).
Proof.
  intros A m P Hs Ho H1 H2 s Hp. destruct (H1 s) as (new & Ht & Hw). specialize (H2 s).
  assert (G : P (snd (m s))) by (eapply Hs; eauto).
  split; [apply Ho; auto|]. intros a s' Hx. rewrite Hx in G. exact G.
Qed.
End Hoare.

(** ** Parts of the driver *)
Lemma e_process : forall (P : event -> Prop) E sol, (forall s, P (EvResult s)) -> (forall s, P (EvSolutionSet s)) ->
  (forall v, P (EvThreshold v)) -> emits P (process_local_solution E sol).
Proof.
  intros P E sol H1 H2 H3. unfold process_local_solution, set_solutions, set_threshold, add_to_filter. em; auto.
Qed.
Ltac side := solve [ simpl; auto | intros; simpl; auto | split; simpl; auto | intros; split; simpl; auto
                   | repeat split; simpl; auto | intros; repeat split; simpl; auto ].
Ltac parts :=
  first [ apply e_callback; side | apply e_callback_at; side | apply e_maybe_save; side | apply e_final_save; side
        | apply e_obs_iteration | apply e_obs_search | apply e_count; side | apply e_threshold; side | apply e_begin; side
        | apply e_process; side
        | solve [em; try side; repeat (apply Forall_cons; [side|]); try apply Forall_nil; try side;
            try (apply e_emit_map; side); try (apply Forall_forall; intros ? Hx; apply in_map_iff in Hx as (? & <- & _); side)]
        | apply k_callback; side | apply k_callback_at; side | apply k_maybe_save; side | apply k_final_save; side
        | apply k_obs_iteration; side | apply k_obs_search; side | apply k_count; side | apply k_threshold; side | apply k_begin; side
        | solve [unfold process_local_solution, set_solutions, set_threshold, add_to_filter; kp]
        | solve [kp; side] ].

(** ** A run is its start followed by the rest *)
Definition run_rest (E : env) (resumed : bool) : OM solset :=
  if resumed then
    bind the_oqnlp (fun o => stage2_run E true (match o_ref o with Some r => r | None => [] end) None (o_unchanged o))
  else
    bind (stage1_run E) (fun r => match r with
      | None => final_set
      | Some (refs, objs) => stage2_run E false refs (Some objs) 0
      end).
Lemma rest_config : forall E b s1 r s2, run_rest E b s1 = (r, s2) -> same_config (s_o s1) (s_o s2).
Proof.
  intros E b s1 r s2 Hb.
  assert (Hst : exists K1 o1 K2 o2 sm, acts E K1 o1 s1 sm /\ acts E K2 o2 sm s2).
  { destruct b; unfold run_rest in Hb.
    - unfold bind, the_oqnlp, get, ret, bind in Hb. simpl in Hb. set (refs := match o_ref (s_o s1) with Some r => r | None => [] end) in *.
      pose proof (a_stage2 E (candidate E true (s_o s1) refs) None true refs (o_unchanged (s_o s1)) (fun _ _ => True) s1 (fun i p H => H) (fun r s' _ H => I)) as [W1 _].
      rewrite Hb in W1. exists (fun _ _ => True), None. do 3 eexists. split; [constructor|exact W1].
    - unfold bind in Hb at 1.
      pose proof (a_stage1 E (stage1_best E s1) None (fun _ _ => True) s1 (fun _ H => H) (fun _ _ _ H => I)) as [W1 _].
      destruct (stage1_run E s1) as [[[[refs objs]|]|e|] s3] eqn:E1; simpl in W1.
      + pose proof (a_stage2 E (candidate E false (s_o s3) refs) (Some objs) false refs 0 (fun _ _ => True) s3 (fun i p H => H) (fun r s' _ H => I)) as [W2 _].
        rewrite Hb in W2. do 5 eexists. split; [exact W1|exact W2].
      + pose proof (a_final E (stage1_best E s1) None (fun _ _ => True) s3 (fun _ _ _ _ => I)) as [W2 _]. rewrite Hb in W2.
        do 5 eexists. split; [exact W1|exact W2].
      + injection Hb as _ <-. do 2 eexists. exists (fun _ _ => True), None. eexists. split; [exact W1|constructor].
      + injection Hb as _ <-. do 2 eexists. exists (fun _ _ => True), None. eexists. split; [exact W1|constructor]. }
  destruct Hst as (K1 & o1 & K2 & o2 & sm & A1 & A2).
  exact (same_config_trans _ _ _ (acts_config _ _ _ _ _ A1) (acts_config _ _ _ _ _ A2)).
Qed.
Lemma run_cases : forall E s r s' new, run E s = (r, s') -> recorded s s' new ->
  (new = [] /\ s_o s' = s_o s /\ forall x, r <> Ok x) \/
  exists b s1, run_start E (blank s) b s1 /\ trace s1 = [] /\ run_rest E b s1 = (r, ends s' new) /\
    same_config (s_o s1) (s_o s').
Proof.
  intros E s r s' new Hrun Hnew.
  pose proof (run_blank E s r s' new Hrun Hnew) as Hb. fold (ends s' new) in Hb.
  unfold run in Hb. unfold bind in Hb at 1.
  destruct (try_resume_from_checkpoint E (blank s)) as [[b|e|] s1] eqn:Ht.
  2,3: left; destruct (resume_fail E (blank s) _ _ Ht) as (d & _ & ->); [congruence|];
       injection Hb as <- Ho _ _ <-; split; [auto|split; [auto|discriminate]].
  right. apply resume_ok in Ht. destruct (start_begins _ _ _ _ Ht) as [_ Htr]. simpl in Htr.
  change ((if b then _ else _) s1) with (run_rest E b s1) in Hb.
  exists b, s1. split; [auto|]. split; [auto|]. split; [auto|]. exact (rest_config E b s1 _ _ Hb).
Qed.
