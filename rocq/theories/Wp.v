(** * A small program logic for the state monad

    [wp R F m Q s]: started in [s], [m] ends in a state related to [s] by the preorder [R];
    if it returns a value, [Q] holds of the value and the final state; if it fails (or
    panics, [None]) then [F] holds of the failure. *)
From Coq Require Import List Bool.
From Verif Require Import F64 Base.
Import ListNotations.

Section Wp.
Context {S E : Type} (R : S -> S -> Prop) (F : option E -> S -> Prop).
Context (Rrefl : forall s, R s s) (Rtrans : forall a b c, R a b -> R b c -> R a c).

Definition wp {A} (m : M S E A) (Q : A -> S -> Prop) (s : S) : Prop :=
  R s (snd (m s)) /\
  match fst (m s) with
  | Ok a => Q a (snd (m s))
  | Err e => F (Some e) (snd (m s))
  | Panic => F None (snd (m s))
  end.

Lemma wp_ret : forall A (a : A) (Q : A -> S -> Prop) s, Q a s -> wp (ret a) Q s.
Proof. intros; split; simpl; auto. Qed.
Lemma wp_fail : forall A e (Q : A -> S -> Prop) s, F (Some e) s -> wp (fail e) Q s.
Proof. intros; split; simpl; auto. Qed.
Lemma wp_panic : forall A (Q : A -> S -> Prop) s, F None s -> wp panic Q s.
Proof. intros; split; simpl; auto. Qed.
Lemma wp_get : forall (Q : S -> S -> Prop) s, Q s s -> wp get Q s.
Proof. intros; split; simpl; auto. Qed.
Lemma wp_modify : forall f (Q : unit -> S -> Prop) s, R s (f s) -> Q tt (f s) -> wp (modify f) Q s.
Proof. intros; split; simpl; auto. Qed.
Lemma wp_of_result : forall A (r : outcome E A) (Q : A -> S -> Prop) s,
  match r with Ok a => Q a s | Err e => F (Some e) s | Panic => F None s end -> wp (of_result r) Q s.
Proof. intros A r Q s H; split; simpl; auto. Qed.
Lemma wp_unwrap : forall A (o : option A) (Q : A -> S -> Prop) s,
  match o with Some a => Q a s | None => F None s end -> wp (unwrap o) Q s.
Proof. intros A [a|] Q s H; [apply wp_ret | apply wp_panic]; auto. Qed.
Lemma wp_bind : forall A B (m : M S E A) (k : A -> M S E B) Q s,
  wp m (fun a s' => R s s' -> m s = (Ok a, s') -> wp (k a) Q s') s -> wp (bind m k) Q s.
Proof.
  intros A B m k Q s [H1 H2]. unfold wp, bind in *. destruct (m s) as [r s'] eqn:Em. simpl in *.
  destruct r as [a|e|]; simpl; auto.
  destruct (H2 H1 eq_refl) as [H3 H4]. split; [eapply Rtrans; eauto | exact H4].
Qed.
Lemma wp_conseq : forall A (m : M S E A) (Q Q' : A -> S -> Prop) s,
  wp m Q s -> (forall a s', R s s' -> m s = (Ok a, s') -> Q a s' -> Q' a s') -> wp m Q' s.
Proof.
  intros A m Q Q' s [H1 H2] H. split; auto. destruct (m s) as [r s'] eqn:Em. simpl in *.
  destruct r; auto.
Qed.
Lemma wp_if : forall A (b : bool) (m1 m2 : M S E A) Q s,
  (b = true -> wp m1 Q s) -> (b = false -> wp m2 Q s) -> wp (if b then m1 else m2) Q s.
Proof. intros A [] m1 m2 Q s H1 H2; auto. Qed.
Lemma wp_run : forall A (m : M S E A) Q s r s', wp m Q s -> m s = (r, s') ->
  R s s' /\ match r with Ok a => Q a s' | Err e => F (Some e) s' | Panic => F None s' end.
Proof. intros A m Q s r s' [H1 H2] Em. rewrite Em in *. auto. Qed.
End Wp.

(** Reflexive transitive closure *)
Inductive star {S} (R : S -> S -> Prop) : S -> S -> Prop :=
| star_refl : forall s, star R s s
| star_step : forall a b c, R a b -> star R b c -> star R a c.
Lemma star_one : forall S (R : S -> S -> Prop) a b, R a b -> star R a b.
Proof. intros; econstructor; eauto; constructor. Qed.
Lemma star_trans : forall S (R : S -> S -> Prop) a b c, star R a b -> star R b c -> star R a c.
Proof. induction 1; intros; auto. econstructor; eauto. Qed.
Lemma star_right : forall S (R : S -> S -> Prop) a b c, star R a b -> R b c -> star R a c.
Proof. intros; eapply star_trans; eauto using star_one. Qed.
Lemma star_inv : forall S (R : S -> S -> Prop) (I : S -> Prop),
  (forall a b, I a -> R a b -> I b) -> forall a b, star R a b -> I a -> I b.
Proof. intros S R I H a b St; induction St; auto. intro. apply IHSt. eapply H; eauto. Qed.
