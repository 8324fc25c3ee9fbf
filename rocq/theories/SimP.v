(** * Two executions side by side

    [sim R V m m']: from related states, [m] and [m'] end in related states with the same
    kind of outcome: values related by [V], equal errors, or both panics. *)
From Coq Require Import ZArith NArith List Bool Arith Lia String.
From Verif Require Import F64 Base.
Import ListNotations.

Definition vrel {E A B} (V : A -> B -> Prop) (r : outcome E A) (r' : outcome E B) : Prop :=
  match r, r' with
  | Ok a, Ok b => V a b
  | Err e, Err e' => e = e'
  | Panic, Panic => True
  | _, _ => False
  end.
Section Sim.
Context {S T E : Type} (R : S -> T -> Prop).
Definition sim {A B} (V : A -> B -> Prop) (m : M S E A) (m' : M T E B) : Prop :=
  forall s t, R s t -> vrel V (fst (m s)) (fst (m' t)) /\ R (snd (m s)) (snd (m' t)).
Lemma sim_bind : forall A B A' B' (V : A -> B -> Prop) (W : A' -> B' -> Prop) m m' k k',
  sim V m m' -> (forall a b, V a b -> sim W (k a) (k' b)) -> sim W (bind m k) (bind m' k').
Proof.
  intros A B A' B' V W m m' k k' H1 H2 s t Hr. destruct (H1 s t Hr) as [G1 G2]. unfold bind.
  destruct (m s) as [[a|e|] s1], (m' t) as [[b|e'|] t1]; simpl in *; try contradiction; auto.
  apply H2; auto.
Qed.
Lemma sim_ret : forall A B (V : A -> B -> Prop) a b, V a b -> sim V (ret a) (ret b).
Proof. intros A B V a b H s t Hr. simpl. auto. Qed.
Lemma sim_fail : forall A B (V : A -> B -> Prop) e, sim V (fail e) (fail e).
Proof. intros A B V e s t Hr. simpl. auto. Qed.
Lemma sim_panic : forall A B (V : A -> B -> Prop), sim V panic panic.
Proof. intros A B V s t Hr. simpl. auto. Qed.
Lemma sim_of_result : forall A B (V : A -> B -> Prop) r r', vrel V r r' -> sim V (of_result r) (of_result r').
Proof. intros A B V r r' H s t Hr. simpl. auto. Qed.
Lemma sim_unwrap : forall A (o : option A), sim eq (unwrap o) (unwrap o).
Proof. intros A [a|]; [apply sim_ret|apply sim_panic]; auto. Qed.
Lemma sim_modify : forall f g, (forall s t, R s t -> R (f s) (g t)) -> sim eq (modify f) (modify g).
Proof. intros f g H s t Hr. simpl. auto. Qed.
Lemma sim_get : sim R get get.
Proof. intros s t Hr. simpl. auto. Qed.
Lemma sim_weak : forall A B (V W : A -> B -> Prop) m m', sim V m m' -> (forall a b, V a b -> W a b) -> sim W m m'.
Proof.
  intros A B V W m m' H Hw s t Hr. destruct (H s t Hr) as [G1 G2]. split; auto.
  destruct (fst (m s)), (fst (m' t)); simpl in *; auto.
Qed.
End Sim.
Lemma vrel_eq : forall E A (r : outcome E A), vrel eq r r.
Proof. intros E A []; simpl; auto. Qed.
Lemma vrel_eq_inv : forall E A (r r' : outcome E A), vrel eq r r' -> r = r'.
Proof. intros E A [] [] H; simpl in H; subst; auto; contradiction. Qed.
