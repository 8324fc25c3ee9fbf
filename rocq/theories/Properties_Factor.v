(** * Another threshold factor (C111)

    Statements only; the proofs are lemmas of FactorP.v. *)
From Coq Require Import ZArith NArith List Bool Arith Lia String.
From Verif Require Import F64 Base Builders Types Filters Runner Observer Env EnvSpec ScatterSearch Codec
  Checkpoint Oqnlp Spec SpecStage2 SpecObserver SpecMore SpecFactor Actions MoreP FactorP Demo Demo2 Properties_Stage2 Properties_More.
Import ListNotations.

(** C111: in sequential and in parallel mode, with and without resuming, two programs that
    differ in the threshold factor only do the same, in the same order, up to the first
    relaxation of the threshold, which both make at the same point (records are latest first); *)
Theorem C111_until_relaxed : forall E g s rA sA na rB sB nb,
  run E s = (rA, sA) -> recorded s sA na -> run E (factored_state g s) = (rB, sB) -> recorded (factored_state g s) sB nb ->
  (rB = rA /\ moved nb = moved na) \/
  (exists after v before after' v', na = after ++ EvRelax v :: before /\ moved nb = after' ++ EvRelax v' :: moved before).
Proof. exact c111_until. Qed.
Print Assumptions C111_until_relaxed.
(** and if the threshold is never relaxed, they end in the same way. *)
Theorem C111_same : forall E g s rA sA na rB sB nb,
  run E s = (rA, sA) -> recorded s sA na -> run E (factored_state g s) = (rB, sB) -> recorded (factored_state g s) sB nb ->
  (forall v, ~ In (EvRelax v) na) -> rB = rA /\ moved nb = moved na.
Proof. exact c111_same. Qed.
Print Assumptions C111_same.

(** Two at a time, a wait cycle of 1, and threshold factors 1 and 2: a rejected candidate is
    followed by another threshold. *)
Definition six_with (wait : nat) (f : f64) : oqnlp := batch_iterations 2 (made (mk_params 6 6 wait f (lit 75 100) COBYLA (cb_build cb_default) 9)).
Definition relaxes (l : list event) : list f64 := flat_map (fun e => match e with EvRelax v => [v] | _ => [] end) l.
Lemma relaxes_in l : relaxes l = [] -> forall v, ~ In (EvRelax v) l.
Proof. intros H v Hv. assert (K : In v (relaxes l)) by (apply in_flat_map; exists (EvRelax v); split; [exact Hv|left; reflexivity]). rewrite H in K. exact K. Qed.
Example C111_relaxed_case : relaxes (record_of slanted_env (six_with 1 f1)) <> [] /\
  exists after v before after' v', record_of slanted_env (six_with 1 f1) = after ++ EvRelax v :: before /\
    moved (record_of slanted_env (six_with 1 f2)) = after' ++ EvRelax v' :: moved before.
Proof.
  pose proof (run_pair slanted_env (six_with 1 f1)) as P1. pose proof (run_pair slanted_env (six_with 1 f2)) as P2.
  pose proof (record_recorded slanted_env (six_with 1 f2)) as Q2.
  assert (A : start_state (six_with 1 f2) = factored_state f2 (start_state (six_with 1 f1))) by reflexivity.
  rewrite A in P2, Q2.
  assert (X : (match relaxes (record_of slanted_env (six_with 1 f1)), relaxes (moved (record_of slanted_env (six_with 1 f1))), relaxes (moved (record_of slanted_env (six_with 1 f2))) with
    | _ :: _, a :: _, b :: _ => negb (feq a b) && feq a a | _, _, _ => false end) = true) by (vm_compute; reflexivity).
  split; [intro H; rewrite H in X; discriminate X|].
  destruct (C111_until_relaxed slanted_env f2 (start_state (six_with 1 f1)) _ _ _ _ _ _ P1 (record_recorded slanted_env (six_with 1 f1)) P2 Q2) as [[_ H]|H].
  - exfalso. rewrite H in X. destruct (relaxes (record_of slanted_env (six_with 1 f1))); [discriminate X|].
    destruct (relaxes (moved _)) as [|a ?]; [discriminate X|]. destruct (feq a a); discriminate X.
  - exact H.
Qed.
(** With a wait cycle of 7 the threshold is never relaxed. *)
Example C111_same_case : (exists set, result_of slanted_env (six_with 7 f2) = Ok set /\ result_of slanted_env (six_with 7 f1) = Ok set) /\
  moved (record_of slanted_env (six_with 7 f2)) = moved (record_of slanted_env (six_with 7 f1)).
Proof.
  assert (R : exists set, result_of slanted_env (six_with 7 f1) = Ok set).
  { assert (X : (match result_of slanted_env (six_with 7 f1) with Ok _ => true | _ => false end) = true) by (vm_compute; reflexivity).
    destruct (result_of slanted_env (six_with 7 f1)) as [set| |]; [exists set; reflexivity|discriminate X..]. }
  destruct R as [set R].
  pose proof (run_pair slanted_env (six_with 7 f1)) as P1. rewrite R in P1. pose proof (run_pair slanted_env (six_with 7 f2)) as P2.
  pose proof (record_recorded slanted_env (six_with 7 f2)) as Q2.
  assert (A : start_state (six_with 7 f2) = factored_state f2 (start_state (six_with 7 f1))) by reflexivity.
  rewrite A in P2, Q2.
  assert (X : relaxes (record_of slanted_env (six_with 7 f1)) = []) by (vm_compute; reflexivity).
  destruct (C111_same slanted_env f2 (start_state (six_with 7 f1)) _ _ _ _ _ _ P1 (record_recorded slanted_env (six_with 7 f1)) P2 Q2) as [H1 H2].
  - exact (relaxes_in _ X).
  - split; [exists set; split; [exact H1|exact R]|exact H2].
Qed.
