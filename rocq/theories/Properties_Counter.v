(** * What unchanged_cycles counts (C36, continued from Properties_Stage2.v)

    Statement only; the proof is a lemma of CounterP.v. *)
From Coq Require Import ZArith NArith List Bool Arith Lia String.
From Verif Require Import F64 Base Builders Types Filters Runner Observer Env EnvSpec ScatterSearch Codec
  Checkpoint Oqnlp Spec SpecStage2 Demo Demo2 DemoStage1 Properties_Stage2 Properties_Observer CounterP.
Import ListNotations.

(** In sequential mode the counter is the number of candidates rejected so far, those before the
    checkpoint that the run resumed from included, modulo the wait cycle: so is it at every
    decision; and at every callback of an iteration the observer shows the counter with which
    that iteration began.  So it counts consecutive rejections as long as no candidate is
    accepted.  Missing: the reset when the solution set improves, which the code does not do
    (C36_no_reset_refuted). *)
Theorem C36_counter_partial : forall E s r s' new, run E s = (r, s') -> recorded s s' new -> o_parallel (s_o s') = false ->
  checkpoints_hold (fun cp => cp_unchanged cp < Nat.max 1 (p_wait_cycle (cp_params cp))) s ->
  exists u0, initial_counter s u0 /\
    (forall l1 i q v o b l2, new = l1 ++ EvDecide i q v o b :: l2 -> o_unchanged o = (u0 + rejections l2) mod cycle (s_o s')) /\
    (forall l1 i ob st l2, new = l1 ++ EvCallback (Some i) ob :: l2 -> ob_mode ob <> Stage1Only -> ob_stage2 ob = Some st ->
       exists m l3, l2 = m ++ EvIteration i :: l3 /\ begun m = [] /\ s2_unchanged st = (u0 + rejections l3) mod cycle (s_o s')).
Proof. exact c36. Qed.
Print Assumptions C36_counter_partial.
(** wait cycle 2, the third of six candidates is accepted *)
Definition counting : oqnlp := watched 1 (sequential (made (with_wait 2 demo_params))).
Example C36_counter_case :
  o_parallel (s_o (state_of wells_env counting)) = false /\ checkpoints_hold (fun _ => False) (start_state counting) /\
  flat_map (fun e => match e with EvDecide _ _ _ o b => [(o_unchanged o, b)] | _ => [] end) (rev (record_of wells_env counting))
    = [(0, false); (1, false); (0, true); (0, false); (1, false); (0, false)] /\
  flat_map (fun e => match e with EvCallback (Some i) ob => [option_map s2_unchanged (ob_stage2 ob)] | _ => [] end) (rev (record_of wells_env counting))
    = [Some 0; Some 1; Some 0; Some 0; Some 1; Some 0].
Proof. split; [vm_compute; reflexivity|]. split; [intros f c cp []|]. split; vm_compute; reflexivity. Qed.
