(** * Which derivatives a run uses (C102)

    Statements and examples; the proofs are lemmas of DerivP.v. *)
From Coq Require Import ZArith NArith List Bool Arith Lia String.
From Verif Require Import F64 Base Builders Types Filters Runner Observer Env EnvSpec ScatterSearch Codec Checkpoint
  Oqnlp Spec SpecStage1 SpecStage2 SpecObserver SpecCheckpoint SpecSession SpecDeriv
  DerivP Demo Demo2 DemoCp DemoSession.
Import ListNotations.

(** an argmin whose gradient solvers return the gradient at the starting point and whose
    Hessian solvers return the first row of the Hessian *)
Definition eager : ext := mk_ext (fun _ => true)
  (fun P j =>
     let grad x := match pb_gradient P x with inl y => XDone (Some y) f0 1%N | inr e => XFail e end in
     let hess x := match pb_hessian P x with inl (y :: _) => XDone (Some y) f0 1%N | inl [] => XDone None f0 1%N | inr e => XFail e end in
     match j with
     | JLBFGS _ _ _ _ _ x _ => grad x
     | JNelderMead _ _ _ _ _ _ _ => match pb_objective P [f1] with inl v => XDone (Some [v]) v 1%N | inr e => XFail e end
     | JSteepestDescent _ x _ => grad x
     | JTrustRegion _ _ _ _ x _ => hess x
     | JNewtonCG _ _ _ x _ => hess x
     end)
  (fun j => XDone (cj_x0 j) (cj_objective j (cj_x0 j)) 3%N).
Lemma eager_asks : asks_only eager.
Proof. intros P g h j Hg Hh. destruct j; cbn in *; try rewrite (Hg eq_refl); try rewrite (Hh eq_refl); reflexivity. Qed.
Definition no_gradient : point -> point + N := fun _ => inr 2%N.
Definition no_hessian : point -> list point + N := fun _ => inr 3%N.
Definition slope : point -> point + N := fun x => inl (map (fun v => fadd v f1) x).
Definition sloped (g : point -> point + N) : env := demo_env (with_derivatives g no_hessian two_wells) eager.
Definition descent_oqnlp : oqnlp :=
  made (mk_params 6 6 1 (of_Z 20) (lit 75 100) SteepestDescent (sd_build sd_default) 3).

(** C102: a run does not depend on derivatives that its local solvers do not use.  If none of
    the solvers named in the session uses gradients ([G = false]), the problem's gradient may be
    any function, for instance the default one that fails; the same for Hessians ([H]). *)
Theorem C102_run : forall G H p l s0 s E E', begins p s0 -> solver_within G H p -> session l s0 s ->
  Forall (call_within G H) l -> saves_fit s -> same_but_derivatives G H E E' -> run E' s = run E s.
Proof. exact c102_run. Qed.
Print Assumptions C102_run.
(** steepest descent runs without a Hessian; without its gradient it fails *)
Example C102_run_case :
  run (sloped slope) (start_state descent_oqnlp) =
    run (env_with (with_derivatives slope (fun x => inl [x]) (e_problem (sloped slope))) (sloped slope)) (start_state descent_oqnlp) /\
  (exists x, fst (run (sloped slope) (start_state descent_oqnlp)) = Ok x) /\
  fst (run (sloped no_gradient) (start_state descent_oqnlp)) = Err (LocalSolverError (RunFailed (RRun 2))).
Proof.
  split; [symmetry|split].
  - refine (C102_run true false (o_params descent_oqnlp) [] (start_state descent_oqnlp) _ (sloped slope) _ _ _ (SNil _) (Forall_nil _) _ _).
    + split; [reflexivity|]. split; [reflexivity|]. intros f b cp [].
    + split; [reflexivity|discriminate].
    + intros f cp [].
    + split; [exact eager_asks|]. exists slope, (fun x => inl [x]). split; [reflexivity|]. split; [reflexivity|discriminate].
  - eexists. vm_compute. reflexivity.
  - vm_compute. reflexivity.
Qed.
(** and so does no history of calls: it leads to the same state of the optimizer, files and record *)
Theorem C102_session : forall G H p l l' s0 s, begins p s0 -> solver_within G H p -> session l s0 s ->
  Forall (call_within G H) l -> saves_fit s ->
  Forall2 (fun a b => same_but_derivatives G H (fst a) (fst b) /\ snd a = snd b) l l' -> session l' s0 s.
Proof. exact c102_session. Qed.
Print Assumptions C102_session.
(** the session of DemoSession.v, which uses COBYLA, on a problem without derivatives *)
Example C102_session_case :
  session (map (fun ec => (env_with (with_derivatives no_gradient no_hessian two_wells) wells_env, snd ec)) demo_calls) (start_state demo_oqnlp) st_f.
Proof.
  refine (C102_session false false demo_params demo_calls _ (start_state demo_oqnlp) st_f demo_begins _ demo_session _ demo_fit _).
  - split; discriminate.
  - unfold demo_calls, map. repeat (constructor; [first [exact I|split; discriminate]|]). constructor.
  - unfold demo_calls, map. repeat (constructor; [split; [|reflexivity]; split; [intros P g h j _ _; reflexivity|
      exists no_gradient, no_hessian; split; [reflexivity|split; discriminate]]|]). constructor.
Qed.
