(** * Concrete Stage 1 runs used by the examples and counterexamples *)
From Coq Require Import ZArith NArith List Bool Arith String.
From Verif Require Import F64 Base Builders Types Runner Observer Env EnvSpec ScatterSearch SpecStage1 Demo.
Import ListNotations.

Definition first_coordinate (p : point) : f64 := match p with x :: _ => x | [] => f0 end.
Definition params_for (pop : nat) : params := mk_params 6 pop 1 (of_Z 20) (lit 75 100) COBYLA (cb_build cb_default) 3.
(** a [ScatterSearch] for the problem, in parallel mode or not, with custom points *)
Definition search (E : env) (pop : nat) (par : bool) (custom : list point) : ss :=
  match ss_new E (params_for pop) 0 with
  | Ok s => ss_set_custom custom (ss_set_parallel par s)
  | _ => mk_ss (params_for pop) [] [] [] [] 0 par None None 0 []
  end.
(** f(x, y) = x + y on [-1, 1] x [0, 4] where x >= -1/2 *)
Definition plane : problem :=
  mk_problem (fun p => match p with [x; y] => inl (fadd x y) | _ => inr 7%N end)
    (fun _ => inr 1%N) (fun _ => inr 1%N) [(of_Z (-1), of_Z 1); (f0, of_Z 4)]
    [fun p => fadd (first_coordinate p) (lit 1 2)].
Definition plane_env : env := demo_env plane to_well.
Definition plane_search : ss := search plane_env 8 true [[lit 1 2; f1]].
(** no point is feasible *)
Definition nowhere : problem :=
  mk_problem (fun _ => inl f0) (fun _ => inr 1%N) (fun _ => inr 1%N) [(f0, f1)] [fun _ => fopp f1].
Definition nowhere_env : env := demo_env nowhere to_well.
(** f(x) = 0 on an interval *)
Definition flat (b : f64 * f64) : problem :=
  mk_problem (fun _ => inl f0) (fun _ => inr 1%N) (fun _ => inr 1%N) [b] [].
(** [1.5e308, 1.7e308]: the width is finite, the sum is not *)
Definition huge : f64 * f64 := (of_Z (15 * 10 ^ 307), of_Z (17 * 10 ^ 307)).
Definition huge_env : env := demo_env (flat huge) to_well.
Definition flat_env : env := demo_env (flat (f0, f1)) to_well.
(** [0, 1e-8]: all points are closer than 1e-7 to each other *)
Definition tiny_env : env := demo_env (flat (f0, lit_1e_8)) to_well.
(** f(x) = x on [0, 8], with members chosen so that the threshold of the first three
    distances depends on the order of summation *)
Definition slope : problem :=
  mk_problem (fun p => inl (first_coordinate p)) (fun _ => inr 1%N) (fun _ => inr 1%N) [(f0, of_Z 8)] [].
Definition slope_env : env := demo_env slope to_well.
Definition slope_search : ss :=
  search slope_env 9 true
    [[lit 573 512]; [lit 8013163056127057 (2 ^ 52)]; [lit 5836136342240017 (2 ^ 51)]; [of_Z 5]; [of_Z 6]; [of_Z 7]].
Definition other_schedule (c : list nat) : stree := SNode 1 SLeaf SLeaf.

Lemma search_built : forall E pop par custom, match ss_new E (params_for pop) 0 with Ok _ => true | _ => false end = true ->
  built E (params_for pop) (search E pop par custom).
Proof.
  intros E pop par custom H. unfold search. destruct (ss_new E (params_for pop) 0) as [s|e|] eqn:Hn; try discriminate.
  apply built_custom, built_parallel. eapply built_new. exact Hn.
Qed.
(** how the examples state facts about a concrete run *)
Definition returns (x : outcome ss_error (list (point * f64) * point) * ss) (f : list (point * f64) -> bool) : bool :=
  match fst x with Ok (l, _) => f l | _ => false end.
Lemma returns_case : forall x f, returns x f = true -> exists pts best s', x = (Ok (pts, best), s') /\ f pts = true.
Proof. intros [[[l b]|e|] s'] f H; try discriminate. exists l, b, s'. auto. Qed.
(** the set of values that a run returns *)
Definition values_are (vs : list f64) (l : list (point * f64)) : bool :=
  (List.length l =? List.length vs) && forallb (fun ab => feq (fst ab) (snd ab)) (combine vs (map snd l)).
