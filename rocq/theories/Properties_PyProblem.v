(** * What the optimizer sees of a Python problem (C75) *)
From Coq Require Import ZArith NArith List Bool Arith Lia.
From Verif Require Import F64 Base Types PyBind SpecPyBind PyBindP PyProblem.
Import ListNotations.

(** the box that a list of rows declares: row [i] is the lower and the upper bound of
    variable [i] *)
Definition declares (rows : list (list f64)) (box : list (f64 * f64)) : Prop :=
  rows = map (fun b => [fst b; snd b]) box.

(** C75 in full, for the bounds: a problem is either seen with the box its rows declare or
    rejected with an error. *)
Definition C75_bounds_full : Prop := forall (p : py_functions) rows, pf_bounds p = Some rows ->
  match py_problem p with
  | Ok P => declares rows (pb_bounds P)
  | Err _ => True
  | Panic => False
  end.
Definition with_bounds (l : list (list f64)) : py_functions := mk_pyf (fun _ => Some f0) (Some l) None None.
(** three variables with bounds [0, 1], [2] and [0, 1, 2]: seen as [0, 1], [2, 0], [1, 2] *)
Definition ragged_bounds : list (list f64) := [[f0; f1]; [f2]; [f0; f1; f2]].
Theorem C75_ragged_bounds_refuted : ~ C75_bounds_full /\
  exists P, py_problem (with_bounds ragged_bounds) = Ok P /\ pb_bounds P = [(f0, f1); (f2, f0); (f1, f2)].
Proof.
  split.
  - intro H. specialize (H (with_bounds ragged_bounds) _ eq_refl). vm_compute in H. discriminate H.
  - eexists. split; reflexivity.
Qed.
Print Assumptions C75_ragged_bounds_refuted.
(** and bounds of the wrong shape are a panic, not the documented ValueError *)
Theorem C75_panic_refuted : ~ (forall p, py_problem p <> Panic).
Proof. intro H. apply (H (with_bounds [[f0; f1]; [f2]])). reflexivity. Qed.
Print Assumptions C75_panic_refuted.

(** C75 for bounds: which rows are accepted, and as which box.  Rows of two numbers are
    accepted as declared; in every case the box has one interval for every row. *)
Theorem C75_bounds_partial : forall (p : py_functions) rows, pf_bounds p = Some rows ->
  (forall box, box <> [] -> declares rows box -> exists P, py_problem p = Ok P /\ pb_bounds P = box) /\
  (forall P, py_problem p = Ok P -> List.length (pb_bounds P) = List.length rows /\
     (rectangular rows -> forall i r, nth_error rows i = Some r ->
        exists lo hi rest, r = lo :: hi :: rest /\ nth_error (pb_bounds P) i = Some (lo, hi))) /\
  (py_problem p = Panic <->
     List.length (hd [] rows) < 2 \/ List.length (List.concat rows) <> List.length rows * List.length (hd [] rows)).
Proof.
  intros p rows Hp. unfold py_problem, py_box, py_variable_bounds. rewrite Hp. split; [|split].
  - intros box Hne Hd. unfold declares in Hd.
    assert (R : rectangular rows).
    { intros r r' Hr Hr'. rewrite Hd in Hr, Hr'. apply in_map_iff in Hr as (b & <- & _). apply in_map_iff in Hr' as (b' & <- & _). reflexivity. }
    rewrite (points_rectangular _ R). destruct box as [|b box]; [congruence|].
    eexists. split; [rewrite Hd; reflexivity|]. cbn [pb_bounds]. rewrite map_map. cbn [nth]. rewrite <- (map_id (b :: box)) at 2. apply map_ext. intros [? ?]; reflexivity.
  - intros P HP. destruct (points_array rows) as [m|] eqn:Em; [|discriminate].
    destruct (_ <? 2) eqn:Ec; [discriminate|]. injection HP as <-. cbn [pb_bounds]. rewrite map_length.
    split; [apply recut_iff in Em; apply Em|]. intros R i r Hi. rewrite (points_rectangular _ R) in Em. injection Em as <-.
    apply Nat.ltb_ge in Ec.
    assert (Hl : 2 <= List.length r).
    { destruct rows as [|r0 rows]; [destruct i; discriminate|]. rewrite (R r r0); [exact Ec|eapply nth_error_In; eauto|left; auto]. }
    destruct r as [|lo [|hi rest]]; simpl in Hl; try lia. exists lo, hi, rest. split; auto.
    rewrite nth_error_map, Hi. reflexivity.
  - assert (Q : match rows with r :: _ => List.length r | [] => 0 end = List.length (hd [] rows)) by (destruct rows; reflexivity).
    unfold points_array. cbv zeta. rewrite Q. set (c := List.length (hd [] rows)) in *.
    destruct (Nat.eqb_spec (List.length (List.concat rows)) (List.length rows * c)) as [N|N].
    + assert (Hc : match rows_of (List.length rows) c (List.concat rows) with r :: _ => List.length r | [] => 0 end = c).
      { destruct (rows_of_lengths c _ _ N) as (A & B & C). destruct (rows_of _ _ _) as [|r l] eqn:E.
        - destruct rows; [subst c; reflexivity|discriminate A].
        - apply C. left; auto. }
      cbv zeta. match goal with |- context[?a <? 2] => replace a with c by (symmetry; exact Hc) end. destruct (Nat.ltb_spec c 2); split; auto; try discriminate. intros [K|K]; [lia|contradiction].
    + split; auto.
Qed.
Print Assumptions C75_bounds_partial.
Example C75_example_bounds : declares [[f0; f1]; [f1; f2]] [(f0, f1); (f1, f2)] /\
  exists P, py_problem (with_bounds [[f0; f1]; [f1; f2]]) = Ok P /\ pb_bounds P = [(f0, f1); (f1, f2)].
Proof. split; [reflexivity|]. eexists. split; reflexivity. Qed.

(** C75 for the functions: the value the Python function gives is the value the optimizer
    sees; an exception, or a value of another type, is an evaluation error; a function that
    was not given is reported as such, and no two of these are confused. *)
Theorem C75_functions : forall p P x, py_problem p = Ok P ->
  (forall v, pb_objective P x = inl v <-> pf_objective p x = Some v) /\
  (pf_objective p x = None -> pb_objective P x = inr invalid_input) /\
  (forall v, pb_gradient P x = inl v <-> exists g, pf_gradient p = Some g /\ g x = Some v) /\
  (pb_gradient P x = inr gradient_not_implemented <-> pf_gradient p = None) /\
  (pb_gradient P x = inr invalid_input <-> exists g, pf_gradient p = Some g /\ g x = None) /\
  (pb_hessian P x = inr hessian_not_implemented <-> pf_hessian p = None).
Proof.
  intros p P x HP. unfold py_problem in HP. destruct (py_box p); try discriminate. injection HP as <-.
  cbn [pb_objective pb_gradient pb_hessian]. unfold py_objective, py_gradient, py_hessian.
  repeat split; intros;
    repeat match goal with
    | H : exists _, _ |- _ => destruct H
    | H : _ /\ _ |- _ => destruct H
    | H : Some _ = Some _ |- _ => injection H as <-
    end; subst;
    repeat match goal with
    | H : pf_gradient p = _ |- _ => rewrite H in *
    | H : pf_hessian p = _ |- _ => rewrite H in *
    | H : pf_objective p x = _ |- _ => rewrite H in *
    | H : ?g x = _ |- context[?g x] => rewrite H
    end; auto;
    repeat match goal with
    | H : context[match pf_objective p x with _ => _ end] |- _ => destruct (pf_objective p x) eqn:?
    | H : context[match pf_gradient p with _ => _ end] |- _ => destruct (pf_gradient p) eqn:?
    | H : context[match pf_hessian p with _ => _ end] |- _ => destruct (pf_hessian p) eqn:?
    | H : context[match ?g x with _ => _ end] |- _ => destruct (g x) eqn:?
    | H : context[if ?b then _ else _] |- _ => destruct b eqn:?
    end; try discriminate; try congruence; eauto.
  injection H as <-. eauto.
Qed.
Print Assumptions C75_functions.

(** C75 in full, for the Hessian: a matrix that is accepted is the one given. *)
Definition C75_hessian_full : Prop := forall p x h m H, pf_hessian p = Some h -> h x = Some m ->
  py_hessian p x = inl H -> H = m.
Definition ragged_hessian : list (list f64) := [[f0]; [f1; f2; f0]].
Theorem C75_ragged_hessian_refuted : ~ C75_hessian_full.
Proof.
  intro H.
  specialize (H (mk_pyf (fun _ => Some f0) None None (Some (fun _ => Some ragged_hessian))) [] _ _ [[f0; f1]; [f2; f0]] eq_refl eq_refl eq_refl).
  discriminate H.
Qed.
Print Assumptions C75_ragged_hessian_refuted.
(** Proved: rows of equal length are accepted as given if the matrix is square, and are an
    evaluation error otherwise.  Missing: rows of unequal length. *)
Theorem C75_hessian_partial : forall p x h m, pf_hessian p = Some h -> h x = Some m -> rectangular m ->
  (forall r, In r m -> List.length r = List.length m) /\ py_hessian p x = inl m \/
  (exists r, In r m /\ List.length r <> List.length m) /\ py_hessian p x = inr invalid_input.
Proof.
  intros p x h m Hh Hm R. unfold py_hessian. rewrite Hh, Hm. destruct m as [|r m].
  - left. split; [intros ? []|reflexivity].
  - assert (Hl : forall q, In q (r :: m) -> List.length q = List.length r) by (intros q Hq; apply R; [auto|left; auto]).
    rewrite (concat_length _ _ Hl). destruct (Nat.eq_dec (List.length r) (List.length (r :: m))) as [E|E].
    + left. split; [intros q Hq; rewrite (Hl _ Hq); exact E|]. rewrite E, Nat.eqb_refl.
      rewrite (rows_of_concat (r :: m) _); auto. intros q Hq. rewrite (Hl _ Hq). exact E.
    + right. split; [exists r; split; [left|]; auto|].
      destruct (Nat.eqb_spec (List.length (r :: m) * List.length r) (List.length (r :: m) * List.length (r :: m))) as [K|K]; auto.
      apply Nat.mul_cancel_l in K; [contradiction|simpl; lia].
Qed.
Print Assumptions C75_hessian_partial.
Example C75_example_hessian :
  let m := [[f0; f1]; [f1; f2]] in rectangular m /\
  py_hessian (mk_pyf (fun _ => Some f0) None None (Some (fun _ => Some m))) [f0; f0] = inl m /\
  py_hessian (mk_pyf (fun _ => Some f0) None None (Some (fun _ => Some [[f0; f1]]))) [f0; f0] = inr invalid_input.
Proof. repeat split. intros r r' [<-|[<-|[]]] [<-|[<-|[]]]; reflexivity. Qed.

(** The documentation of the attributes (lib.rs 484 and 491) promises an error for a gradient or
    Hessian whose size is not the number of variables. *)
Definition C75_sizes_full : Prop := forall p P x, py_problem p = Ok P -> List.length x = List.length (pb_bounds P) ->
  (forall g, pb_gradient P x = inl g -> List.length g = List.length x) /\
  (forall H, pb_hessian P x = inl H -> List.length H = List.length x).
Theorem C75_sizes_refuted : ~ C75_sizes_full.
Proof.
  intro H.
  destruct (H (mk_pyf (fun _ => Some f0) (Some [[f0; f1]; [f0; f1]]) (Some (fun _ => Some [f0])) (Some (fun _ => Some [[f0]]))) _ [f0; f0] eq_refl eq_refl) as [G _].
  specialize (G [f0] eq_refl). discriminate G.
Qed.
Print Assumptions C75_sizes_refuted.
