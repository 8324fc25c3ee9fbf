(** * Reading a report (C74)

    What a reader takes from a report, line by line, without knowing how it was made. *)
From Coq Require Import List Bool Arith String.
From Verif Require Import F64 Base Types Report.
Import ListNotations.

(** what is said about one constraint *)
Record said := mk_said {
  said_number : nat;                    (* which constraint *)
  said_description : option string;
  said_check : bool;                    (* a check mark, otherwise a cross *)
  said_value : f64;
  said_violated : option f64 }.         (* "violated by", or None for "satisfied" *)
(** what is said about one solution *)
Record entry := mk_entry {
  en_number : nat;
  en_objectives : list f64;
  en_points : list point;
  en_constraints : list said }.
(** the lines that belong to the solution announced last, and the entries after them *)
Fixpoint reading (l : list line) : entry * list entry :=
  match l with
  | [] => (mk_entry 0 [] [] [], [])
  | x :: r =>
      let '(e, es) := reading r in
      match x with
      | LSolution n => (mk_entry 0 [] [] [], mk_entry n (en_objectives e) (en_points e) (en_constraints e) :: es)
      | LObjective v => (mk_entry 0 (v :: en_objectives e) (en_points e) (en_constraints e), es)
      | LPoint p => (mk_entry 0 (en_objectives e) (p :: en_points e) (en_constraints e), es)
      | LConstraint n d c v w =>
          (mk_entry 0 (en_objectives e) (en_points e) (mk_said n d c v w :: en_constraints e), es)
      | _ => (e, es)
      end
  end.
Definition entries (l : list line) : list entry := snd (reading l).

(** the [i]-th entry describes the [i]-th solution: one number, one value, one point *)
Definition describes (s : solset) (i : nat) (e : entry) : Prop :=
  exists x, nth_error s i = Some x /\ en_number e = S i /\
    en_objectives e = [ls_obj x] /\ en_points e = [ls_point x].
(** the [j]-th line about constraints describes the [j]-th constraint at [x] *)
Definition describes_constraint (P : problem) (descriptions : option (list string)) (x : point) (j : nat) (c : said) : Prop :=
  exists g, nth_error (pb_constraints P) j = Some g /\ said_number c = S j /\ said_value c = g x /\
    said_description c = match descriptions with Some ds => nth_error ds j | None => None end /\
    (said_check c = true <-> fle f0 (g x) = true) /\
    (forall d, said_violated c = Some d <-> flt (g x) f0 = true /\ d = fopp (g x)).
(** the numbers in the head of the report *)
Definition head_of (s : solset) (l : list line) : Prop :=
  (forall n, In (LTotal n) l <-> n = List.length s) /\
  (s <> [] -> exists v, In (LBest v) l) /\
  (forall v, In (LBest v) l -> (exists y, In y s /\ ls_obj y = v) /\
     forall z, In z s -> total_le v (ls_obj z) = true).
