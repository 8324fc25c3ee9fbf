(** * The printed reports of a solution set (/repo/src/types.rs 324-414, 426-450;
    /repo/python/src/lib.rs 343-366)

    A report is a list of lines.  The fixed text and the number format of a line are not
    modelled: a line is its kind and the values that are printed in it. *)
From Coq Require Import ZArith NArith List Bool Arith String.
From Verif Require Import F64 Base Builders Types PyBind.
Import ListNotations.

Inductive line :=
| LTitle                                 (* "Solution Set" *)
| LTotal (n : nat)                       (* "Total solutions: n" *)
| LBest (v : f64)                        (* "Best objective value: v" *)
| LRule                                  (* the line of heavy dashes *)
| LSolution (n : nat)                    (* "Solution #n" *)
| LObjective (v : f64)                   (* "  Objective: v" *)
| LParameters                            (* "  Parameters:" *)
| LPoint (p : point)                     (* the point *)
| LViolations                            (* "  Constraint violations:" *)
| LConstraint (n : nat) (description : option string) (check : bool) (v : f64) (violated_by : option f64)
    (* "    Constraint n [description]: ✓|✗ v (violated by d)|(satisfied)" *)
| LSeparator.                            (* the line of light dashes *)

(** types.rs 332-340 and 429-436: the head of a report *)
Definition report_head (s : solset) : list line :=
  [LTitle; LTotal (List.length s)] ++
  (match s with
   | [] => []
   | _ => match best_solution s with Some b => [LBest (ls_obj b)] | None => [] end
   end) ++ [LRule].
(** types.rs 351-382: one constraint *)
Definition constraint_line (descriptions : option (list string)) (x : point) (jg : nat * (point -> f64)) : line :=
  let '(j, g) := jg in
  let v := g x in
  LConstraint (j + 1)
    (match descriptions with
     | Some ds => if j <? List.length ds then nth_error ds j else None
     | None => None
     end)
    (fge v f0) v
    (if flt v f0 then Some (fopp v) else None).
(** types.rs 342-388: one solution; [n] is the number of solutions *)
Definition solution_lines (cs : list (point -> f64)) (descriptions : option (list string)) (n : nat)
    (is : nat * lsol) : list line :=
  let '(i, s) := is in
  [LSolution (i + 1); LObjective (ls_obj s); LParameters; LPoint (ls_point s)] ++
  (match cs with
   | [] => []
   | _ => LViolations :: map (constraint_line descriptions (ls_point s)) (enumerate cs)
   end) ++
  (if i <? n - 1 then [LSeparator] else []).
(** [SolutionSet::display_with_constraints], types.rs 324-391 *)
Definition display_with_constraints (P : problem) (descriptions : option (list string)) (s : solset) : list line :=
  report_head s ++
  flat_map (solution_lines (pb_constraints P) descriptions (List.length s)) (enumerate s).
(** [Display for SolutionSet], types.rs 427-449 *)
Definition display (s : solset) : list line :=
  report_head s ++
  flat_map (fun is =>
    [LSolution (fst is + 1); LObjective (ls_obj (snd is)); LParameters; LPoint (ls_point (snd is))] ++
    (if fst is <? List.length s - 1 then [LSeparator] else [])) (enumerate s).
(** [SolutionSet::display_with_problem], types.rs 405-414 *)
Definition display_with_problem (P : problem) (s : solset) : list line :=
  match pb_constraints P with
  | [] => display s
  | _ => display_with_constraints P None s
  end.
(** [PySolutionSet.__str__], python lib.rs 343-366 (the label and the point share a line) *)
Definition py_display (s : list lsol) : list line :=
  [LTitle; LRule; LTotal (List.length s)] ++
  (match s with
   | [] => []
   | _ => match py_best s with Some b => [LBest (ls_obj b)] | None => [] end
   end) ++ [LRule] ++
  flat_map (fun is =>
    [LSolution (fst is + 1); LObjective (ls_obj (snd is)); LPoint (ls_point (snd is))] ++
    (if fst is <? List.length s - 1 then [LSeparator] else [])) (enumerate s).
