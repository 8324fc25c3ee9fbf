(** * Specification vocabulary for checkpoints

    Which checkpoint values a Rust program can hold, what a directory entry stands for, and
    histories of saves.  Nothing here mentions the encoding or the code that writes files. *)
From Coq Require Import ZArith NArith List Bool Arith Ascii String Sorted Permutation.
From Verif Require Import F64 Base Builders Types Runner Observer Env Codec Checkpoint.
Import ListNotations.

(** ** Values a Rust checkpoint can hold: 64-bit integers, binary64 floats, UTF-8 strings *)
Definition u64_ok (n : N) : Prop := (n < 2 ^ 64)%N.
Definition usize_ok (n : nat) : Prop := u64_ok (N.of_nat n).
Definition f64_ok (x : f64) : Prop := wf x = true.
Definition option_ok {A} (P : A -> Prop) (o : option A) : Prop :=
  match o with Some a => P a | None => True end.
Definition list_ok {A} (P : A -> Prop) (l : list A) : Prop := usize_ok (List.length l) /\ Forall P l.
Definition point_ok : point -> Prop := list_ok f64_ok.
Definition ls_ok (l : line_search) : Prop :=
  match l with
  | MoreThuente c1 c2 w b => f64_ok c1 /\ f64_ok c2 /\ f64_ok w /\ point_ok b
  | HagerZhang d s e t g n b =>
      f64_ok d /\ f64_ok s /\ f64_ok e /\ f64_ok t /\ f64_ok g /\ f64_ok n /\ point_ok b
  end.
Definition config_ok (c : solver_config) : Prop :=
  match c with
  | CfgLBFGS it tg tc h l1 ls =>
      u64_ok it /\ f64_ok tg /\ f64_ok tc /\ usize_ok h /\ option_ok f64_ok l1 /\ ls_ok ls
  | CfgNelderMead de sd it al ga rh si =>
      f64_ok de /\ f64_ok sd /\ u64_ok it /\ f64_ok al /\ f64_ok ga /\ f64_ok rh /\ f64_ok si
  | CfgSteepestDescent it ls => u64_ok it /\ ls_ok ls
  | CfgTrustRegion _ it r mr eta => u64_ok it /\ f64_ok r /\ f64_ok mr /\ f64_ok eta
  | CfgNewtonCG it cu to ls => u64_ok it /\ f64_ok cu /\ f64_ok to /\ ls_ok ls
  | CfgCOBYLA it st fr fa xr xa =>
      u64_ok it /\ f64_ok st /\ f64_ok fr /\ f64_ok fa /\ f64_ok xr /\ point_ok xa
  end.
Definition params_ok (p : params) : Prop :=
  usize_ok (p_iterations p) /\ usize_ok (p_population p) /\ usize_ok (p_wait_cycle p) /\
  f64_ok (p_threshold_factor p) /\ f64_ok (p_distance_factor p) /\
  config_ok (p_solver_config p) /\ u64_ok (p_seed p).
Definition lsol_ok (s : lsol) : Prop := point_ok (ls_point s) /\ f64_ok (ls_obj s).
Definition string_ok (s : string) : Prop :=
  usize_ok (String.length s) /\ valid_utf8 (str_bytes s) = true.
Definition checkpoint_ok (c : checkpoint) : Prop :=
  params_ok (cp_params c) /\ usize_ok (cp_iteration c) /\ f64_ok (cp_threshold c) /\
  option_ok (list_ok lsol_ok) (cp_solution_set c) /\ list_ok point_ok (cp_reference_set c) /\
  usize_ok (cp_unchanged c) /\ f64_ok (cp_elapsed c) /\ list_ok lsol_ok (cp_df_solutions c) /\
  u64_ok (cp_seed c) /\ option_ok f64_ok (cp_target c) /\ option_ok usize_ok (cp_batch c) /\
  f64_ok (cp_abs_tol c) /\ f64_ok (cp_rel_tol c) /\ string_ok (cp_timestamp c).

(** ** Directory entries *)
Definition is_digit (c : ascii) : Prop := (48 <= N_of_ascii c <= 57)%N.
Definition digits_value (d : bytes) : N :=
  fold_left (fun a c => a * 10 + (N_of_ascii c - 48))%N d 0%N.
(** [f] is "{name}_{number}.bin" for a decimal number [i] that fits in a usize; leading
    zeros and a leading '+' are allowed *)
Definition stands_for (name : string) (f : fname) (i : N) : Prop :=
  exists s d, f = str_bytes name ++ ["_"%char] ++ s ++ str_bytes ".bin" /\
    (s = d \/ s = "+"%char :: d) /\ d <> [] /\ Forall is_digit d /\
    digits_value d = i /\ (i < 2 ^ 64)%N.
Definition content (d : disk) (f : fname) : option bytes := lookup f (d_files d).
Definition present (d : disk) (f : fname) : Prop := content d f <> None.
(** no two files of the directory stand for the same iteration of [name] *)
Definition distinct_iterations (name : string) (d : disk) : Prop :=
  forall f g i, present d f -> present d g -> stands_for name f i -> stands_for name g i -> f = g.
Definition string_utf8 (s : string) : Prop := valid_utf8 (str_bytes s) = true.

(** ** The environment *)
Definition io_works (E : env) : Prop := forall t, e_io E t = IoOk.
Definition lists_all (E : env) : Prop := forall t l, Permutation (e_dir_order E t l) l.

(** ** Histories: saves by a manager with configuration [c], and anything other programs do
    to other files of the directory *)
Inductive op :=
| Save (cp : checkpoint) (iteration : nat)
| Write (f : fname) (b : bytes)
| Delete (f : fname).
Definition apply_op (E : env) (c : cp_config) (d : disk) (o : op) : disk :=
  match o with
  | Save cp i => snd (save_checkpoint E c cp i d)
  | Write f b => mk_disk (put_file f b (d_files d)) (d_tick d)
  | Delete f => mk_disk (remove_file f (d_files d)) (d_tick d)
  end.
Definition apply_ops (E : env) (c : cp_config) (d : disk) (h : list op) : disk := fold_left (apply_op E c) h d.
(** operations of other programs keep away from the files of checkpoint name [c] *)
Definition keeps_away (c : cp_config) (o : op) : Prop :=
  match o with
  | Save _ _ => True
  | Write f _ | Delete f =>
      f <> str_bytes (cc_name c) ++ str_bytes ".bin" /\ forall i, ~ stands_for (cc_name c) f i
  end.
Definition no_save (o : op) : Prop := match o with Save _ _ => False | _ => True end.
Definition saves_below (n : nat) (o : op) : Prop := match o with Save _ i => i < n | _ => True end.
Definition saves_up_to (n : nat) (o : op) : Prop := match o with Save _ i => i <= n | _ => True end.
