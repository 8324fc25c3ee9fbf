(** * Checkpoint files (/repo/src/checkpoint.rs) over a model of one directory

    The directory is an association list from file names (bytes) to contents.  It holds
    regular files only and exists once a manager was created.  Each operation consults the
    environment for its outcome ([e_io]), indexed by a counter. *)
From Coq Require Import ZArith NArith List Bool Arith Ascii String.
From Verif Require Import F64 Base Builders Types Runner Observer Env Codec.
Import ListNotations.
Local Open Scope monad_scope.

Definition fname := bytes.
Record disk := mk_disk { d_files : list (fname * bytes); d_tick : nat }.
Definition bytes_eqb (a b : bytes) : bool := if list_eq_dec ascii_dec a b then true else false.
Fixpoint lookup (n : fname) (l : list (fname * bytes)) : option bytes :=
  match l with
  | [] => None
  | (k, v) :: r => if bytes_eqb k n then Some v else lookup n r
  end.
Definition remove_file (n : fname) (l : list (fname * bytes)) : list (fname * bytes) :=
  filter (fun kv => negb (bytes_eqb (fst kv) n)) l.
Definition put_file (n : fname) (c : bytes) (l : list (fname * bytes)) : list (fname * bytes) :=
  remove_file n l ++ [(n, c)].

(** checkpoint.rs 112-153; [CpIo] carries the operation, paths are dropped *)
Inductive cp_error := CpIo (operation : string) | CpSerialization | CpNotFound.

Definition DM (A : Type) := M disk cp_error A.
Definition next_io (E : env) : DM io := fun d => (Ok (e_io E (d_tick d)), mk_disk (d_files d) (S (d_tick d))).
Definition set_files (f : list (fname * bytes) -> list (fname * bytes)) : DM unit :=
  modify (fun d => mk_disk (f (d_files d)) (d_tick d)).

(** [fs::write]: open with truncation, then write all *)
Definition fs_write (E : env) (n : fname) (c : bytes) : DM unit :=
  r <- next_io E ;;
  match r with
  | IoOk => set_files (put_file n c)
  | IoFail => fail (CpIo "write")
  | IoShort k => set_files (put_file n (firstn k c)) ;;; fail (CpIo "write")
  end.
(** [fs::read_dir]: the names in some order *)
Definition fs_read_dir (E : env) : DM (list fname) :=
  r <- next_io E ;;
  match r with
  | IoOk => d <- get ;; ret (map str_bytes (e_dir_order E (d_tick d)
                                (map (fun kv => string_of_list_ascii (fst kv)) (d_files d))))
  | _ => fail (CpIo "read_directory")
  end.
Definition fs_remove (E : env) (n : fname) : DM unit :=
  r <- next_io E ;;
  match r with
  | IoOk => set_files (remove_file n)
  | _ => fail (CpIo "delete")
  end.

(** ** File names *)
Definition digit (n : N) : ascii := ascii_of_N (48 + n).
Fixpoint digits (fuel : nat) (n : N) : bytes :=
  match fuel with
  | O => []
  | S f => if (n <? 10)%N then [digit n] else digits f (n / 10) ++ [digit (n mod 10)]
  end.
(** decimal [Display] of an unsigned integer *)
Definition decimal (n : N) : bytes := digits (S (N.size_nat n)) n.
(** [{:06}] *)
Definition pad6 (b : bytes) : bytes := repeat "0"%char (6 - List.length b) ++ b.
Definition dot_bin : bytes := str_bytes ".bin".
Definition pattern (name : string) : bytes := str_bytes name ++ ["_"%char].
(** checkpoint.rs 234-238 *)
Definition file_name (c : cp_config) (iteration : nat) : fname :=
  if cc_keep_all c then pattern (cc_name c) ++ pad6 (decimal (N.of_nat iteration)) ++ dot_bin
  else str_bytes (cc_name c) ++ dot_bin.

(** [str::parse::<usize>] (64 bit): an optional '+', then at least one digit, no overflow *)
Definition digit_val (c : ascii) : option N :=
  let n := N_of_ascii c in
  if ((48 <=? n)%N && (n <=? 57)%N)%bool then Some (n - 48)%N else None.
Fixpoint parse_digits (acc : N) (s : bytes) : option N :=
  match s with
  | [] => Some acc
  | c :: r => match digit_val c with
              | Some d => let v := (acc * 10 + d)%N in
                          if (v <? u64_mod)%N then parse_digits v r else None
              | None => None
              end
  end.
Definition parse_usize (s : bytes) : option N :=
  let body := match s with c :: r => if Ascii.eqb c "+" then r else s | [] => s end in
  match body with [] => None | _ => parse_digits 0 body end.

Fixpoint starts_with (p s : bytes) : bool :=
  match p, s with
  | [], _ => true
  | a :: p', b :: s' => Ascii.eqb a b && starts_with p' s'
  | _, _ => false
  end.
Definition ends_with (p s : bytes) : bool := starts_with (rev p) (rev s).
(** [&s[a..b]]; [None] is the out-of-range panic *)
Definition slice (a b : nat) (s : bytes) : option bytes :=
  if (a <=? b) && (b <=? List.length s) then Some (firstn (b - a) (skipn a s)) else None.
(** checkpoint.rs 326-329 and 368-371: the iteration a directory entry stands for *)
Definition entry_iteration (name : string) (file : fname) : outcome cp_error (option N) :=
  if valid_utf8 file && starts_with (pattern name) file && ends_with dot_bin file then
    match slice (List.length (pattern name)) (List.length file - 4) file with
    | None => Panic
    | Some s => Ok (parse_usize s)
    end
  else Ok None.

(** ** CheckpointManager *)
(** checkpoint.rs 229-255 *)
Definition save_checkpoint (E : env) (c : cp_config) (cp : checkpoint) (iteration : nat) : DM fname :=
  fs_write E (file_name c iteration) (enc_checkpoint cp) ;;;
  ret (file_name c iteration).

(** the loop of checkpoint.rs 316-337 *)
Fixpoint latest_loop (name : string) (l : list fname) (latest : N) (path : option fname)
    : outcome cp_error (option fname) :=
  match l with
  | [] => Ok path
  | f :: r => match entry_iteration name f with
              | Ok (Some i) => if (latest <? i)%N then latest_loop name r i (Some f)
                               else latest_loop name r latest path
              | Ok None => latest_loop name r latest path
              | Err e => Err e
              | Panic => Panic
              end
  end.
(** checkpoint.rs 306-342 *)
Definition find_latest (E : env) (c : cp_config) : DM fname :=
  entries <- fs_read_dir E ;;
  r <- of_result (latest_loop (cc_name c) entries 0 None) ;;
  match r with Some f => ret f | None => fail CpNotFound end.
(** checkpoint.rs 270-293 and 419-439 *)
Definition load_from_path (E : env) (f : fname) : DM checkpoint :=
  d <- get ;;
  match lookup f (d_files d) with
  | None => fail CpNotFound
  | Some content =>
      r <- next_io E ;;
      match r with
      | IoOk => match decode_checkpoint content with
                | Some cp => ret cp
                | None => fail CpSerialization
                end
      | _ => fail (CpIo "read")
      end
  end.
(** checkpoint.rs 258-267 *)
Definition load_latest (E : env) (c : cp_config) : DM checkpoint :=
  f <- (if cc_keep_all c then find_latest E c else ret (file_name c 0)) ;;
  load_from_path E f.
(** checkpoint.rs 296-303 *)
Definition checkpoint_exists (E : env) (c : cp_config) : DM bool :=
  if cc_keep_all c then
    fun d => match find_latest E c d with
             | (Ok _, d') => (Ok true, d')
             | (Err _, d') => (Ok false, d')
             | (Panic, d') => (Panic, d')
             end
  else d <- get ;; ret (match lookup (file_name c 0) (d_files d) with Some _ => true | None => false end).

(** the loop of checkpoint.rs 357-376 *)
Fixpoint collect_loop (name : string) (l : list fname) : outcome cp_error (list (N * fname)) :=
  match l with
  | [] => Ok []
  | f :: r => match entry_iteration name f with
              | Ok o => match collect_loop name r with
                        | Ok rest => Ok (match o with Some i => (i, f) :: rest | None => rest end)
                        | e => e
                        end
              | Err e => Err e
              | Panic => Panic
              end
  end.
(** [sort_by(|a, b| b.0.cmp(&a.0))]: stable, descending *)
Fixpoint insert_desc (x : N * fname) (l : list (N * fname)) : list (N * fname) :=
  match l with
  | [] => [x]
  | y :: r => if (fst x <? fst y)%N then y :: insert_desc x r else x :: l
  end.
Definition sort_desc (l : list (N * fname)) : list (N * fname) := fold_right insert_desc [] l.
(** checkpoint.rs 345-388 *)
Definition cleanup (E : env) (c : cp_config) (keep : nat) : DM unit :=
  if negb (cc_keep_all c) || (keep =? 0) then ret tt
  else
    entries <- fs_read_dir E ;;
    l <- of_result (collect_loop (cc_name c) entries) ;;
    for_each (skipn keep (sort_desc l)) (fun e => fs_remove E (snd e)).

(** checkpoint.rs 215-226: creating the directory may fail *)
Definition manager_new (E : env) (c : cp_config) : DM cp_config :=
  r <- next_io E ;;
  match r with IoOk => ret c | _ => fail (CpIo "create_directory") end.
