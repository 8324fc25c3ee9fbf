(** * Checkpoint contents and their binary encoding
    (/repo/src/types.rs 592-725 with bincode's legacy configuration and ndarray's serde
    format, as used by /repo/src/checkpoint.rs 241-252 and 278-290).

    bincode legacy: little endian, fixed width; [usize] and lengths are u64; enum tags are
    u32; [Option] is a 0/1 byte; [bool] is a 0/1 byte; a struct is its fields in order. *)
From Coq Require Import ZArith NArith List Bool Ascii String Floats.SpecFloat.
From Verif Require Import F64 Base Builders Types.
Import ListNotations.

(** [OQNLPCheckpoint], types.rs 642-699 (features checkpointing and rayon on) *)
Record checkpoint := mk_cp {
  cp_params : params;
  cp_iteration : nat;
  cp_threshold : f64;
  cp_solution_set : option solset;
  cp_reference_set : list point;
  cp_unchanged : nat;
  cp_elapsed : f64;
  cp_df_solutions : list lsol;
  cp_seed : N;
  cp_target : option f64;
  cp_exclude_oob : bool;
  cp_batch : option nat;
  cp_parallel : bool;
  cp_abs_tol : f64;
  cp_rel_tol : f64;
  cp_timestamp : string }.

(** [CheckpointConfig], types.rs 601-616.  The directory is the model's file system. *)
Record cp_config := mk_cpc {
  cc_name : string;
  cc_save_frequency : nat;
  cc_keep_all : bool;
  cc_auto_resume : bool }.
(** types.rs 619-629 *)
Definition cp_config_default : cp_config := mk_cpc "oqnlp_checkpoint" 25 false true.

Definition bytes := list ascii.
Definition parser (A : Type) := bytes -> option (A * bytes).
Definition pret {A} (a : A) : parser A := fun s => Some (a, s).
Definition pfail {A} : parser A := fun _ => None.
Definition pbind {A B} (p : parser A) (f : A -> parser B) : parser B :=
  fun s => match p s with None => None | Some (a, r) => f a r end.
Declare Scope parser_scope.
Notation "x <~ p ;; k" := (pbind p (fun x => k))
  (at level 61, p at next level, right associativity) : parser_scope.
Local Open Scope parser_scope.

(** ** Integers, little endian *)
Fixpoint enc_le (k : nat) (n : N) : bytes :=
  match k with
  | O => []
  | S k' => ascii_of_N (n mod 256) :: enc_le k' (n / 256)
  end.
Fixpoint dec_le (k : nat) : parser N :=
  match k with
  | O => pret 0%N
  | S k' => fun s => match s with
                     | [] => None
                     | c :: r => (n <~ dec_le k' ;; pret (N_of_ascii c + 256 * n)%N) r
                     end
  end.
Definition enc_u64 : N -> bytes := enc_le 8.
Definition dec_u64 : parser N := dec_le 8.
Definition enc_usize (n : nat) : bytes := enc_u64 (N.of_nat n).
Definition dec_usize : parser nat := n <~ dec_u64 ;; pret (N.to_nat n).
Definition enc_tag (n : N) : bytes := enc_le 4 n.
Definition dec_tag : parser N := dec_le 4.
Definition enc_bool (b : bool) : bytes := enc_le 1 (if b then 1 else 0)%N.
Definition dec_bool : parser bool :=
  n <~ dec_le 1 ;; if (n =? 0)%N then pret false else if (n =? 1)%N then pret true else pfail.

(** ** f64: the IEEE bit pattern.  NaN payloads are dropped (see F64.v): a NaN is written
    as the quiet NaN of its sign. *)
Definition to_bits (x : f64) : N :=
  let sign (s : bool) := (if s then 2 ^ 63 else 0)%N in
  match x with
  | Zero s => sign s
  | Inf s => (sign s + 2047 * 2 ^ 52)%N
  | NaN s => (sign s + 2047 * 2 ^ 52 + 2 ^ 51)%N
  | Fin s m e => (sign s + (if (Npos m <? 2 ^ 52) then Npos m
                            else Z.to_N (e + 1075) * 2 ^ 52 + (Npos m - 2 ^ 52)))%N
  end.
Definition of_bits (b : N) : f64 :=
  let s := (2 ^ 63 <=? b)%N in
  let r := (b mod 2 ^ 63)%N in
  let ex := (r / 2 ^ 52)%N in
  let man := (r mod 2 ^ 52)%N in
  if (ex =? 0)%N then match man with N0 => Zero s | Npos m => Fin s m (-1074) end
  else if (ex =? 2047)%N then match man with N0 => Inf s | Npos _ => NaN s end
  else match (man + 2 ^ 52)%N with N0 => Zero s | Npos m => Fin s m (Z.of_N ex - 1075) end.
Definition enc_f64 (x : f64) : bytes := enc_u64 (to_bits x).
Definition dec_f64 : parser f64 := b <~ dec_u64 ;; pret (of_bits b).

(** ** Options and sequences *)
Definition enc_option {A} (e : A -> bytes) (o : option A) : bytes :=
  match o with None => enc_le 1 0 | Some a => enc_le 1 1 ++ e a end.
Definition dec_option {A} (d : parser A) : parser (option A) :=
  n <~ dec_le 1 ;;
  if (n =? 0)%N then pret None
  else if (n =? 1)%N then (a <~ d ;; pret (Some a)) else pfail.
Fixpoint dec_n {A} (d : parser A) (n : nat) : parser (list A) :=
  match n with
  | O => pret []
  | S n' => a <~ d ;; l <~ dec_n d n' ;; pret (a :: l)
  end.
Definition enc_items {A} (e : A -> bytes) (l : list A) : bytes := List.concat (map e l).
Definition enc_vec {A} (e : A -> bytes) (l : list A) : bytes :=
  enc_usize (List.length l) ++ enc_items e l.
(** Every element type here takes at least one byte, so a length above the number of
    remaining bytes ends in an unexpected-end error; the model rejects it at once. *)
Definition dec_vec {A} (d : parser A) : parser (list A) :=
  n <~ dec_u64 ;;
  fun s => if (n <=? N.of_nat (List.length s))%N then dec_n d (N.to_nat n) s else None.
(** ndarray's serde format for [Array1]: version byte 1, the dimension, the elements *)
Definition enc_array {A} (e : A -> bytes) (l : list A) : bytes :=
  enc_le 1 1 ++ enc_usize (List.length l) ++ enc_vec e l.
Definition dec_array {A} (d : parser A) : parser (list A) :=
  v <~ dec_le 1 ;;
  if (v =? 1)%N then
    dim <~ dec_u64 ;;
    l <~ dec_vec d ;;
    if (dim =? N.of_nat (List.length l))%N then pret l else pfail
  else pfail.

(** ** Strings: length and bytes, which must be UTF-8 ([std::str::from_utf8]) *)
Definition in_range (lo hi : N) (c : ascii) : bool :=
  ((lo <=? N_of_ascii c)%N && (N_of_ascii c <=? hi)%N)%bool.
Definition cont (c : ascii) : bool := in_range 128 191 c.
Fixpoint valid_utf8 (s : bytes) : bool :=
  match s with
  | [] => true
  | a :: r =>
      if in_range 0 127 a then valid_utf8 r
      else match r with
      | [] => false
      | b :: r2 =>
          if (in_range 194 223 a && cont b)%bool then valid_utf8 r2
          else match r2 with
          | [] => false
          | c :: r3 =>
              if ((in_range 224 224 a && in_range 160 191 b && cont c)
                  || (in_range 225 236 a && cont b && cont c)
                  || (in_range 237 237 a && in_range 128 159 b && cont c)
                  || (in_range 238 239 a && cont b && cont c))%bool then valid_utf8 r3
              else match r3 with
              | [] => false
              | d :: r4 =>
                  if ((in_range 240 240 a && in_range 144 191 b && cont c && cont d)
                      || (in_range 241 243 a && cont b && cont c && cont d)
                      || (in_range 244 244 a && in_range 128 143 b && cont c && cont d))%bool
                  then valid_utf8 r4 else false
              end
          end
      end
  end.
Definition str_bytes (s : string) : bytes := list_ascii_of_string s.
Definition enc_string (s : string) : bytes :=
  enc_usize (String.length s) ++ str_bytes s.
Definition dec_string : parser string :=
  n <~ dec_u64 ;;
  fun s => if (n <=? N.of_nat (List.length s))%N then
             let k := N.to_nat n in
             if valid_utf8 (firstn k s)
             then Some (string_of_list_ascii (firstn k s), skipn k s) else None
           else None.

(** ** The crate's types *)
Definition enc_point : point -> bytes := enc_array enc_f64.
Definition dec_point : parser point := dec_array dec_f64.
(** builders.rs 67-71 *)
Definition enc_tr_method (m : tr_method) : bytes := enc_tag (match m with Cauchy => 0 | Steihaug => 1 end).
Definition dec_tr_method : parser tr_method :=
  t <~ dec_tag ;; if (t =? 0)%N then pret Cauchy else if (t =? 1)%N then pret Steihaug else pfail.
(** builders.rs 1173-1199 *)
Definition enc_ls (l : line_search) : bytes :=
  match l with
  | MoreThuente c1 c2 w b => enc_tag 0 ++ enc_f64 c1 ++ enc_f64 c2 ++ enc_f64 w ++ enc_point b
  | HagerZhang d s e t g n b =>
      enc_tag 1 ++ enc_f64 d ++ enc_f64 s ++ enc_f64 e ++ enc_f64 t ++ enc_f64 g ++ enc_f64 n ++ enc_point b
  end.
Definition dec_ls : parser line_search :=
  t <~ dec_tag ;;
  if (t =? 0)%N then
    c1 <~ dec_f64 ;; c2 <~ dec_f64 ;; w <~ dec_f64 ;; b <~ dec_point ;; pret (MoreThuente c1 c2 w b)
  else if (t =? 1)%N then
    d <~ dec_f64 ;; s <~ dec_f64 ;; e <~ dec_f64 ;; th <~ dec_f64 ;; g <~ dec_f64 ;; n <~ dec_f64 ;;
    b <~ dec_point ;; pret (HagerZhang d s e th g n b)
  else pfail.
(** builders.rs 76-190 *)
Definition enc_config (c : solver_config) : bytes :=
  match c with
  | CfgLBFGS it tg tc h l1 ls =>
      enc_tag 0 ++ enc_u64 it ++ enc_f64 tg ++ enc_f64 tc ++ enc_usize h ++ enc_option enc_f64 l1 ++ enc_ls ls
  | CfgNelderMead de sd it al ga rh si =>
      enc_tag 1 ++ enc_f64 de ++ enc_f64 sd ++ enc_u64 it ++ enc_f64 al ++ enc_f64 ga ++ enc_f64 rh ++ enc_f64 si
  | CfgSteepestDescent it ls => enc_tag 2 ++ enc_u64 it ++ enc_ls ls
  | CfgTrustRegion m it r mr eta =>
      enc_tag 3 ++ enc_tr_method m ++ enc_u64 it ++ enc_f64 r ++ enc_f64 mr ++ enc_f64 eta
  | CfgNewtonCG it cu to ls => enc_tag 4 ++ enc_u64 it ++ enc_f64 cu ++ enc_f64 to ++ enc_ls ls
  | CfgCOBYLA it st fr fa xr xa =>
      enc_tag 5 ++ enc_u64 it ++ enc_f64 st ++ enc_f64 fr ++ enc_f64 fa ++ enc_f64 xr ++ enc_vec enc_f64 xa
  end.
Definition dec_config : parser solver_config :=
  t <~ dec_tag ;;
  if (t =? 0)%N then
    it <~ dec_u64 ;; tg <~ dec_f64 ;; tc <~ dec_f64 ;; h <~ dec_usize ;; l1 <~ dec_option dec_f64 ;;
    ls <~ dec_ls ;; pret (CfgLBFGS it tg tc h l1 ls)
  else if (t =? 1)%N then
    de <~ dec_f64 ;; sd <~ dec_f64 ;; it <~ dec_u64 ;; al <~ dec_f64 ;; ga <~ dec_f64 ;; rh <~ dec_f64 ;;
    si <~ dec_f64 ;; pret (CfgNelderMead de sd it al ga rh si)
  else if (t =? 2)%N then
    it <~ dec_u64 ;; ls <~ dec_ls ;; pret (CfgSteepestDescent it ls)
  else if (t =? 3)%N then
    m <~ dec_tr_method ;; it <~ dec_u64 ;; r <~ dec_f64 ;; mr <~ dec_f64 ;; eta <~ dec_f64 ;;
    pret (CfgTrustRegion m it r mr eta)
  else if (t =? 4)%N then
    it <~ dec_u64 ;; cu <~ dec_f64 ;; to <~ dec_f64 ;; ls <~ dec_ls ;; pret (CfgNewtonCG it cu to ls)
  else if (t =? 5)%N then
    it <~ dec_u64 ;; st <~ dec_f64 ;; fr <~ dec_f64 ;; fa <~ dec_f64 ;; xr <~ dec_f64 ;;
    xa <~ dec_vec dec_f64 ;; pret (CfgCOBYLA it st fr fa xr xa)
  else pfail.
(** types.rs 457-492 *)
Definition solver_tag (t : solver_type) : N :=
  match t with LBFGS => 0 | NelderMead => 1 | SteepestDescent => 2 | TrustRegion => 3
             | NewtonCG => 4 | COBYLA => 5 end.
Definition enc_solver (t : solver_type) : bytes := enc_tag (solver_tag t).
Definition dec_solver : parser solver_type :=
  t <~ dec_tag ;;
  if (t =? 0)%N then pret LBFGS else if (t =? 1)%N then pret NelderMead
  else if (t =? 2)%N then pret SteepestDescent else if (t =? 3)%N then pret TrustRegion
  else if (t =? 4)%N then pret NewtonCG else if (t =? 5)%N then pret COBYLA else pfail.
(** types.rs 59-97 *)
Definition enc_params (p : params) : bytes :=
  enc_usize (p_iterations p) ++ enc_usize (p_population p) ++ enc_usize (p_wait_cycle p) ++
  enc_f64 (p_threshold_factor p) ++ enc_f64 (p_distance_factor p) ++
  enc_solver (p_solver_type p) ++ enc_config (p_solver_config p) ++ enc_u64 (p_seed p).
Definition dec_params : parser params :=
  a <~ dec_usize ;; b <~ dec_usize ;; c <~ dec_usize ;; d <~ dec_f64 ;; e <~ dec_f64 ;;
  f <~ dec_solver ;; g <~ dec_config ;; h <~ dec_u64 ;; pret (mk_params a b c d e f g h).
(** types.rs 214-219, 286-288 *)
Definition enc_lsol (s : lsol) : bytes := enc_point (ls_point s) ++ enc_f64 (ls_obj s).
Definition dec_lsol : parser lsol := p <~ dec_point ;; o <~ dec_f64 ;; pret (mk_lsol p o).
Definition enc_solset : solset -> bytes := enc_array enc_lsol.
Definition dec_solset : parser solset := dec_array dec_lsol.

(** types.rs 642-725 *)
Definition enc_checkpoint (c : checkpoint) : bytes :=
  enc_params (cp_params c) ++ enc_usize (cp_iteration c) ++ enc_f64 (cp_threshold c) ++
  enc_option enc_solset (cp_solution_set c) ++ enc_vec (enc_vec enc_f64) (cp_reference_set c) ++
  enc_usize (cp_unchanged c) ++ enc_f64 (cp_elapsed c) ++ enc_vec enc_lsol (cp_df_solutions c) ++
  enc_u64 (cp_seed c) ++ enc_option enc_f64 (cp_target c) ++ enc_bool (cp_exclude_oob c) ++
  enc_option enc_usize (cp_batch c) ++ enc_bool (cp_parallel c) ++ enc_f64 (cp_abs_tol c) ++
  enc_f64 (cp_rel_tol c) ++ enc_string (cp_timestamp c).
Definition dec_checkpoint : parser checkpoint :=
  a <~ dec_params ;; b <~ dec_usize ;; c <~ dec_f64 ;; d <~ dec_option dec_solset ;;
  e <~ dec_vec (dec_vec dec_f64) ;; f <~ dec_usize ;; g <~ dec_f64 ;; h <~ dec_vec dec_lsol ;;
  i <~ dec_u64 ;; j <~ dec_option dec_f64 ;; k <~ dec_bool ;; l <~ dec_option dec_usize ;;
  m <~ dec_bool ;; n <~ dec_f64 ;; o <~ dec_f64 ;; p <~ dec_string ;;
  pret (mk_cp a b c d e f g h i j k l m n o p).
(** [decode_from_slice]: what follows the decoded value is ignored (checkpoint.rs 283-284) *)
Definition decode_checkpoint (b : bytes) : option checkpoint := option_map fst (dec_checkpoint b).
