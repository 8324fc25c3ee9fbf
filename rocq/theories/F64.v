(** * IEEE-754 binary64 values and the f64 operations used by the crate.

    Rust [f64] as used throughout /repo/src.  Values are an inductive type with
    signed zeros, infinities and NaNs; arithmetic is the standard library's
    [SpecFloat] at prec = 53, emax = 1024 (round to nearest, ties to even).
    Simplifications: NaN payloads are dropped (the sign is kept because
    [f64::total_cmp] looks at it); a NaN created by an invalid operation gets the
    sign x86 gives it (negative); an operation on a NaN returns the first NaN operand. *)

From Coq Require Import ZArith List Bool Floats.SpecFloat.
Import ListNotations.
Local Open Scope Z_scope.

Inductive f64 : Type :=
| Zero (s : bool)                          (* +0.0 / -0.0, [s = true] is negative *)
| Inf (s : bool)
| NaN (s : bool)
| Fin (s : bool) (m : positive) (e : Z).   (* (-1)^s * m * 2^e *)

Definition prec : Z := 53.
Definition emax : Z := 1024.

(** Is the finite value a canonical binary64?  (Every Rust f64 is.) *)
Definition wf (x : f64) : bool :=
  match x with
  | Fin _ m e => bounded prec emax m e
  | _ => true
  end.

Definition to_sf (x : f64) : spec_float :=
  match x with
  | Zero s => S754_zero s
  | Inf s => S754_infinity s
  | NaN _ => S754_nan
  | Fin s m e => S754_finite s m e
  end.

(** Result of an operation; an invalid operation gives the default (negative) NaN. *)
Definition of_sf (x : spec_float) : f64 :=
  match x with
  | S754_zero s => Zero s
  | S754_infinity s => Inf s
  | S754_nan => NaN true
  | S754_finite s m e => Fin s m e
  end.

Definition is_nan (x : f64) : bool := match x with NaN _ => true | _ => false end.
Definition is_finite (x : f64) : bool := match x with Zero _ | Fin _ _ _ => true | _ => false end.

Definition lift2 (op : spec_float -> spec_float -> spec_float) (a b : f64) : f64 :=
  match a, b with
  | NaN s, _ => NaN s
  | _, NaN s => NaN s
  | _, _ => of_sf (op (to_sf a) (to_sf b))
  end.

Definition fadd : f64 -> f64 -> f64 := lift2 (SFadd prec emax).
Definition fsub : f64 -> f64 -> f64 := lift2 (SFsub prec emax).
Definition fmul : f64 -> f64 -> f64 := lift2 (SFmul prec emax).
Definition fdiv : f64 -> f64 -> f64 := lift2 (SFdiv prec emax).
(** [f64::sqrt] *)
Definition fsqrt (a : f64) : f64 :=
  match a with NaN s => NaN s | _ => of_sf (SFsqrt prec emax (to_sf a)) end.

(** unary minus and [f64::abs] act on the sign bit only *)
Definition fopp (x : f64) : f64 :=
  match x with
  | Zero s => Zero (negb s) | Inf s => Inf (negb s) | NaN s => NaN (negb s)
  | Fin s m e => Fin (negb s) m e
  end.
Definition fabs (x : f64) : f64 :=
  match x with
  | Zero _ => Zero false | Inf _ => Inf false | NaN _ => NaN false
  | Fin _ m e => Fin false m e
  end.

(** IEEE comparison ([PartialOrd] of f64): [None] when an operand is NaN. *)
Definition fcmp (a b : f64) : option comparison := SFcompare (to_sf a) (to_sf b).
Definition flt (a b : f64) : bool := match fcmp a b with Some Lt => true | _ => false end.
Definition fle (a b : f64) : bool := match fcmp a b with Some (Lt | Eq) => true | _ => false end.
Definition fgt (a b : f64) : bool := flt b a.
Definition fge (a b : f64) : bool := fle b a.
Definition feq (a b : f64) : bool := match fcmp a b with Some Eq => true | _ => false end.

(** [f64::total_cmp]: -NaN < -inf < negatives < -0 < +0 < positives < +inf < +NaN.
    Expressed through a sign-adjusted key (class rank, exponent, mantissa). *)
Definition sgz (s : bool) (z : Z) : Z := if s then - z else z.
Definition tkey (x : f64) : Z * Z * Z :=
  match x with
  | Zero s => (sgz s 1, 0, 0)
  | Fin s m e => (sgz s 2, sgz s e, sgz s (Zpos m))
  | Inf s => (sgz s 3, 0, 0)
  | NaN s => (sgz s 4, 0, 0)
  end.
Definition lex_cmp (a b : Z * Z * Z) : comparison :=
  let '(a1, a2, a3) := a in
  let '(b1, b2, b3) := b in
  match Z.compare a1 b1 with
  | Eq => match Z.compare a2 b2 with Eq => Z.compare a3 b3 | c => c end
  | c => c
  end.
Definition total_cmp (a b : f64) : comparison := lex_cmp (tkey a) (tkey b).
Definition total_le (a b : f64) : bool := match total_cmp a b with Gt => false | _ => true end.
Definition total_lt (a b : f64) : bool := match total_cmp a b with Lt => true | _ => false end.

(** [f64::min], [f64::max]: NaN operands are ignored.  (Rust leaves the sign of zero
    open when the operands are zeros of different sign; here the first one wins.) *)
Definition fmin (a b : f64) : f64 :=
  if is_nan a then b else if is_nan b then a else if flt b a then b else a.
Definition fmax (a b : f64) : f64 :=
  if is_nan a then b else if is_nan b then a else if flt a b then b else a.

(** [f64::clamp]: panics ([None]) unless [lo <= hi]. *)
Definition fclamp (x lo hi : f64) : option f64 :=
  if fle lo hi then
    Some (let x1 := if flt x lo then lo else x in
          if flt hi x1 then hi else x1)
  else None.

(** Integers and literals; a decimal literal p/10^k is the correctly rounded quotient. *)
Definition of_Z (z : Z) : f64 := of_sf (binary_normalize prec emax z 0 false).
Definition of_nat (n : nat) : f64 := of_Z (Z.of_nat n).
Definition lit (p q : Z) : f64 := fdiv (of_Z p) (of_Z q).

Definition f0 : f64 := Zero false.
Definition f1 : f64 := of_Z 1.
Definition f2 : f64 := of_Z 2.
Definition pinf : f64 := Inf false.
Definition lit_0_1 : f64 := lit 1 10.
Definition lit_1e_8 : f64 := lit 1 (10 ^ 8).
Definition lit_1e_6 : f64 := lit 1 (10 ^ 6).
Definition lit_1e_14 : f64 := lit 1 (10 ^ 14).
(** [f64::EPSILON] = 2^-52 *)
Definition f64_epsilon : f64 := Fin false 4503599627370496 (-104).

(** [x as usize]: truncation towards zero, NaN and negatives to 0 (positive infinity
    and values >= 2^64 saturate; [usize] is 64 bits). *)
Definition usize_max : Z := 2 ^ 64 - 1.
Definition to_usize (x : f64) : nat :=
  match x with
  | Zero _ | NaN _ => 0%nat
  | Inf s => if s then 0%nat else Z.to_nat usize_max
  | Fin s m e => if s then 0%nat
                 else Z.to_nat (Z.min usize_max (Z.shiftl (Zpos m) e))
  end.
