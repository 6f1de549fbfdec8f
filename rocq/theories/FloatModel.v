(** * FloatModel: single precision floats and number/text conversion

    A [float] is its 32-bit pattern.  Arithmetic is the standard library's
    IEEE-754 reference implementation [SpecFloat] at precision 24, emax 128,
    round to nearest even.  Simplifications: FLT_EVAL_METHOD 0 (no excess
    precision), a NaN result is always the canonical pattern 0x7fc00000. *)
From Coq Require Import Floats.SpecFloat.
From Verif Require Import Base.

Definition f_nan : Z := 2143289344.
Definition P23 : Z := 8388608.
Definition P24 : Z := 16777216.

(** Decoding and encoding of the pattern (IEEE 754 binary32). *)
Definition f_dec (b : Z) : spec_float :=
  let s := W31 <=? u32 b in
  let e := (u32 b / P23) mod 256 in
  let m := u32 b mod P23 in
  if e =? 255 then (if m =? 0 then S754_infinity s else S754_nan)
  else if e =? 0 then
    match m with Zpos p => S754_finite s p (-149) | _ => S754_zero s end
  else match m + P23 with Zpos p => S754_finite s p (e - 150) | _ => S754_nan end.

Definition f_sign (s : bool) : Z := if s then W31 else 0.

Definition f_enc (x : spec_float) : Z :=
  match x with
  | S754_zero s => f_sign s
  | S754_infinity s => f_sign s + 255 * P23
  | S754_nan => f_nan
  | S754_finite s m e =>
    if Zpos m <? P23 then f_sign s + Zpos m
    else f_sign s + (e + 150) * P23 + (Zpos m - P23)
  end.

Definition f_is_nan (b : Z) : bool :=
  match f_dec b with S754_nan => true | _ => false end.

(** C operators on [float]. *)
Definition f_add a b := f_enc (SFadd 24 128 (f_dec a) (f_dec b)).
Definition f_sub a b := f_enc (SFsub 24 128 (f_dec a) (f_dec b)).
Definition f_mul a b := f_enc (SFmul 24 128 (f_dec a) (f_dec b)).
Definition f_div a b := f_enc (SFdiv 24 128 (f_dec a) (f_dec b)).
Definition f_neg a := f_enc (SFopp (f_dec a)).
Definition f_gt a b : bool :=
  match SFcompare (f_dec a) (f_dec b) with Some Gt => true | _ => false end.
Definition f_eq a b : bool :=
  match SFcompare (f_dec a) (f_dec b) with Some Eq => true | _ => false end.

(** (float)int *)
Definition f_of_int (z : Z) : Z := f_enc (binary_normalize 24 128 z 0 false).

(** (int)float: truncation; undefined when the truncated value does not fit
    (C89 3.2.1.3).  [None] is the undefined case. *)
Definition f_trunc (b : Z) : option Z :=
  match f_dec b with
  | S754_zero _ => Some 0
  | S754_finite s m e =>
    let a := if 0 <=? e then Zpos m * 2 ^ e else Zpos m / 2 ^ (- e) in
    let z := if s then - a else a in
    if in_s32 z then Some z else None
  | _ => None
  end.

(** isspace in the "C" locale, and decimal digits. *)
Definition is_space (c : Z) : bool := (c =? 32) || ((9 <=? c) && (c <=? 13)).
Definition is_digit (c : Z) : bool := (48 <=? c) && (c <=? 57).

Fixpoint skip_spaces (s : bytes) : bytes :=
  match s with
  | c :: r => if is_space c then skip_spaces r else s
  | [] => []
  end.

(** Optional sign; the boolean is "negative". *)
Definition take_sign (s : bytes) : bool * bytes :=
  match s with
  | c :: r => if c =? 45 then (true, r) else if c =? 43 then (false, r) else (false, s)
  | [] => (false, [])
  end.

(** Digits: accumulated value, number of digits read, rest. *)
Fixpoint take_digits (s : bytes) (acc n : Z) : Z * Z * bytes :=
  match s with
  | c :: r => if is_digit c then take_digits r (acc * 10 + (c - 48)) (n + 1) else (acc, n, s)
  | [] => (acc, n, [])
  end.

(** atol: strtol base 10 on a 64-bit long, saturating, then conversion to
    [nkint32_t].  C leaves atol undefined outside [long]; glibc saturates. *)
Definition LONG_MAX : Z := 9223372036854775807.
Definition c_atol (s : bytes) : Z :=
  let '(neg, r) := take_sign (skip_spaces s) in
  let '(v, _, _) := take_digits r 0 0 in
  let l := if neg then Z.max (- v) (- LONG_MAX - 1) else Z.min v LONG_MAX in
  s32 l.

(** Number of decimal digits of a positive number. *)
Fixpoint ndigits (fuel : nat) (z : Z) : Z :=
  match fuel with
  | O => 0
  | S k => if z <=? 0 then 0 else 1 + ndigits k (z / 10)
  end.

(** Correctly rounded D * 10^E as a binary64 number. *)
Definition d_of_dec (neg : bool) (d e : Z) : spec_float :=
  if d =? 0 then S754_zero neg
  else
    let nd := ndigits (Z.to_nat (Z.log2 d + 2)) d in
    if 310 <? e + nd then S754_infinity neg
    else if e + nd <? (-330) then S754_zero neg
    else
      let sgn z := if neg then - z else z in
      if 0 <=? e then binary_normalize 53 1024 (sgn (d * 10 ^ e)) 0 neg
      else
        let den := 10 ^ (- e) in
        let k := Z.max 0 (66 + Z.log2 den - Z.log2 d) in
        let q := (d * 2 ^ k) / den in
        let r := (d * 2 ^ k) mod den in
        let m := 2 * q + (if r =? 0 then 0 else 1) in
        binary_normalize 53 1024 (sgn m) (- k - 1) neg.

(** (float)double *)
Definition f_of_double (x : spec_float) : Z :=
  match x with
  | S754_finite s m e =>
    f_enc (binary_normalize 24 128 (if s then Zneg m else Zpos m) e s)
  | _ => f_enc x
  end.

(** atof on decimal input (the only syntax C89 requires: no hexadecimal,
    "inf" or "nan" forms), converted to float.  Used by nkiValueToFloat and
    the compiler. *)
Definition c_atof (s : bytes) : Z :=
  let '(neg, r) := take_sign (skip_spaces s) in
  let '(v1, n1, r1) := take_digits r 0 0 in
  let '(v2, n2, r2) :=
    match r1 with
    | c :: r' => if c =? 46 then
        let '(v, n, rest) := take_digits r' v1 0 in (v, n, rest)
      else (v1, 0, r1)
    | [] => (v1, 0, [])
    end in
  if n1 + n2 =? 0 then 0
  else
    let ex :=
      match r2 with
      | c :: r' =>
        if (c =? 101) || (c =? 69) then
          let '(eneg, r3) := take_sign r' in
          let '(ev, en, _) := take_digits r3 0 0 in
          if en =? 0 then 0 else if eneg then - ev else ev
        else 0
      | [] => 0
      end in
    f_of_double (d_of_dec neg v2 (ex - n2)).

(** Decimal text of a non-negative number. *)
Fixpoint digits (fuel : nat) (z : Z) (acc : bytes) : bytes :=
  match fuel with
  | O => acc
  | S k => if z <? 10 then (48 + z) :: acc else digits k (z / 10) ((48 + z mod 10) :: acc)
  end.
Definition u_to_str (z : Z) : bytes := digits (Z.to_nat (Z.log2 z + 1)) z [].

(** sprintf "%d" and "%u" (NK_PRINTF_INT32 / NK_PRINTF_UINT32,
    /repo/src/nkconfig.h). *)
Definition i_to_str (z : Z) : bytes := if z <? 0 then 45 :: u_to_str (- z) else u_to_str z.

(** Nearest integer to m * 2^e * 10^6, ties to even. *)
Definition round_e6 (m e : Z) : Z :=
  if 0 <=? e then m * 2 ^ e * 1000000
  else
    let den := 2 ^ (- e) in
    let q := (m * 1000000) / den in
    let r := (m * 1000000) mod den in
    if (den <? 2 * r) || ((2 * r =? den) && Z.odd q) then q + 1 else q.

Definition pad6 (z : Z) : bytes :=
  let s := u_to_str z in repeat 48 (6 - length s) ++ s.

(** sprintf "%f" of a float promoted to double (exact binary value, six
    decimals, round-half-even as glibc does). *)
Definition f_to_str (b : Z) : bytes :=
  match f_dec b with
  | S754_nan => bs "nan"
  | S754_infinity false => bs "inf"
  | S754_infinity true => bs "-inf"
  | S754_zero s => (if s then [45] else []) ++ bs "0.000000"
  | S754_finite s m e =>
    let n := round_e6 (Zpos m) e in
    (if s then [45] else []) ++ u_to_str (n / 1000000) ++ [46] ++ pad6 (n mod 1000000)
  end.
