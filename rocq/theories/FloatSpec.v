(** * FloatSpec: what single precision numbers are and what rounding means

    Independent of the arithmetic of FloatModel: everything here is said
    with integers.  Every finite single precision number is a multiple of
    2^-149, so it is written as the integer number of that unit. *)
From Coq Require Import ZArith List Bool Lia.
Import ListNotations.
Open Scope Z_scope.

(** A pattern of 32 bits: sign, eight bits of exponent, 23 of fraction. *)
Definition pattern (b : Z) : Prop := 0 <= b < 2 ^ 32.
Definition sign_bit (b : Z) : bool := 2 ^ 31 <=? b.
Definition expo (b : Z) : Z := (b / 2 ^ 23) mod 2 ^ 8.
Definition frac (b : Z) : Z := b mod 2 ^ 23.

Definition finite (b : Z) : Prop := pattern b /\ expo b <> 255.
Definition infinite (s : bool) : Z := (if s then 2 ^ 31 else 0) + 255 * 2 ^ 23.
Definition not_a_number (b : Z) : Prop := pattern b /\ expo b = 255 /\ frac b <> 0.

(** The number a finite pattern stands for, in units of 2^-149. *)
Definition magnitude (b : Z) : Z :=
  if expo b =? 0 then frac b else (2 ^ 23 + frac b) * 2 ^ (expo b - 1).
Definition value (b : Z) : Z := if sign_bit b then - magnitude b else magnitude b.

(** [r] is the number n/d (in units of 2^-149) rounded to the nearest single
    precision number, the one with the even pattern when two are equally near,
    with the sign [s].  What reaches the middle between the largest finite
    number, (2^24 - 1) * 2^104, and 2^128 becomes infinite. *)
Definition rounded (s : bool) (n d r : Z) : Prop :=
  sign_bit r = s /\
  if (2 ^ 25 - 1) * 2 ^ 252 * d <=? Z.abs n then r = infinite s
  else finite r /\
       forall c, finite c ->
         Z.abs (value r * d - n) <= Z.abs (value c * d - n) /\
         (value c <> value r ->
          Z.abs (value r * d - n) = Z.abs (value c * d - n) ->
          Z.even r = true).

(** The sign of a sum: an exact zero is positive unless both terms are
    negative zeros. *)
Definition sum_sign (a b : Z) (sa sb : bool) : bool :=
  if a + b =? 0 then sa && sb else a + b <? 0.

(** The number a string of decimal digits stands for. *)
Definition decimal (ds : list Z) : Z := fold_left (fun v c => 10 * v + (c - 48)) ds 0.

(** Single precision arithmetic, all cases (IEEE 754, round to nearest even;
    which of the patterns of not-a-number a result has is left open). *)
Inductive arith := Plus | Minus | Times | Over.
Definition zero (s : bool) : Z := if s then 2 ^ 31 else 0.

Inductive ieee : arith -> Z -> Z -> Z -> Prop :=
| i_nan op x y r : not_a_number x \/ not_a_number y -> not_a_number r -> ieee op x y r
| i_add x y r : finite x -> finite y ->
    rounded (sum_sign (value x) (value y) (sign_bit x) (sign_bit y)) (value x + value y) 1 r -> ieee Plus x y r
| i_add_left s y : finite y -> ieee Plus (infinite s) y (infinite s)
| i_add_right x s : finite x -> ieee Plus x (infinite s) (infinite s)
| i_add_both s : ieee Plus (infinite s) (infinite s) (infinite s)
| i_add_opposite s r : not_a_number r -> ieee Plus (infinite s) (infinite (negb s)) r
| i_sub x y r : finite x -> finite y ->
    rounded (sum_sign (value x) (- value y) (sign_bit x) (negb (sign_bit y))) (value x - value y) 1 r -> ieee Minus x y r
| i_sub_left s y : finite y -> ieee Minus (infinite s) y (infinite s)
| i_sub_right x s : finite x -> ieee Minus x (infinite s) (infinite (negb s))
| i_sub_opposite s : ieee Minus (infinite s) (infinite (negb s)) (infinite s)
| i_sub_both s r : not_a_number r -> ieee Minus (infinite s) (infinite s) r
| i_mul x y r : finite x -> finite y ->
    rounded (xorb (sign_bit x) (sign_bit y)) (value x * value y) (2 ^ 149) r -> ieee Times x y r
| i_mul_left s y : finite y -> value y <> 0 -> ieee Times (infinite s) y (infinite (xorb s (sign_bit y)))
| i_mul_right x s : finite x -> value x <> 0 -> ieee Times x (infinite s) (infinite (xorb (sign_bit x) s))
| i_mul_both s t : ieee Times (infinite s) (infinite t) (infinite (xorb s t))
| i_mul_zero_right s y r : finite y -> value y = 0 -> not_a_number r -> ieee Times (infinite s) y r
| i_mul_zero_left x s r : finite x -> value x = 0 -> not_a_number r -> ieee Times x (infinite s) r
| i_div x y r : finite x -> finite y -> value y <> 0 ->
    rounded (xorb (sign_bit x) (sign_bit y)) (value x * 2 ^ 149 * Z.sgn (value y)) (Z.abs (value y)) r -> ieee Over x y r
| i_div_zero x y : finite x -> finite y -> value x <> 0 -> value y = 0 -> ieee Over x y (infinite (xorb (sign_bit x) (sign_bit y)))
| i_div_zeros x y r : finite x -> finite y -> value x = 0 -> value y = 0 -> not_a_number r -> ieee Over x y r
| i_div_left s y : finite y -> ieee Over (infinite s) y (infinite (xorb s (sign_bit y)))
| i_div_right x s : finite x -> ieee Over x (infinite s) (zero (xorb (sign_bit x) s))
| i_div_both s t r : not_a_number r -> ieee Over (infinite s) (infinite t) r.
