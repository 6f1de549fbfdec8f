(** * BufSpec: what C71 is about *)
From Verif Require Import Base.

(** The bytes of a C string: none is zero. *)
Definition plain (t : list Z) : Prop := Forall (fun c => 0 < c < 256) t.

(** The array [b] holds the string [t]. *)
Definition holds (b t : list Z) : Prop := plain t /\ exists rest, b = t ++ 0 :: rest.

(** The array [b'] is [b] with [t] and a terminator written over the beginning,
    and no other byte changed. *)
Definition overwritten (b t b' : list Z) : Prop :=
  exists old rest, length old = S (length t) /\ b = old ++ rest /\ b' = t ++ 0 :: rest.

(** Comparing byte for byte as C does with chars that have a sign: the first
    difference counts, the end of a string counting as 0. *)
Fixpoint order (x y : list Z) : Z :=
  match x, y with
  | a :: x', b :: y' => if b <? a then 1 else if a <? b then -1 else order x' y'
  | _, _ => 0
  end.
Definition as_char (c : Z) : Z := if c <? 128 then c else c - 256.
Definition order_of (s t : list Z) : Z := order (map as_char s ++ [0]) (map as_char t ++ [0]).

(** Newlines, tabs and quotes as two characters. *)
Definition escape (c : Z) : list Z :=
  if c =? 10 then [92; 110] else if c =? 9 then [92; 116] else if c =? 34 then [92; 34] else [c].
Definition escapes (t : list Z) : list Z := flat_map escape t.

(** The first line of a text. *)
Fixpoint first_line (t : list Z) : list Z :=
  match t with [] => [] | c :: r => if c =? 10 then [] else c :: first_line r end.

(** Newlines in a text. *)
Fixpoint newlines (t : list Z) : Z :=
  match t with [] => 0 | c :: r => (if c =? 10 then 1 else 0) + newlines r end.

(** What is shown of a line after [n] characters in a buffer of [size] bytes:
    all of it if there are more than four bytes to spare, else as much as leaves
    room for three dots, and nothing if not even these fit. *)
Definition shown (size n : Z) (line : list Z) : list Z :=
  if n + zlen line + 4 <? size then line
  else if n + 4 <=? size then firstn (Z.to_nat (size - 4 - n)) line ++ [46; 46; 46]
  else [].

(** The array [b'] is [b], which holds [a], with [t] appended to the string and no
    other byte changed. *)
Definition appended (b a t b' : list Z) : Prop :=
  exists old rest, length old = S (length t) /\ b = a ++ old ++ rest /\ b' = a ++ t ++ 0 :: rest.
