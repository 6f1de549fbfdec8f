(** * Base: 32-bit arithmetic, byte strings, list access, outcomes

    Shared vocabulary of the Ninkasi model.  Numbers of the C code are
    modelled by [Z]; every place where C wraps modulo 2^32 says so
    explicitly with [u32] / [s32]. *)

From Coq Require Export List ZArith Bool Lia.
From Coq Require String Ascii.
Export String.StringSyntax.
From Coq Require Export ZifyBool ZifyNat.
Export ListNotations.
Open Scope Z_scope.

(** 2^32 and the "invalid" marker.
    /repo/src/nktypes.h: NK_UINT_MAX, NK_INVALID_VALUE (both ~(nkuint32_t)0). *)
Definition W32 : Z := 4294967296.
Definition W31 : Z := 2147483648.
Definition INVALID : Z := 4294967295.

(** Conversion to [nkuint32_t] (C: reduction modulo 2^32). *)
Definition u32 (z : Z) : Z := z mod W32.

(** Conversion of an unsigned 32-bit number to [nkint32_t]
    (implementation-defined in C89, two's complement everywhere). *)
Definition s32 (z : Z) : Z :=
  let u := u32 z in if u <? W31 then u else u - W32.

Definition is_u32 (z : Z) : Prop := 0 <= z < W32.
Definition is_s32 (z : Z) : Prop := - W31 <= z < W31.
Definition in_s32 (z : Z) : bool := (- W31 <=? z) && (z <? W31).

(** Kinds of undefined behaviour the model distinguishes. *)
Inductive ub : Set :=
| UbOob             (* access outside an array or string *)
| UbNull            (* null pointer dereference *)
| UbSignedOverflow  (* signed 32-bit overflow *)
| UbFloatCast       (* float value out of range of int *)
| UbDivTrap         (* machine division by zero / INT_MIN by -1 *)
| UbAssert          (* a C assert() that would fire *)
| UbUninit          (* use of an uninitialised value *)
| UbFuel.           (* model ran out of fuel: NOT a behaviour of the code *)

(** Outcome of a model function. *)
Inductive res (A : Type) : Type :=
| Ok (a : A)
| Ub (u : ub).
Arguments Ok {A} a.
Arguments Ub {A} u.

Definition bind {A B} (x : res A) (f : A -> res B) : res B :=
  match x with Ok a => f a | Ub u => Ub u end.
Notation "'do' x <- a ; b" := (bind a (fun x => b))
  (at level 200, x pattern, a at level 100, b at level 200).

(** C strings: the bytes before the terminating zero, each 1..255. *)
Definition bytes := list Z.

Fixpoint bs (s : String.string) : bytes :=
  match s with
  | String.EmptyString => []
  | String.String c r => Z.of_nat (Ascii.nat_of_ascii c) :: bs r
  end.
Arguments bs s%string_scope.

(** nkiStrcmp(a,b) == 0.  /repo/src/nkstring.c:224-245 (equality part). *)
Fixpoint bytes_eqb (a b : bytes) : bool :=
  match a, b with
  | [], [] => true
  | x :: a', y :: b' => (x =? y) && bytes_eqb a' b'
  | _, _ => false
  end.

(** Array access with a [Z] index; [None] outside the array. *)
Definition zlen {A} (l : list A) : Z := Z.of_nat (length l).

Definition znth {A} (l : list A) (i : Z) : option A :=
  if (i <? 0) || (zlen l <=? i) then None else nth_error l (Z.to_nat i).

Fixpoint upd {A} (l : list A) (n : nat) (x : A) : list A :=
  match l, n with
  | [], _ => []
  | _ :: r, O => x :: r
  | a :: r, S k => a :: upd r k x
  end.

Definition zupd {A} (l : list A) (i : Z) (x : A) : list A :=
  if i <? 0 then l else upd l (Z.to_nat i) x.

(** Read / write of array slots as partial operations. *)
Definition rd {A} (l : list A) (i : Z) : res A :=
  match znth l i with Some a => Ok a | None => Ub UbOob end.
Definition wr {A} (l : list A) (i : Z) (x : A) : res (list A) :=
  match znth l i with Some _ => Ok (zupd l i x) | None => Ub UbOob end.

(** The integers [lo, lo+1, ..., hi-1]. *)
Fixpoint zseq (lo : Z) (n : nat) : list Z :=
  match n with O => [] | S k => lo :: zseq (lo + 1) k end.
