(** * FoldSpec: what constant folding must preserve (C36) *)
From Verif Require Import Base State TokenModel ExprModel.

(** Trees as the parser builds them: literals have no operands; +, * and /
    have two operands or, where an operator stands alone, none. *)
Definition literal (t : token) : Prop := tk_type t = TK_INTEGER \/ tk_type t = TK_FLOAT.
Definition binary (t : token) : Prop :=
  tk_type t = TK_PLUS \/ tk_type t = TK_MULTIPLY \/ tk_type t = TK_DIVIDE.
Fixpoint proper (n : ast) : Prop :=
  match n with
  | ANull => True
  | ANode t _ c0 c1 =>
    proper c0 /\ proper c1 /\
    (literal t -> c0 = ANull /\ c1 = ANull) /\
    (binary t -> (c0 = ANull <-> c1 = ANull))
  end.

(** No float literal anywhere in the tree. *)
Fixpoint no_float (n : ast) : Prop :=
  match n with
  | ANull => True
  | ANode t _ c0 c1 => tk_type t <> TK_FLOAT /\ no_float c0 /\ no_float c1
  end.

(** The quotient rounded towards zero. *)
Definition quotient (x y q : Z) : Prop :=
  exists r, x = y * q + r /\ Z.abs r < Z.abs y /\ (0 <= x -> 0 <= r) /\ (x <= 0 -> r <= 0).

(** A way of giving meanings to trees: the meaning of a node is made from its
    token and the meanings of its operands. *)
Section Meaning.
Context {D : Type}.
Variable nothing : D.
Variable node : token -> bool -> D -> D -> D.

Fixpoint meaning (n : ast) : D :=
  match n with
  | ANull => nothing
  | ANode t root c0 c1 => node t root (meaning c0) (meaning c1)
  end.

(** In it, integer literals mean 32-bit integers, and the operators on two
    integers mean what the instructions compute (C53, C19). *)
Record integers (int : Z -> D) : Prop := {
  m_lit : forall t root, tk_type t = TK_INTEGER -> node t root nothing nothing = int (c_atol (tk_str t));
  m_add : forall t root x y, tk_type t = TK_PLUS -> is_s32 x -> is_s32 y -> is_s32 (x + y) ->
    node t root (int x) (int y) = int (x + y);
  m_sub : forall t root x y, tk_type t = TK_MINUS -> is_s32 x -> is_s32 y -> is_s32 (x - y) ->
    node t root (int x) (int y) = int (x - y);
  m_neg : forall t root x, tk_type t = TK_MINUS -> is_s32 x -> is_s32 (- x) ->
    node t root (int x) nothing = int (- x);
  m_mul : forall t root x y, tk_type t = TK_MULTIPLY -> is_s32 x -> is_s32 y -> is_s32 (x * y) ->
    node t root (int x) (int y) = int (x * y);
  m_div : forall t root x y q, tk_type t = TK_DIVIDE -> is_s32 x -> is_s32 y -> y <> 0 ->
    quotient x y q -> is_s32 q -> node t root (int x) (int y) = int q
}.
End Meaning.

(** [number n z]: [n] is built from integer literals with + - * / only, and
    [z] is its value; every intermediate value is a 32-bit integer and no
    divisor is zero. *)
Inductive number : ast -> Z -> Prop :=
| nu_lit t root : tk_type t = TK_INTEGER -> number (ANode t root ANull ANull) (c_atol (tk_str t))
| nu_add t root a b x y : tk_type t = TK_PLUS -> number a x -> number b y -> is_s32 (x + y) ->
    number (ANode t root a b) (x + y)
| nu_sub t root a b x y : tk_type t = TK_MINUS -> number a x -> number b y -> is_s32 (x - y) ->
    number (ANode t root a b) (x - y)
| nu_neg t root a x : tk_type t = TK_MINUS -> number a x -> is_s32 (- x) ->
    number (ANode t root a ANull) (- x)
| nu_mul t root a b x y : tk_type t = TK_MULTIPLY -> number a x -> number b y -> is_s32 (x * y) ->
    number (ANode t root a b) (x * y)
| nu_div t root a b x y q : tk_type t = TK_DIVIDE -> number a x -> number b y -> y <> 0 ->
    quotient x y q -> is_s32 q -> number (ANode t root a b) q.

(** Somewhere in the tree, + - or * of two such numbers, or the negation of
    one, is not a 32-bit integer: executing that operator overflows too. *)
Inductive overflows : ast -> Prop :=
| ov_add t root a b x y : tk_type t = TK_PLUS -> number a x -> number b y -> ~ is_s32 (x + y) -> overflows (ANode t root a b)
| ov_sub t root a b x y : tk_type t = TK_MINUS -> number a x -> number b y -> ~ is_s32 (x - y) -> overflows (ANode t root a b)
| ov_neg t root a x : tk_type t = TK_MINUS -> number a x -> ~ is_s32 (- x) -> overflows (ANode t root a ANull)
| ov_mul t root a b x y : tk_type t = TK_MULTIPLY -> number a x -> number b y -> ~ is_s32 (x * y) -> overflows (ANode t root a b)
| ov_left t root a b : overflows a -> overflows (ANode t root a b)
| ov_right t root a b : overflows b -> overflows (ANode t root a b).
