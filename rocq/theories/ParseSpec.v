(** * ParseSpec: what an expression's text means

    Written expressions with every token of their text, the text they are
    written as, when a nesting of operators is the one the precedence rules
    ask for, and the tree handed to the code generator. *)

From Verif Require Import Base.
From Verif Require Import TokenModel.
From Verif Require Import ExprModel.

(** Infix operators, tightest first. *)
Definition tiers : list (list Z) :=
  [ [TK_MULTIPLY; TK_DIVIDE; TK_MODULO];
    [TK_PLUS; TK_MINUS];
    [TK_GT; TK_LT; TK_GE; TK_LE];
    [TK_EQ; TK_NE; TK_SAME];
    [TK_AND];
    [TK_OR];
    [TK_ASSIGNMENT] ].

(** [rank t n]: an operator with token type [t] belongs to tier [n]. *)
Definition rank (t : Z) (n : nat) : Prop :=
  exists l, nth_error tiers n = Some l /\ In t l.

(** Written expressions. *)
Inductive expr :=
| EAtom (t : token)                               (* a name or a literal *)
| EFunc (ts : list token) (t : token)             (* a function literal with text [ts];
                                                     [t] carries its number *)
| EGroup (o : token) (e : expr) (c : token)       (* ( e ) *)
| EPre (o : token) (e : expr)                     (* -e !e ++e --e *)
| EIncDec (e : expr) (o : token)                  (* e++ e-- *)
| EIndex (e : expr) (o : token) (i : expr) (c : token)   (* e[i] *)
| EField (e : expr) (d n : token)                 (* e.n *)
| ECall (e : expr) (o : token) (a : args) (c : token)    (* e(a) *)
| EMethod (e : expr) (d n o : token) (a : args) (c : token)   (* e->n(a) *)
| EInfix (a : expr) (o : token) (b : expr)        (* a o b *)
with args :=
| NoArgs
| LastArg (e : expr)
| Arg (e : expr) (c : token) (r : args).          (* e , r *)

(** The text. *)
Fixpoint text (e : expr) : list token :=
  match e with
  | EAtom t => [t]
  | EFunc ts _ => ts
  | EGroup o e c => [o] ++ text e ++ [c]
  | EPre o e => [o] ++ text e
  | EIncDec e o => text e ++ [o]
  | EIndex e o i c => text e ++ [o] ++ text i ++ [c]
  | EField e d n => text e ++ [d; n]
  | ECall e o a c => text e ++ [o] ++ args_text a ++ [c]
  | EMethod e d n o a c => text e ++ [d; n; o] ++ args_text a ++ [c]
  | EInfix a o b => text a ++ [o] ++ text b
  end
with args_text (a : args) : list token :=
  match a with
  | NoArgs => []
  | LastArg e => text e
  | Arg e c r => text e ++ [c] ++ args_text r
  end.

(** Tokens that end an expression; [TK_INVALID] stands for the end of the text. *)
Definition ender (t : Z) : Prop :=
  In t [TK_INVALID; TK_PAREN_CLOSE; TK_BRACKET_CLOSE; TK_COMMA; TK_SEMICOLON].
(** Tokens the parser lets close a parenthesis. *)
Definition closer (t : Z) : Prop := In t [TK_PAREN_CLOSE; TK_BRACKET_CLOSE; TK_COMMA].
Definition prefix_op (t : Z) : Prop := In t [TK_MINUS; TK_NOT; TK_INCREMENT; TK_DECREMENT].
(** Tokens the parser takes as a value: anything else. *)
Definition operand (t : Z) : Prop :=
  ~ ender t /\ ~ prefix_op t /\ t <> TK_PAREN_OPEN /\ t <> TK_FUNCTION.

Definition infix_at (e : expr) (n : nat) : Prop :=
  match e with EInfix _ o _ => rank (tk_type o) n | _ => False end.
Definition is_infix (e : expr) : Prop := match e with EInfix _ _ _ => True | _ => False end.
Definition is_pre (e : expr) : Prop := match e with EPre _ _ => True | _ => False end.
(** What a postfix operator may follow. *)
Definition tight (e : expr) : Prop := ~ is_infix e /\ ~ is_pre e.

(** [e]'s operators are nested as the precedence rules ask for: a postfix
    operator binds tighter than a prefix operator, which binds tighter than
    an infix operator; among infix operators the lower tier binds tighter,
    and operators of one tier group to the left. *)
Fixpoint grouped (e : expr) : Prop :=
  match e with
  | EAtom t => operand (tk_type t)
  | EFunc ts t => tk_type t = TK_FUNCTION /\
      match ts with [] => False | f :: _ => tk_type f = TK_FUNCTION end
  | EGroup o e c => tk_type o = TK_PAREN_OPEN /\ grouped e /\ closer (tk_type c)
  | EPre o e => prefix_op (tk_type o) /\ grouped e /\ ~ is_infix e
  | EIncDec e o => grouped e /\ tight e /\ In (tk_type o) [TK_INCREMENT; TK_DECREMENT]
  | EIndex e o i c =>
      grouped e /\ tight e /\ tk_type o = TK_BRACKET_OPEN /\ grouped i /\ tk_type c = TK_BRACKET_CLOSE
  | EField e d n => grouped e /\ tight e /\ tk_type d = TK_DOT /\ tk_type n = TK_IDENTIFIER
  | ECall e o a c =>
      grouped e /\ tight e /\ tk_type o = TK_PAREN_OPEN /\ args_grouped a /\ tk_type c = TK_PAREN_CLOSE
  | EMethod e d n o a c =>
      grouped e /\ tight e /\ tk_type d = TK_INDIRECTION /\ tk_type n = TK_IDENTIFIER /\
      tk_type o = TK_PAREN_OPEN /\ args_grouped a /\ tk_type c = TK_PAREN_CLOSE
  | EInfix a o b =>
      grouped a /\ grouped b /\
      exists n, rank (tk_type o) n /\
        (forall m, infix_at a m -> (m <= n)%nat) /\
        (forall m, infix_at b m -> (m < n)%nat)
  end
with args_grouped (a : args) : Prop :=
  match a with
  | NoArgs => True
  | LastArg e => grouped e
  | Arg e c r => grouped e /\ tk_type c = TK_COMMA /\ args_grouped r
  end.

(** ** The tree *)

(** Tokens the parser invents: type, text and line. *)
Definition invented (ty : Z) (s : bytes) (line : Z) : token := mkTok ty s line 0 0.

(** A parenthesized or plain name of a function-style operator. *)
Definition bare (e : expr) : bool :=
  match e with EAtom _ | EFunc _ _ | EGroup _ _ _ => true | _ => false end.
Definition names_fse (n : ast) : bool :=
  match n with ANode t _ _ _ => tk_type t =? TK_FSE | ANull => false end.
Definition token_of (n : ast) : token :=
  match n with ANode t _ _ _ => t | ANull => invented TK_INVALID [] 0 end.

(** Parentheses leave no trace; arguments hang in a chain from the call.  A
    call of the name of a built-in operator (len, object, yield, ...) becomes
    that operator. *)
Fixpoint tree (e : expr) : ast :=
  match e with
  | EAtom t => ANode t false ANull ANull
  | EFunc _ t => ANode t false ANull ANull
  | EGroup _ e _ => tree e
  | EPre o e => ANode o false (tree e) ANull
  | EIncDec e o =>
      ANode (if tk_type o =? TK_INCREMENT then invented TK_POSTINC (bs "++") (tk_line o)
             else invented TK_POSTDEC (bs "--") (tk_line o)) false (tree e) ANull
  | EIndex e o i _ => ANode o false (tree e) (tree i)
  | EField e _ n =>
      ANode (invented TK_BRACKET_OPEN (bs "[") (tk_line n)) false (tree e)
        (ANode (invented TK_STRING (tk_str n) (tk_line n)) false ANull ANull)
  | ECall e o a _ =>
      if bare e && names_fse (tree e) then
        ANode (invented TK_FSE (tk_str (token_of (tree e))) (tk_line (token_of (tree e)))) true
          ANull (chain o a)
      else ANode o true (tree e) (chain o a)
  | EMethod e _ n o a _ =>
      let c := invented TK_CALL_SELF (bs "(") (tk_line o) in
      ANode c true
        (ANode (invented TK_INDEX_NOPOP (bs "[") (tk_line n)) false (tree e)
          (ANode (invented TK_STRING (tk_str n) (tk_line n)) false ANull ANull))
        (chain c a)
  | EInfix a o b => ANode o false (tree a) (tree b)
  end
with chain (t : token) (a : args) : ast :=
  match a with
  | NoArgs => ANull
  | LastArg e => ANode t false (tree e) ANull
  | Arg e _ r => ANode t false (tree e) (chain t r)
  end.

(** ** How deep an expression is nested *)

(** Levels of parentheses, indices and argument lists around the innermost
    part.  An argument list counts twice. *)
Fixpoint depth (e : expr) : Z :=
  match e with
  | EAtom _ | EFunc _ _ => 0
  | EGroup _ e _ => 1 + depth e
  | EPre _ e => depth e
  | EIncDec e _ => depth e
  | EIndex e _ i _ => Z.max (depth e) (1 + depth i)
  | EField e _ _ => depth e
  | ECall e _ a _ => Z.max (depth e) (1 + args_depth a)
  | EMethod e _ _ _ a _ => Z.max (depth e) (1 + args_depth a)
  | EInfix a _ b => Z.max (depth a) (depth b)
  end
with args_depth (a : args) : Z :=
  match a with
  | NoArgs => 0
  | LastArg e => 1 + depth e
  | Arg e _ r => Z.max (1 + depth e) (args_depth r)
  end.

(** No function literal inside. *)
Fixpoint no_func (e : expr) : Prop :=
  match e with
  | EAtom _ => True
  | EFunc _ _ => False
  | EGroup _ e _ | EPre _ e | EIncDec e _ | EField e _ _ => no_func e
  | EIndex e _ i _ => no_func e /\ no_func i
  | ECall e _ a _ | EMethod e _ _ _ a _ => no_func e /\ args_no_func a
  | EInfix a _ b => no_func a /\ no_func b
  end
with args_no_func (a : args) : Prop :=
  match a with
  | NoArgs => True
  | LastArg e => no_func e
  | Arg e _ r => no_func e /\ args_no_func r
  end.

(** No call directly of a parenthesized built-in operator, as in
    [(len(x))(y)]. *)
Definition grouped_fse (e : expr) : bool :=
  match e with EGroup _ e _ => names_fse (tree e) | _ => false end.
Fixpoint plain_calls (e : expr) : Prop :=
  match e with
  | EAtom _ | EFunc _ _ => True
  | EGroup _ e _ | EPre _ e | EIncDec e _ | EField e _ _ => plain_calls e
  | EIndex e _ i _ => plain_calls e /\ plain_calls i
  | ECall e _ a _ => plain_calls e /\ grouped_fse e = false /\ args_plain a
  | EMethod e _ _ _ a _ => plain_calls e /\ args_plain a
  | EInfix a _ b => plain_calls a /\ plain_calls b
  end
with args_plain (a : args) : Prop :=
  match a with
  | NoArgs => True
  | LastArg e => plain_calls e
  | Arg e _ r => plain_calls e /\ args_plain r
  end.
