(** * NameSpec: the names a script uses and the names it declares (C41)

    Only names: nothing is said about where variables live. *)

From Verif Require Import Base State TokenModel ExprModel ParseSpec RunSpec.

(** The variables an expression mentions.  The names of fields and methods are
    not variables.  [bare] and [names_fse] (ParseSpec.v): in a call of a
    built-in operator only the arguments count. *)
Fixpoint mentions (e : expr) : list bytes :=
  match e with
  | EAtom t => if tk_type t =? TK_IDENTIFIER then [tk_str t] else []
  | EFunc _ _ => []
  | EGroup _ e _ => mentions e
  | EPre _ e => mentions e
  | EIncDec e _ => mentions e
  | EIndex e _ i _ => mentions e ++ mentions i
  | EField e _ _ => mentions e
  | ECall e _ a _ => (if bare e && names_fse (tree e) then [] else mentions e) ++ args_mention a
  | EMethod e _ _ _ a _ => mentions e ++ args_mention a
  | EInfix a _ b => mentions a ++ mentions b
  end
with args_mention (a : args) : list bytes :=
  match a with
  | NoArgs => []
  | LastArg e => mentions e
  | Arg e _ r => mentions e ++ args_mention r
  end.

(** The names declared in the scopes around a point of the text, innermost
    scope first, the global one last. *)
Definition declared (x : bytes) (G : list (list bytes)) : Prop := exists s, In s G /\ In x s.
Definition add_name (x : bytes) (G : list (list bytes)) : list (list bytes) :=
  match G with [] => [] | s :: r => (x :: s) :: r end.
Definition names_after (s : stmt) (G : list (list bytes)) : list (list bytes) :=
  match s with
  | SVar _ n _ | SInit _ n _ _ _ | SFunc _ _ n _ _ _ _ => add_name (tk_str n) G
  | _ => G
  end.

(** Names every function has. *)
Definition builtin_names : list bytes := [bs "_functionId"; bs "_argumentCount"; bs "_returnPointer"].

Definition all_declared (e : expr) (G : list (list bytes)) : Prop := forall x, In x (mentions e) -> declared x G.

(** Every variable mentioned has been declared before, in a scope that is still
    open.  A function sees its parameters, itself if it is global, and the
    globals declared before it, but not the variables of the function or block
    it is written in.  [lits] (RunSpec.v): the functions written in an
    expression. *)
Inductive resolved : list (list bytes) -> stmt -> Prop :=
| rs_expr G e semi : uses G e -> resolved G (SExpr e semi)
| rs_var G v n semi : resolved G (SVar v n semi)
| rs_init G v n q e semi : uses G e -> resolved G (SInit v n q e semi)
| rs_return G r e semi : uses G e -> resolved G (SReturn r e semi)
| rs_block G o l c : sresolved ([] :: G) l -> resolved G (SBlock o l c)
| rs_if G i o e c s : uses G e -> resolved ([] :: G) s -> resolved G (SIf i o e c s)
| rs_else G i o e c s el s2 : uses G e -> resolved ([] :: G) s -> resolved ([] :: G) s2 -> resolved G (SElse i o e c s el s2)
| rs_while G w o e c s : uses G e -> resolved ([] :: [] :: [] :: G) s -> resolved G (SWhile w o e c s)
| rs_do G d s w o e c semi : resolved ([] :: [] :: [] :: G) s -> uses G e -> resolved G (SDo d s w o e c semi)
| rs_for G G1 f o s0 e semi i c s : resolved ([] :: [] :: G) s0 -> G1 = names_after s0 ([] :: [] :: G) ->
    uses G1 e -> uses G1 i -> resolved ([] :: G1) s -> resolved G (SFor f o s0 e semi i c s)
| rs_break G b semi : resolved G (SBreak b semi)
| rs_func G id f n o p c s : resolved [names p ++ builtin_names; last (add_name (tk_str n) G) []] s ->
    resolved G (SFunc id f n o p c s)
with sresolved : list (list bytes) -> stmts -> Prop :=
| rs_done G : sresolved G Done
| rs_then G s r : resolved G s -> sresolved (names_after s G) r -> sresolved G (Then s r)
(** An expression, and the functions written in it. *)
with uses : list (list bytes) -> expr -> Prop :=
| us_expr G e : all_declared e G -> (forall ts t, In (ts, t) (lits e) -> lit_resolved G ts) -> uses G e
with lit_resolved : list (list bytes) -> list token -> Prop :=
| rs_literal G f o p c s : tk_type f = TK_FUNCTION -> written s -> resolved [names p ++ builtin_names; last G []] s ->
    lit_resolved G ([f; o] ++ ptext p ++ [c] ++ stext s).
