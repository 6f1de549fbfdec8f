(** * UniqSpec: two readings of a text that are the same

    A reading of a script gives numbers to its functions.  Two readings are the
    same when they are equal but for those numbers. *)

From Verif Require Import Base TokenModel ParseSpec RunSpec.

Definition some_function : token := mkTok TK_FUNCTION [] 0 0 0.
(** The numbers left out. *)
Fixpoint norm (e : expr) : expr :=
  match e with
  | EAtom t => EAtom t
  | EFunc ts _ => EFunc ts some_function
  | EGroup o e c => EGroup o (norm e) c
  | EPre o e => EPre o (norm e)
  | EIncDec e o => EIncDec (norm e) o
  | EIndex e o i c => EIndex (norm e) o (norm i) c
  | EField e d n => EField (norm e) d n
  | ECall e o a c => ECall (norm e) o (args_norm a) c
  | EMethod e d n o a c => EMethod (norm e) d n o (args_norm a) c
  | EInfix a o b => EInfix (norm a) o (norm b)
  end
with args_norm (a : args) : args :=
  match a with
  | NoArgs => NoArgs
  | LastArg e => LastArg (norm e)
  | Arg e c r => Arg (norm e) c (args_norm r)
  end.
Fixpoint snorm (s : stmt) : stmt :=
  match s with
  | SExpr e semi => SExpr (norm e) semi
  | SVar v n semi => SVar v n semi
  | SInit v n q e semi => SInit v n q (norm e) semi
  | SReturn r e semi => SReturn r (norm e) semi
  | SBlock o l c => SBlock o (ssnorm l) c
  | SIf i o e c s => SIf i o (norm e) c (snorm s)
  | SElse i o e c s el s2 => SElse i o (norm e) c (snorm s) el (snorm s2)
  | SWhile w o e c s => SWhile w o (norm e) c (snorm s)
  | SDo d s w o e c semi => SDo d (snorm s) w o (norm e) c semi
  | SFor f o s0 e semi i c s => SFor f o (snorm s0) (norm e) semi (norm i) c (snorm s)
  | SBreak b semi => SBreak b semi
  | SFunc _ f n o p c s => SFunc 0 f n o p c (snorm s)
  end
with ssnorm (l : stmts) : stmts :=
  match l with Done => Done | Then s r => Then (snorm s) (ssnorm r) end.

Definition same_expr (e e' : expr) : Prop := norm e = norm e'.
Definition same_stmt (s s' : stmt) : Prop := snorm s = snorm s'.
Definition same_stmts (l l' : stmts) : Prop := ssnorm l = ssnorm l'.
(** Two functions with the same parameters and body. *)
Definition same_function (f f' : fundef) : Prop := fd_params f = fd_params f' /\ same_stmt (fd_body f) (fd_body f').

(** A script without functions: its reading has no numbers. *)
Fixpoint no_functions (s : stmt) : Prop :=
  match s with
  | SExpr e _ | SInit _ _ _ e _ | SReturn _ e _ => no_func e
  | SVar _ _ _ | SBreak _ _ => True
  | SBlock _ l _ => all_no_functions l
  | SIf _ _ e _ s | SWhile _ _ e _ s | SDo _ s _ _ e _ _ => no_func e /\ no_functions s
  | SElse _ _ e _ s _ s2 => no_func e /\ no_functions s /\ no_functions s2
  | SFor _ _ s0 e _ i _ s => no_functions s0 /\ no_func e /\ no_func i /\ no_functions s
  | SFunc _ _ _ _ _ _ _ => False
  end
with all_no_functions (l : stmts) : Prop :=
  match l with Done => True | Then s r => no_functions s /\ all_no_functions r end.
