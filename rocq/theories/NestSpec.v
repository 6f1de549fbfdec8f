(** * NestSpec: which scripts use up the recursion limit *)

From Verif Require Import Base TokenModel.
From Coq Require Import ZArith List.
Import ListNotations.
Open Scope Z_scope.

(** Statements that leave the count one too high: declarations and returns. *)
Fixpoint leaks (l : list token) : Z :=
  match l with
  | [] => 0
  | t :: r => (if (tk_type t =? TK_VAR) || (tk_type t =? TK_RETURN) then 1 else 0) + leaks r
  end.

(** Every opening bracket indexes a name, a string or something indexed. *)
Definition indexes (l : list token) : Prop :=
  match l with t :: _ => tk_type t <> TK_BRACKET_OPEN | [] => True end /\
  forall p a b q, l = p ++ a :: b :: q -> tk_type b = TK_BRACKET_OPEN ->
    In (tk_type a) [TK_IDENTIFIER; TK_STRING; TK_BRACKET_CLOSE].
