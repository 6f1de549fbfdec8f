(** * TokenSpec: the lexical grammar of scripts

    Independent of the tokenizer: a script is cut into pieces, and each kind
    of piece says which characters it consists of and what may follow it. *)

From Verif Require Import Base TokenModel.
Import String.

(** ** Characters *)

Definition space (c : Z) : Prop := In c [32; 9; 10; 13].
Definition digit (c : Z) : Prop := 48 <= c <= 57.
Definition letter (c : Z) : Prop :=
  65 <= c <= 90 \/ 97 <= c <= 122 \/ c = 95 \/ 128 <= c.

(** What follows does not begin with such a character. *)
Definition not_followed_by (P : Z -> Prop) (rest : bytes) : Prop :=
  match rest with [] => True | c :: _ => ~ P c end.

(** ** Operators and words *)

Definition operators : list (Z * bytes) :=
  [ (TK_PAREN_OPEN, bs "("); (TK_PAREN_CLOSE, bs ")");
    (TK_BRACKET_OPEN, bs "["); (TK_BRACKET_CLOSE, bs "]");
    (TK_CURLY_OPEN, bs "{"); (TK_CURLY_CLOSE, bs "}");
    (TK_INCREMENT, bs "++"); (TK_PLUS, bs "+");
    (TK_DECREMENT, bs "--"); (TK_INDIRECTION, bs "->"); (TK_MINUS, bs "-");
    (TK_MULTIPLY, bs "*"); (TK_MODULO, bs "%"); (TK_DOT, bs "."); (TK_DIVIDE, bs "/");
    (TK_SEMICOLON, bs ";"); (TK_COMMA, bs ",");
    (TK_SAME, bs "==="); (TK_EQ, bs "=="); (TK_ASSIGNMENT, bs "=");
    (TK_GE, bs ">="); (TK_GT, bs ">"); (TK_LE, bs "<="); (TK_LT, bs "<");
    (TK_NE, bs "!="); (TK_NOT, bs "!"); (TK_AND, bs "&&"); (TK_OR, bs "||") ].

Definition keywords : list (bytes * Z) :=
  [ (bs "var", TK_VAR); (bs "function", TK_FUNCTION); (bs "return", TK_RETURN);
    (bs "if", TK_IF); (bs "else", TK_ELSE); (bs "while", TK_WHILE); (bs "do", TK_DO);
    (bs "for", TK_FOR); (bs "newobject", TK_NEWOBJECT); (bs "nil", TK_NIL);
    (bs "break", TK_BREAK);
    (bs "coroutine", TK_FSE); (bs "yield", TK_FSE); (bs "resume", TK_FSE);
    (bs "is_finished", TK_FSE); (bs "object", TK_FSE); (bs "len", TK_FSE) ].

(** The type of a word: that of the keyword, or an identifier. *)
Definition type_of_word (w : bytes) (ty : Z) : Prop :=
  In (w, ty) keywords \/ (ty = TK_IDENTIFIER /\ ~ In w (map fst keywords)).

(** ** String literals *)

(** [decodes b t]: between quotes, the characters [b] denote the text [t]. *)
Inductive decodes : bytes -> bytes -> Prop :=
| dc_nil : decodes [] []
| dc_plain c b t : c <> 92 -> c <> 34 -> c <> 10 -> decodes b t -> decodes (c :: b) (c :: t)
| dc_n b t : decodes b t -> decodes (92 :: 110 :: b) (10 :: t)
| dc_r b t : decodes b t -> decodes (92 :: 114 :: b) (13 :: t)
| dc_t b t : decodes b t -> decodes (92 :: 116 :: b) (9 :: t)
| dc_quote b t : decodes b t -> decodes (92 :: 34 :: b) (34 :: t)
| dc_other c b t : ~ In c [110; 114; 116; 34; 10] ->
    decodes b t -> decodes (92 :: c :: b) (92 :: c :: t).

(** A literal that is still open at the end of the script may end in a single
    backslash. *)
Inductive decodes_open : bytes -> bytes -> Prop :=
| do_whole b t : decodes b t -> decodes_open b t
| do_backslash b t : decodes b t -> decodes_open (b ++ [92]) (t ++ [92]).

(** ** Pieces *)

Inductive piece :=
| PSpace (c : Z)
| PComment (raw : bytes)
| PDirective (raw : bytes)
| PToken (ty : Z) (raw txt : bytes).

Definition raw (p : piece) : bytes :=
  match p with
  | PSpace c => [c]
  | PComment r => r
  | PDirective r => r
  | PToken _ r _ => r
  end.

(** [piece_at p rest]: [p] is a complete piece when [rest] follows it. *)
Inductive piece_at : piece -> bytes -> Prop :=
| pa_space c rest : space c -> piece_at (PSpace c) rest
| pa_comment t rest : (* to the end of the line *)
    Forall (fun c => c <> 10) t ->
    not_followed_by (fun c => c <> 10) rest ->
    piece_at (PComment (bs "//" ++ t)) rest
| pa_directive t e rest : (* including the character that ends the line *)
    Forall (fun c => c <> 10 /\ c <> 13) t ->
    (e = [10] \/ e = [13] \/ (e = [] /\ rest = [])) ->
    piece_at (PDirective (bs "#" ++ t ++ e)) rest
| pa_operator ty t rest : (* the longest operator that fits *)
    In (ty, t) operators ->
    (forall t' u, In t' (bs "//" :: map snd operators) -> t ++ rest = t' ++ u ->
                  (List.length t' <= List.length t)%nat) ->
    piece_at (PToken ty t t) rest
| pa_integer c t rest :
    digit c -> Forall digit t -> (List.length t <= 254)%nat ->
    (List.length t = 254%nat \/ not_followed_by (fun c => digit c \/ c = 46) rest) ->
    piece_at (PToken TK_INTEGER (c :: t) (c :: t)) rest
| pa_float c t rest :
    digit c -> Forall (fun c => digit c \/ c = 46) t -> In 46 t -> (List.length t <= 254)%nat ->
    (List.length t = 254%nat \/ not_followed_by (fun c => digit c \/ c = 46) rest) ->
    piece_at (PToken TK_FLOAT (c :: t) (c :: t)) rest
| pa_word c t ty rest :
    letter c -> Forall (fun c => letter c \/ digit c) t ->
    not_followed_by (fun c => letter c \/ digit c) rest ->
    type_of_word (c :: t) ty ->
    piece_at (PToken ty (c :: t) (c :: t)) rest
| pa_string b t rest :
    decodes b t -> piece_at (PToken TK_STRING (bs """" ++ b ++ bs """") t) rest
| pa_open_string b t :
    decodes_open b t -> piece_at (PToken TK_STRING (bs """" ++ b) t) [].

(** The text of a list of pieces, and that each is complete where it stands. *)
Fixpoint raws (ps : list piece) : bytes :=
  match ps with [] => [] | p :: q => raw p ++ raws q end.
Fixpoint lexes (ps : list piece) : Prop :=
  match ps with [] => True | p :: q => piece_at p (raws q) /\ lexes q end.

Definition is_directive (p : piece) : Prop :=
  match p with PDirective _ => True | _ => False end.

(** ** From pieces to tokens *)

(** Type and text of the tokens among the pieces. *)
Fixpoint tokens_of (ps : list piece) : list (Z * bytes) :=
  match ps with
  | [] => []
  | PToken ty _ t :: q => (ty, t) :: tokens_of q
  | _ :: q => tokens_of q
  end.

(** Adjacent string literals are one literal. *)
Fixpoint joined (l : list (Z * bytes)) : list (Z * bytes) :=
  match l with
  | [] => []
  | (ty, t) :: q =>
    match joined q with
    | (ty2, t2) :: r =>
      if (ty =? TK_STRING) && (ty2 =? TK_STRING) then (ty, t ++ t2) :: r
      else (ty, t) :: (ty2, t2) :: r
    | [] => [(ty, t)]
    end
  end.

(** The same with the line each token starts on: 1 plus the number of line
    ends before it. *)
Fixpoint located (line : Z) (ps : list piece) : list (Z * bytes * Z) :=
  match ps with
  | [] => []
  | PToken ty _ t :: q => (ty, t, line) :: located line q
  | PSpace c :: q => located (if c =? 10 then line + 1 else line) q
  | _ :: q => located line q
  end.
Fixpoint joined_at (l : list (Z * bytes * Z)) : list (Z * bytes * Z) :=
  match l with
  | [] => []
  | (ty, t, n) :: q =>
    match joined_at q with
    | (ty2, t2, n2) :: r =>
      if (ty =? TK_STRING) && (ty2 =? TK_STRING) then (ty, t ++ t2, n) :: r
      else (ty, t, n) :: (ty2, t2, n2) :: r
    | [] => [(ty, t, n)]
    end
  end.

(** ** Directives whose quotes are closed *)

Fixpoint quotes (l : bytes) : Z :=
  match l with [] => 0 | c :: r => (if c =? 34 then 1 else 0) + quotes r end.

(** Every line fragment that starts with a # has an even number of quotes
    and no backslash. *)
Definition directives_closed (s : bytes) : Prop :=
  forall a l b, s = a ++ 35 :: l ++ b -> Forall (fun c => c <> 10) l ->
    not_followed_by (fun c => c <> 10) b ->
    Z.even (quotes l) = true /\ ~ In 92 l.
