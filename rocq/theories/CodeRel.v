(** * CodeRel: what code the compiler writes for which text

    An intermediate description used by the proofs of C37, C38, C40-C42: the
    compiler's output has this form (EmitProofs, StmtProofs), and code of this
    form does what the text means (ExecProofs). *)

From Verif Require Import Base State TokenModel CsModel ExprModel CompModel ParseSpec RunSpec.
From Verif Require TraceProofs.

(** ** Expressions *)

(** nkiCompilerExpressionExpandIncrementsAndDecrements without the recursion
    limit. *)
Fixpoint expandp (n : ast) (discard : bool) : ast :=
  match n with
  | ANull => ANull
  | ANode t root c0 c1 =>
    if is_incdec (tk_type t) then expand_node t c0 discard
    else ANode t root (expandp c0 false) (expandp c1 false)
  end.

Definition fetch_code (p : place) (off : Z) : list Z :=
  match p with
  | Global i => [OP_LIT_INT; u32 i; OP_STATICPEEK]
  | Local i => [OP_LIT_INT; u32 (i - off); OP_STACKPEEK]
  end.
Definition store_code (p : place) (off : Z) : list Z :=
  match p with
  | Global i => [OP_LIT_INT; u32 i; OP_STATICPOKE]
  | Local i => [OP_LIT_INT; u32 (i - off); OP_STACKPOKE]
  end.

(** nkiCompilerEmitFunctionStyleExpression: the words and the change of the
    tracked stack depth. *)
Definition fse_code (name : bytes) (argc : Z) (ws : list Z) (d : Z) : Prop :=
  (name = bs "coroutine" /\ ws = [OP_LIT_INT; u32 (argc - 1); OP_CORO_CREATE] /\ d = 1 - argc) \/
  (name = bs "yield" /\ argc = 0 /\ ws = [OP_NIL; OP_CORO_YIELD] /\ d = 1) \/
  (name = bs "yield" /\ argc = 1 /\ ws = [OP_CORO_YIELD] /\ d = 0) \/
  (name = bs "resume" /\ argc = 1 /\ ws = [OP_NIL; OP_CORO_RESUME] /\ d = 0) \/
  (name = bs "resume" /\ argc = 2 /\ ws = [OP_CORO_RESUME] /\ d = -1) \/
  (name = bs "is_finished" /\ argc = 1 /\ ws = [OP_CORO_FINISHED] /\ d = 1) \/
  (name = bs "object" /\ argc = 0 /\ ws = [OP_NEWOBJ] /\ d = 1) \/
  (name = bs "len" /\ argc = 1 /\ ws = [OP_LEN] /\ d = 0) \/
  (name <> bs "object" /\ name <> bs "len" /\ ws = [] /\ d = 0).

(** The texts of the string literals, by identifier. *)
Class Lits := lit : Z -> option bytes.
Section Literals.
Context {LT : Lits}.

(** The words of a node after those of its children: [off] is the tracked
    stack depth before them, [off'] after. *)
Definition tail_code (sc : list scope) (off : Z) (t : token) (root : bool) (c1 : ast) (ws : list Z) (off' : Z) : Prop :=
  let ty := tk_type t in
  if ty =? TK_FUNCTION then ws = [OP_LIT_FUNC; u32 (c_atol (tk_str t))] /\ off' = off + 1
  else if ty =? TK_INTEGER then ws = [OP_LIT_INT; u32 (c_atol (tk_str t))] /\ off' = off + 1
  else if ty =? TK_FLOAT then ws = [OP_LIT_FLOAT; c_atof (tk_str t)] /\ off' = off + 1
  else if ty =? TK_STRING then exists i, lit i = Some (tk_str t) /\ ws = [OP_LIT_STRING; i] /\ off' = off + 1
  else if ty =? TK_IDENTIFIER then
    exists p, lookup (tk_str t) sc = Some p /\ ws = fetch_code p off /\ off' = off + 1
  else if ty =? TK_FSE then
    root = true /\ fse_code (tk_str t) (chain_length c1) ws (off' - off)
  else if (ty =? TK_PAREN_OPEN) || (ty =? TK_CALL_SELF) then
    if root then
      let n := chain_length c1 in
      if ty =? TK_CALL_SELF then ws = [OP_LIT_INT; u32 n; OP_SELFCALL; OP_CALL] /\ off' = off - n - 1
      else ws = [OP_LIT_INT; u32 n; OP_CALL] /\ off' = off - n
    else ws = [] /\ off' = off
  else
    exists op, plain_op ty (is_null c1) = Some op /\ ws = [op] /\ off' = off + stack_offset op.

(** The words of an expression (after expansion and folding), given the
    tracked stack depth before it; [off'] is the depth after. *)
Fixpoint ecode (sc : list scope) (off : Z) (n : ast) (ws : list Z) (off' : Z) : Prop :=
  match n with
  | ANull => ws = [] /\ off' = off
  | ANode t root c0 c1 =>
    if tk_type t =? TK_ASSIGNMENT then
      exists w1 off1, ecode sc off c1 w1 off1 /\
      match c0 with
      | ANull => False
      | ANode t0 _ c00 c01 =>
        if tk_type t0 =? TK_IDENTIFIER then
          exists p, lookup (tk_str t0) sc = Some p /\ ws = w1 ++ store_code p off1 /\ off' = off1
        else
          tk_type t0 = TK_BRACKET_OPEN /\
          exists w2 off2 w3 off3, ecode sc off1 c00 w2 off2 /\ ecode sc off2 c01 w3 off3 /\
            ws = w1 ++ w2 ++ w3 ++ [OP_FIELDSET] /\ off' = off3 - 2
      end
    else
      exists w0 off0 w1 off1 w2, ecode sc off c0 w0 off0 /\ ecode sc off0 c1 w1 off1 /\
        tail_code sc off1 t root c1 w2 off' /\ ws = w0 ++ w1 ++ w2
  end.

(** ** Statements *)

(** The instruction memory: the word at each address. *)
Definition mem_words (m : Z -> option Z) (a : Z) (ws : list Z) : Prop :=
  forall i w, znth ws i = Some w -> m (a + i) = Some w.

Definition used_at (E : env) (u : Z) : env := mkEnv (e_scopes E) u (e_globals E).

Definition is_local (e : bytes * place) : bool := match snd e with Local _ => true | Global _ => false end.
Definition locals_of (E : env) : Z :=
  match e_scopes E with [] => 0 | s :: _ => zlen (filter is_local s) end.
(** What closes a scope with [n] variables. *)
Definition pop_words (n : Z) : list Z := if n =? 0 then [] else [OP_LIT_INT; u32 n; OP_POPN].

(** What makes the value on top of the stack a variable. *)
Definition decl_words (E : env) : list Z :=
  match e_scopes E with
  | [_] => [OP_LIT_INT; u32 (e_globals E); OP_STATICPOKE; OP_POP]
  | _ => []
  end.

Definition jump_words (op a b : Z) : list Z := [OP_LIT_INT; u32 (b - a - 3); op].

(** What is around the code: how many globals there are, and the functions of
    the script by number. *)
Record around := mkAround { g_n : Z; g_funs : Z -> option fundef }.
Coercion g_n : around >-> Z.

Section Code.
Variable m : Z -> option Z.
Variable ng : around.

(** The bodies of functions written in an expression, each with a jump over it,
    from [a] to [b]. *)
Inductive skips : list (list token * token) -> Z -> Z -> Prop :=
| sk_nil a : skips [] a a
| sk_cons ts t l a b b1 c fd : g_funs ng (number t) = Some fd -> mem_words m a (jump_words OP_JUMP a b1) ->
    0 <= b -> (exists w, m (b - 1) = Some w) -> (declares (fd_body fd) = false -> b = b1) ->
    skips l b c -> skips ((ts, t) :: l) a c.

Definition decl_ok (E : env) : Prop :=
  match e_scopes E with [_] => 0 <= e_globals E < ng | _ => True end.

(** The code of an expression from [a] to [b], without the functions written in
    it; [u] is the stack depth the compiler expects after it. *)
Definition pcode (discard : bool) (E : env) (e : expr) (a b u : Z) : Prop :=
  exists n ws, optimize (expandp (tree e) discard) = Ok n /\ ecode (e_scopes E) (e_used E) n ws u /\
    mem_words m a ws /\ b = a + zlen ws.
(** With them: they come first. *)
Definition xcode (discard : bool) (E : env) (e : expr) (a b u : Z) : Prop :=
  TraceProofs.neat e /\ exists a1, skips (lits e) a a1 /\ pcode discard E e a1 b u.

(** The code of a statement from [a] to [b].  [fa]: the number of parameters of
    the function it is in; [lp]: where break goes, and the stack depth there.
    The last argument is what is known after the statement. *)
Inductive scode : option Z -> option (Z * Z) -> env -> stmt -> Z -> Z -> env -> Prop :=
| sc_expr fa lp E e semi a b u : xcode true E e a b u -> mem_words m b [OP_POP] ->
    scode fa lp E (SExpr e semi) a (b + 1) (used_at E (u - 1))
| sc_var fa lp E v n semi a : mem_words m a ([OP_LIT_INT; 0] ++ decl_words E) -> decl_ok E ->
    scode fa lp E (SVar v n semi) a (a + zlen ([OP_LIT_INT; 0] ++ decl_words E)) (declare (tk_str n) E)
| sc_init fa lp E v n q e semi a b u : xcode false E e a b u -> mem_words m b (decl_words E) -> decl_ok E ->
    scode fa lp E (SInit v n q e semi) a (b + zlen (decl_words E)) (declare (tk_str n) (used_at E (u - 1)))
| sc_return n lp E r e semi a b u : xcode false E e a b u ->
    mem_words m b [OP_LIT_INT; u32 (u - n - 3); OP_RETURN] ->
    scode (Some n) lp E (SReturn r e semi) a (b + 3) (used_at E u)
| sc_block fa lp E o l c a b E1 : sscode fa lp (enter_scope E) l a b E1 -> mem_words m b (pop_words (locals_of E1)) ->
    scode fa lp E (SBlock o l c) a (b + zlen (pop_words (locals_of E1))) E
| sc_if fa lp E i o e c s a b1 u b2 E1 b : xcode false E e a b1 u -> mem_words m b1 (jump_words OP_JZ b1 b) ->
    scode fa lp (enter_scope (used_at E (u - 1))) s (b1 + 3) b2 E1 ->
    mem_words m b2 (pop_words (locals_of E1)) -> b = b2 + zlen (pop_words (locals_of E1)) ->
    scode fa lp E (SIf i o e c s) a b (used_at E (u - 1))
| sc_else fa lp E i o e c s el s2 a b1 u b2 E1 b3 b4 E2 b : xcode false E e a b1 u ->
    mem_words m b1 (jump_words OP_JZ b1 (b3 + 3)) ->
    scode fa lp (enter_scope (used_at E (u - 1))) s (b1 + 3) b2 E1 ->
    mem_words m b2 (pop_words (locals_of E1)) -> b3 = b2 + zlen (pop_words (locals_of E1)) ->
    mem_words m b3 (jump_words OP_JUMP b3 b) ->
    scode fa lp (enter_scope (used_at E (u - 1))) s2 (b3 + 3) b4 E2 ->
    mem_words m b4 (pop_words (locals_of E2)) -> b = b4 + zlen (pop_words (locals_of E2)) ->
    scode fa lp E (SElse i o e c s el s2) a b (used_at E (u - 1))
| sc_while fa lp E w o e c s a b1 u b2 E1 b3 b : xcode false (enter_loop E) e a b1 u ->
    mem_words m b1 (jump_words OP_JZ b1 b) ->
    scode fa (Some (b, e_used E)) (enter_scope (used_at (enter_loop E) (u - 1))) s (b1 + 3) b2 E1 ->
    mem_words m b2 (pop_words (locals_of E1)) -> b3 = b2 + zlen (pop_words (locals_of E1)) ->
    mem_words m b3 (jump_words OP_JUMP b3 a) -> b = b3 + 3 ->
    scode fa lp E (SWhile w o e c s) a b E
| sc_do fa lp E d s w o e c semi a b1 E1 b2 b3 u b :
    scode fa (Some (b, e_used E)) (enter_scope (enter_loop E)) s a b1 E1 ->
    mem_words m b1 (pop_words (locals_of E1)) -> b2 = b1 + zlen (pop_words (locals_of E1)) ->
    xcode false (enter_loop E) e b2 b3 u -> mem_words m b3 (OP_NOT :: jump_words OP_JZ (b3 + 1) a) -> b = b3 + 4 ->
    scode fa lp E (SDo d s w o e c semi) a b E
| sc_for fa lp E f o s0 e semi i c s a b1 E1 b2 u b2' b3 E2 b4 b5 u2 b6 b :
    scode fa (Some (b, e_used E)) (enter_loop E) s0 a b1 E1 ->
    xcode false E1 e b1 b2 u -> mem_words m b2 (jump_words OP_JZ b2 b6) ->
    skips (lits i) (b2 + 3) b2' ->
    scode fa (Some (b, e_used E)) (enter_scope (used_at E1 (u - 1))) s b2' b3 E2 ->
    mem_words m b3 (pop_words (locals_of E2)) -> b4 = b3 + zlen (pop_words (locals_of E2)) ->
    pcode true (used_at E1 (u - 1)) i b4 b5 u2 -> mem_words m b5 (OP_POP :: jump_words OP_JUMP (b5 + 1) b1) ->
    b6 = b5 + 4 -> mem_words m b6 (pop_words (locals_of E1)) -> b = b6 + zlen (pop_words (locals_of E1)) ->
    scode fa lp E (SFor f o s0 e semi i c s) a b E
| sc_break fa E k semi a T u : mem_words m a ([OP_LIT_INT; u32 (e_used E - u); OP_POPN] ++ jump_words OP_JUMP (a + 3) T) ->
    scode fa (Some (T, u)) E (SBreak k semi) a (a + 6) E
| sc_func fa lp E id f n o p c s a a1 b b1 : is_u32 id -> mem_words m a ([OP_LIT_FUNC; u32 id] ++ decl_words E) -> decl_ok E ->
    a1 = a + zlen ([OP_LIT_FUNC; u32 id] ++ decl_words E) -> mem_words m a1 (jump_words OP_JUMP a1 b1) ->
    0 <= b -> (exists w, m (b - 1) = Some w) -> (declares s = false -> b = b1) ->
    scode fa lp E (SFunc id f n o p c s) a b (declare (tk_str n) E)
with sscode : option Z -> option (Z * Z) -> env -> stmts -> Z -> Z -> env -> Prop :=
| ss_done fa lp E a : sscode fa lp E Done a a E
| ss_then fa lp E s l a b E1 c E2 : scode fa lp E s a b E1 -> sscode fa lp E1 l b c E2 ->
    sscode fa lp E (Then s l) a c E2.

(** The code of a function. *)
Definition fcode (f : fundef) (first : Z) : Prop :=
  exists b E1, scode (Some (zlen (fd_params f))) None (fun_env f) (fd_body f) first b E1 /\
    mem_words m b [OP_LIT_INT; 0; OP_LIT_INT; u32 (e_used E1 + 1 - zlen (fd_params f) - 3); OP_RETURN].
End Code.
End Literals.
