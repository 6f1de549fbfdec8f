(** * ExprModel: parsing, rewriting and emitting expressions

    Models /repo/src/nkexpr.c, /repo/src/nkopt.c and /repo/src/nkfse.c.
    Freeing of nodes and tokens is not modelled. *)

From Verif Require Export CsModel.

(** struct NKExpressionAstNode; [ANull] is a NULL child.  stackNext is not
    part of the tree: the parser's stacks are lists.  ownedToken only matters
    for freeing.  /repo/src/nkexpr.h:46-62. *)
Inductive ast :=
| ANull
| ANode (t : token) (root : bool) (c0 c1 : ast).

Definition is_null (n : ast) : bool := match n with ANull => true | _ => false end.
Definition set_tk_type (x : Z) (t : token) : token :=
  mkTok x (tk_str t) (tk_line t) (tk_file t) (tk_actual t).

(** ** Classes of tokens *)

(** nkiCompilerIsSubexpressionEndingToken (for a token that exists).
    /repo/src/nkexpr.c:68-74. *)
Definition sub_ending (ty : Z) : bool :=
  (ty =? TK_PAREN_CLOSE) || (ty =? TK_BRACKET_CLOSE) || (ty =? TK_COMMA).

(** nkiCompilerIsExpressionEndingToken; [TK_INVALID] stands for no token.
    /repo/src/nkexpr.c:76-80. *)
Definition expr_ending (ty : Z) : bool :=
  (ty =? TK_INVALID) || sub_ending ty || (ty =? TK_SEMICOLON).

(** nkiCompilerIsPrefixOperator.  /repo/src/nkexpr.c:82-89. *)
Definition is_prefix (ty : Z) : bool :=
  (ty =? TK_MINUS) || (ty =? TK_DECREMENT) || (ty =? TK_INCREMENT) || (ty =? TK_NOT).

(** nkiCompilerIsPostfixOperator.  /repo/src/nkexpr.c:91-100. *)
Definition is_postfix (ty : Z) : bool :=
  (ty =? TK_BRACKET_OPEN) || (ty =? TK_PAREN_OPEN) || (ty =? TK_DOT) ||
  (ty =? TK_INDIRECTION) || (ty =? TK_INCREMENT) || (ty =? TK_DECREMENT).

(** nkiCompilerGetPrecedence.  /repo/src/nkexpr.c:102-134. *)
Definition precedence (ty : Z) : Z :=
  if (ty =? TK_MULTIPLY) || (ty =? TK_DIVIDE) || (ty =? TK_MODULO) then 5
  else if (ty =? TK_PLUS) || (ty =? TK_MINUS) then 6
  else if (ty =? TK_GT) || (ty =? TK_LT) || (ty =? TK_GE) || (ty =? TK_LE) then 8
  else if (ty =? TK_EQ) || (ty =? TK_NE) || (ty =? TK_SAME) then 9
  else if ty =? TK_AND then 13
  else if ty =? TK_OR then 14
  else if ty =? TK_ASSIGNMENT then 15
  else -1.

(** ** The parser *)

(** Where the loop over postfix operators is: before the first one, after it,
    or after a first one that the final assertion will reject. *)
Inductive pstate := PFirst | PLater | PBad.

(** The recursive calls of the compiler.  CompModel.v ties the knot; the
    loops are calls too.  [r_expr] is nkiCompilerParseExpression, [r_loop]
    its main loop, [r_postfix] the loop over postfix operators, [r_params]
    the loop of nkiCompilerExpressionParseFunctioncall, [r_stmt]
    nkiCompilerCompileStatement, [r_block] the loop of
    nkiCompilerCompileBlock, [r_func] nkiCompilerCompileFunctionDefinition and
    [r_args] its loop over the argument names. *)
Record calls := mkCalls {
  r_expr : K ast;
  r_loop : list token -> list ast -> K ast;
  r_postfix : pstate -> ast -> K ast;
  r_params : K (option (list ast));
  r_stmt : K bool;
  r_block : bool -> K bool;
  r_func : bool -> K (option Z);
  r_args : Z -> K (Z * bool)
}.

(** An error that makes nkiCompilerParseExpression give up. *)
Definition give_up {A} (r : A) : K A := pop_recursion ;~ kret r.

(** nkiCompilerExpressionReduce.  [valueStack] is never empty here, as a
    value has been pushed before every operator; the code would dereference
    it.  /repo/src/nkexpr.c:167-194. *)
Definition reduce (ops : list token) (vals : list ast) : res (option (list token * list ast)) :=
  match vals with
  | [] => Ub UbNull
  | [_] => Ok None
  | v2 :: v1 :: vs =>
    match ops with
    | [] => Ok None
    | o :: os => Ok (Some (os, ANode o false v1 v2 :: vs))
    end
  end.

(** "Attempt to reduce" while the new operator's level [p] allows it.
    /repo/src/nkexpr.c:670-680. *)
Fixpoint reduce_while (p : Z) (ops : list token) (vals : list ast)
  : res (option (list token * list ast)) :=
  match ops with
  | [] => Ok (Some ([], vals))
  | o :: os =>
    if precedence (tk_type o) <=? p then
      do r <- reduce (o :: os) vals;
      match r with
      | None => Ok None
      | Some (_, vs) => reduce_while p os vs
      end
    else Ok (Some (o :: os, vals))
  end.

(** "Reduce all remaining operations."  /repo/src/nkexpr.c:697-705. *)
Fixpoint reduce_all (ops : list token) (vals : list ast) : res (option (list ast)) :=
  match ops with
  | [] => Ok (Some vals)
  | o :: os =>
    do r <- reduce (o :: os) vals;
    match r with
    | None => Ok None
    | Some (_, vs) => reduce_all os vs
    end
  end.

(** The chain of argument nodes hung onto a call node's second child; all
    share the call's token [t].  /repo/src/nkexpr.c:204-228. *)
Fixpoint param_chain (t : token) (ps : list ast) : ast :=
  match ps with [] => ANull | p :: r => ANode t false p (param_chain t r) end.

(** One turn of the loop over arguments; [None] is "return nkfalse", after
    the recursion count has been restored.  /repo/src/nkexpr.c:211-258. *)
Definition params_body (r : calls) : K (option (list ast)) :=
  ty <~ kgets cur_type ;;
  if (ty =? TK_INVALID) || (ty =? TK_PAREN_CLOSE) then
    ok <~ expect TK_PAREN_CLOSE ;;
    pop_recursion ;~
    kret (if ok : bool then Some [] else None)
  else
    p <~ r_expr r ;;
    match p with
    | ANull =>
      cerror (bs "Function parameter subexpression parse failure.") ;~ give_up None
    | ANode _ _ _ _ =>
      ty2 <~ kgets cur_type ;;
      if ty2 =? TK_COMMA then
        next_tok ;~
        q <~ r_params r ;; kret (match q with Some l => Some (p :: l) | None => None end)
      else if ty2 =? TK_PAREN_CLOSE then
        q <~ r_params r ;; kret (match q with Some l => Some (p :: l) | None => None end)
      else
        cerror (bs "Expected ',' or ')' in function parameter parsing.") ;~ give_up None
    end.

(** nkiCompilerExpressionParseFunctioncall: the arguments.
    /repo/src/nkexpr.c:196-259. *)
Definition parse_call (r : calls) : K (option (list ast)) :=
  ok <~ push_recursion ;;
  if negb ok then kret None
  else next_tok ;~ r_params r.

(** A token made by the compiler; fileIndex and actualLineNumber are not set
    (and not read). *)
Definition made (ty : Z) (txt : bytes) (line : Z) : token := mkTok ty txt line 0 0.

(** One turn of the loop over postfix operators and what follows the loop.
    [v] is the operand so far: the code attaches the operand to the first
    operator after the loop.  A NULL result means that the parser gave up
    (recursion count restored).  The type of a method call's token is switched
    after its arguments in the code.  /repo/src/nkexpr.c:399-635. *)
Definition postfix_end (p : pstate) (v : ast) : K ast :=
  match p with PBad => kub UbAssert | _ => kret v end.

Definition postfix_body (r : calls) (p : pstate) (v : ast) : K ast :=
  let later := match p with PFirst => PLater | q => q end in
  ts <~ kgets k_toks ;;
  match ts with
  | [] => postfix_end p v
  | t :: _ =>
    let ty := tk_type t in
    if negb (is_postfix ty) then postfix_end p v
    else if (ty =? TK_DOT) || (ty =? TK_INDIRECTION) then
      next_tok ;~
      ts2 <~ kgets k_toks ;;
      match ts2 with
      | [] => cerror (bs "Expected identifier after '.'.") ;~ give_up ANull
      | i :: _ =>
        if negb (tk_type i =? TK_IDENTIFIER) then
          cerror (bs "Expected identifier after '.'.") ;~ give_up ANull
        else
          let name := ANode (made TK_STRING (tk_str i) (tk_line i)) false ANull ANull in
          let ity := if ty =? TK_INDIRECTION then TK_INDEX_NOPOP else TK_BRACKET_OPEN in
          let idx := ANode (made ity (bs "[") (tk_line i)) false v name in
          _ok <~ expect TK_IDENTIFIER ;;
          if ty =? TK_INDIRECTION then
            ts3 <~ kgets k_toks ;;
            match ts3 with
            | [] => cerror (bs "Expected function call after '->'.") ;~ give_up ANull
            | q :: _ =>
              if negb (tk_type q =? TK_PAREN_OPEN) then
                cerror (bs "Expected function call after '->'.") ;~ give_up ANull
              else
                let ct := made TK_CALL_SELF (bs "(") (tk_line q) in
                ps <~ parse_call r ;;
                match ps with
                | None => give_up ANull
                | Some ps => r_postfix r later (ANode ct true idx (param_chain ct ps))
                end
            end
          else r_postfix r later idx
      end
    else if ty =? TK_BRACKET_OPEN then
      next_tok ;~
      i <~ r_expr r ;;
      match i with
      | ANull => cerror (bs "Index subexpression parse failure.") ;~ give_up ANull
      | ANode _ _ _ _ =>
        ok <~ expect TK_BRACKET_CLOSE ;;
        if negb ok then give_up ANull
        else r_postfix r later (ANode t false v i)
      end
    else if ty =? TK_PAREN_OPEN then
      ps <~ parse_call r ;;
      match ps with
      | None => give_up ANull
      | Some ps =>
        match v with
        | ANode vt _ c0 c1 =>
          if match p with PFirst => tk_type vt =? TK_FSE | _ => false end then
            (* the name replaces the call; the named node must have no children *)
            r_postfix r (if negb (is_null c0) || negb (is_null c1) then PBad else PLater)
              (ANode (mkTok TK_FSE (tk_str vt) (tk_line vt) 0 0) true ANull (param_chain t ps))
          else r_postfix r later (ANode t true v (param_chain t ps))
        | ANull => kub UbNull
        end
      end
    else (* ++ or -- *)
      let pt := if ty =? TK_INCREMENT then made TK_POSTINC (bs "++") (tk_line t)
                else made TK_POSTDEC (bs "--") (tk_line t) in
      next_tok ;~ r_postfix r later (ANode pt false v ANull)
  end.

(** Collecting prefix operators, outermost first; one token each.
    /repo/src/nkexpr.c:290-311. *)
Fixpoint prefix_loop (fuel : nat) : K (list token) :=
  match fuel with
  | O => kub UbFuel
  | S f =>
    ts <~ kgets k_toks ;;
    match ts with
    | [] => kret []
    | t :: _ =>
      if is_prefix (tk_type t) then
        next_tok ;~ l <~ prefix_loop f ;; kret (t :: l)
      else kret []
    end
  end.
Definition prefixes : K (list token) :=
  ts <~ kgets k_toks ;; prefix_loop (S (length ts)).
Definition wrap_prefix (l : list token) (v : ast) : ast :=
  fold_right (fun t v => ANode t false v ANull) v l.

(** Parsing a value or a parenthesized expression; NULL when the parser gave
    up.  /repo/src/nkexpr.c:313-397. *)
Definition parse_value (r : calls) : K ast :=
  ty <~ kgets cur_type ;;
  if ty =? TK_PAREN_OPEN then
    next_tok ;~
    v <~ r_expr r ;;
    match v with
    | ANull => cerror (bs "Subexpression parse failure.") ;~ give_up ANull
    | ANode _ _ _ _ =>
      ty2 <~ kgets cur_type ;;
      if negb (sub_ending ty2) then cerror (bs "Bad expression end.") ;~ give_up ANull
      else next_tok ;~ kret v
    end
  else
    ts <~ kgets k_toks ;;
    match ts with
    | [] => cerror (bs "Prefix with no value.") ;~ give_up ANull
    | t :: _ =>
      if expr_ending ty then cerror (bs "Prefix with no value.") ;~ give_up ANull
      else if ty =? TK_FUNCTION then
        id <~ r_func r true ;;
        match id with
        | None => cerror (bs "Anonymous function parse error.") ;~ give_up ANull
        | Some i =>
          l <~ kgets cur_line ;;
          kret (ANode (made TK_FUNCTION (u_to_str i) (s32 l)) false ANull ANull)
        end
      else next_tok ;~ kret (ANode t false ANull ANull)
    end.

(** One turn of nkiCompilerParseExpression's loop and what follows it;
    [ops] and [vals] are the stacks, top first.  /repo/src/nkexpr.c:282-722. *)
Definition loop_end (ops : list token) (vals : list ast) : K ast :=
  r <~ klift (reduce_all ops vals) ;;
  match r with
  | None => cerror (bs "Expression parse failure.") ;~ give_up ANull
  | Some [] => cerror (bs "No value to parse in expression.") ;~ give_up ANull
  | Some [v] => pop_recursion ;~ kret v
  | Some (_ :: _ :: _) => kub UbAssert
  end.

Definition loop_body (r : calls) (ops : list token) (vals : list ast) : K ast :=
  ty <~ kgets cur_type ;;
  if expr_ending ty then loop_end ops vals
  else
    pre <~ prefixes ;;
    v <~ parse_value r ;;
    if is_null v then kret ANull
    else
      v2 <~ r_postfix r PFirst v ;;
      if is_null v2 then kret ANull
      else
        let vals' := wrap_prefix pre v2 :: vals in
        ts <~ kgets k_toks ;;
        match ts with
        | [] => loop_end ops vals'
        | o :: _ =>
          if expr_ending (tk_type o) then loop_end ops vals'
          else if precedence (tk_type o) =? -1 then
            cerror (bs "Unknown operator: " ++ tk_str o) ;~ give_up ANull
          else
            q <~ klift (reduce_while (precedence (tk_type o)) ops vals') ;;
            match q with
            | None => cerror (bs "Expression parse failure.") ;~ give_up ANull
            | Some (ops', vs) => next_tok ;~ r_loop r (o :: ops') vs
            end
        end.

(** nkiCompilerParseExpression.  /repo/src/nkexpr.c:272-723. *)
Definition parse_body (r : calls) : K ast :=
  ok <~ push_recursion ;;
  if negb ok then kret ANull else r_loop r [] [].

(** ** Increments and decrements *)

Definition is_incdec (ty : Z) : bool :=
  (ty =? TK_INCREMENT) || (ty =? TK_DECREMENT) || (ty =? TK_POSTINC) || (ty =? TK_POSTDEC).

(** nkiCompilerCloneExpressionTree: tokens made by the compiler are copied
    without their file.  The copy is the same tree here.
    /repo/src/nkexpr.c:1070-1102. *)

(** The tree an increment or decrement of [lv] turns into.
    /repo/src/nkexpr.c:1125-1264. *)
Definition expand_node (t : token) (lv : ast) (discard : bool) : ast :=
  let ty := tk_type t in
  let inc := (ty =? TK_INCREMENT) || (ty =? TK_POSTINC) in
  let post := (ty =? TK_POSTINC) || (ty =? TK_POSTDEC) in
  let one := ANode (made TK_INTEGER (bs "1") (tk_line t)) false ANull ANull in
  let plus := made TK_PLUS (bs "+") (tk_line t) in
  let minus := made TK_MINUS (bs "-") (tk_line t) in
  let add := ANode (if inc then plus else minus) false lv one in
  let asg := ANode (made TK_ASSIGNMENT (bs "=") (tk_line t)) false lv add in
  if post && negb discard then ANode (if inc then minus else plus) false asg one else asg.

(** nkiCompilerExpressionExpandIncrementsAndDecrements.
    /repo/src/nkexpr.c:1104-1280. *)
Fixpoint expand (n : ast) (discard : bool) : K ast :=
  match n with
  | ANull => kret ANull
  | ANode t root c0 c1 =>
    ok <~ push_recursion ;;
    if negb ok then kret n
    else
      r <~ (if is_incdec (tk_type t) then
              if is_null c0 || negb (is_null c1) then kub UbAssert
              else kret (expand_node t c0 discard)
            else
              d0 <~ expand c0 false ;; d1 <~ expand c1 false ;;
              kret (ANode t root d0 d1)) ;;
      pop_recursion ;~ kret r
  end.

(** ** Constant folding *)

(** nkiCompilerCanOptimizeOperationWithConstants.  /repo/src/nkopt.c:46-56. *)
Definition foldable (ty : Z) : bool :=
  (ty =? TK_PLUS) || (ty =? TK_MINUS) || (ty =? TK_MULTIPLY) || (ty =? TK_DIVIDE).

(** nkiCompilerIsImmediateValue.  /repo/src/nkopt.c:58-66. *)
Definition immediate (n : ast) : bool :=
  match n with
  | ANull => false
  | ANode t _ _ _ => (tk_type t =? TK_INTEGER) || (tk_type t =? TK_FLOAT)
  end.

(** Arithmetic on [nkint32_t]. *)
Definition signed (z : Z) : res Z := if in_s32 z then Ok z else Ub UbSignedOverflow.

(** NK_APPLY_MATH for integers; [None] leaves the node alone; [neg]: there is
    no second operand.  /repo/src/nkopt.c:88-132. *)
Definition fold_int (ty a b : Z) (neg : bool) : res (option Z) :=
  if ty =? TK_PLUS then do v <- signed (a + b); Ok (Some v)
  else if ty =? TK_MINUS then
    do v <- (if neg then signed (- a) else signed (a - b)); Ok (Some v)
  else if ty =? TK_MULTIPLY then do v <- signed (a * b); Ok (Some v)
  else if ty =? TK_DIVIDE then
    if (b =? 0) || ((b =? -1) && (a =? -2147483647 - 1)) then Ok None
    else Ok (Some (Z.quot a b))
  else Ub UbAssert.

(** NK_APPLY_MATH for floats, on bits. *)
Definition fold_float (ty a b : Z) (neg : bool) : res (option Z) :=
  if ty =? TK_PLUS then Ok (Some (f_add a b))
  else if ty =? TK_MINUS then Ok (Some (if neg then f_neg a else f_sub a b))
  else if ty =? TK_MULTIPLY then Ok (Some (f_mul a b))
  else if ty =? TK_DIVIDE then
    if f_eq b 0 then Ok None else Ok (Some (f_div a b))
  else Ub UbAssert.

Definition text_of (n : ast) : bytes := match n with ANull => [] | ANode t _ _ _ => tk_str t end.

(** nkiCompilerOptimizeConstants.  /repo/src/nkopt.c:134-237. *)
Fixpoint optimize (n : ast) : res ast :=
  match n with
  | ANull => Ok ANull
  | ANode t root c0 c1 =>
    do d0 <- optimize c0;
    do d1 <- optimize c1;
    let n' := ANode t root d0 d1 in
    if negb (foldable (tk_type t)) then Ok n'
    else if negb (immediate d0) || negb (is_null d1 || immediate d1) then Ok n'
    else
      match d0 with
      | ANull => Ok n'
      | ANode t0 _ _ _ =>
        if tk_type t0 =? TK_INTEGER then
          do v <- fold_int (tk_type t) (c_atol (tk_str t0))
                    (if is_null d1 then 0 else c_atol (text_of d1)) (is_null d1);
          match v with
          | None => Ok n'
          | Some v => Ok (ANode (made TK_INTEGER (i_to_str v) (tk_line t0)) false ANull ANull)
          end
        else
          do v <- fold_float (tk_type t) (c_atof (tk_str t0))
                    (if is_null d1 then 0 else c_atof (text_of d1)) (is_null d1);
          match v with
          | None => Ok n'
          | Some v => Ok (ANode (made TK_FLOAT (f_to_str v) (tk_line t0)) false ANull ANull)
          end
      end
  end.

(** ** Emitting *)

(** nkiCompilerCountCallArguments.  /repo/src/nkexpr.c:261-270 *)
Fixpoint chain_length (n : ast) : Z :=
  match n with ANull => 0 | ANode _ _ _ c1 => 1 + chain_length c1 end.

(** nkiCompilerEmitFetchVariable.  /repo/src/nkexpr.c:729-761. *)
Definition emit_fetch (name : bytes) : K unit :=
  v <~ lookup_variable name ;;
  match v with
  | None => kret tt
  | Some v =>
    if cv_global v then push_lit_int (cv_pos v) true ;~ add_op OP_STATICPEEK false
    else
      c <~ cur_cc ;;
      push_lit_int (cv_pos v - cc_off c) true ;~ add_op OP_STACKPEEK false
  end.

(** nkiCompilerExpressionEmitSetVariable.  /repo/src/nkexpr.c:763-792. *)
Definition emit_set (name : bytes) : K unit :=
  v <~ lookup_variable name ;;
  match v with
  | None => kret tt
  | Some v =>
    if cv_global v then push_lit_int (cv_pos v) true ;~ add_op OP_STATICPOKE true
    else
      c <~ cur_cc ;;
      push_lit_int (cv_pos v - cc_off c) true ;~ add_op OP_STACKPOKE true
  end.

(** nkiCompilerEmitFunctionStyleExpression and the emitters (their results
    are not used).  /repo/src/nkfse.c:62-169, 196-211. *)
Definition emit_fse (name : bytes) (argc : Z) : K unit :=
  if bytes_eqb name (bs "coroutine") then
    move_off (- argc) ;~ push_lit_int (argc - 1) false ;~ add_op OP_CORO_CREATE true
  else if bytes_eqb name (bs "yield") then
    (if argc =? 0 then push_nil_op true else kret tt) ;~
    if 1 <? argc then cerror (bs "Too many arguments to yield().")
    else add_op OP_CORO_YIELD true
  else if bytes_eqb name (bs "resume") then
    if 2 <? argc then cerror (bs "Too many arguments to resume().")
    else if argc <? 1 then cerror (bs "Too few arguments to resume().")
    else
      (if argc =? 1 then push_nil_op true else kret tt) ;~
      add_op OP_CORO_RESUME true
  else if bytes_eqb name (bs "is_finished") then
    if negb (argc =? 1) then cerror (bs "Incorrect argument count to coroutine_finished().")
    else add_op OP_CORO_FINISHED true
  else if bytes_eqb name (bs "object") then
    if negb (argc =? 0) then cerror (bs "Too many arguments given to object().")
    else add_op OP_NEWOBJ true
  else if bytes_eqb name (bs "len") then
    if negb (argc =? 1) then cerror (bs "Incorrect number of arguments to len().")
    else add_op OP_LEN true
  else kret tt.

(** The instruction of a plain operator.  /repo/src/nkexpr.c:896-1064. *)
Definition plain_op (ty : Z) (unary : bool) : option Z :=
  if ty =? TK_NEWOBJECT then Some OP_NEWOBJ
  else if ty =? TK_NIL then Some OP_NIL
  else if ty =? TK_PLUS then Some OP_ADD
  else if ty =? TK_MINUS then Some (if unary then OP_NEGATE else OP_SUBTRACT)
  else if ty =? TK_MULTIPLY then Some OP_MULTIPLY
  else if ty =? TK_DIVIDE then Some OP_DIVIDE
  else if ty =? TK_MODULO then Some OP_MODULO
  else if ty =? TK_GT then Some OP_GT
  else if ty =? TK_LT then Some OP_LT
  else if ty =? TK_GE then Some OP_GE
  else if ty =? TK_LE then Some OP_LE
  else if ty =? TK_EQ then Some OP_EQ
  else if ty =? TK_NE then Some OP_NE
  else if ty =? TK_SAME then Some OP_SAME
  else if ty =? TK_NOT then Some OP_NOT
  else if ty =? TK_AND then Some OP_AND
  else if ty =? TK_OR then Some OP_OR
  else if ty =? TK_BRACKET_OPEN then Some OP_FIELDGET
  else if ty =? TK_INDEX_NOPOP then Some OP_FIELDGET_NOPOP
  else None.

(** The switch of nkiCompilerEmitExpression, after the children; [c1] is the
    second child.  /repo/src/nkexpr.c:894-1067. *)
Definition emit_op (t : token) (root : bool) (c1 : ast) : K bool :=
  let ty := tk_type t in
  let done (m : K unit) : K bool := m ;~ pop_recursion ;~ kret true in
  if ty =? TK_FUNCTION then done (push_lit_func (c_atol (tk_str t)) true)
  else if ty =? TK_INTEGER then done (push_lit_int (c_atol (tk_str t)) true)
  else if ty =? TK_FLOAT then done (push_lit_float (c_atof (tk_str t)) true)
  else if ty =? TK_STRING then done (push_lit_string (tk_str t) true)
  else if ty =? TK_IDENTIFIER then done (emit_fetch (tk_str t))
  else if ty =? TK_FSE then
    if root then done (emit_fse (tk_str t) (chain_length c1))
    else cerror (bs "Corrupted AST in FSE creation.") ;~ kret false
  else if (ty =? TK_PAREN_OPEN) || (ty =? TK_CALL_SELF) then
    done (if root then
            let n := chain_length c1 in
            push_lit_int n false ;~
            (if ty =? TK_CALL_SELF then add_op OP_SELFCALL false else kret tt) ;~
            add_op OP_CALL false ;~
            move_off (- (if ty =? TK_CALL_SELF then n + 1 else n))
          else kret tt)
  else
    match plain_op ty (is_null c1) with
    | Some op => done (add_op op true)
    | None =>
      kvm (add_error_ex (u32 (tk_line t)) (tk_file t)
        (bs "Unknown value or operator in nkiCompilerEmitExpression: " ++ tk_str t)) ;~
      give_up false
    end.

(** nkiCompilerEmitExpression and nkiCompilerEmitExpressionAssignment.
    /repo/src/nkexpr.c:794-1068. *)
Fixpoint emit_expression (n : ast) : K bool :=
  ok <~ push_recursion ;;
  if negb ok then kret false
  else
    match n with
    | ANull => kret false
    | ANode t root c0 c1 =>
      if tk_type t =? TK_ASSIGNMENT then
        pop_recursion ;~
        ok <~ push_recursion ;;
        if negb ok then kret false
        else if is_null c1 then
          cerror (bs "No RValue to assign in assignment.") ;~ give_up false
        else
          match c0 with
          | ANull => cerror (bs "No LValue to assign in assignment.") ;~ give_up false
          | ANode t0 _ c00 c01 =>
            emit_expression c1 ;~
            if tk_type t0 =? TK_IDENTIFIER then
              emit_set (tk_str t0) ;~ pop_recursion ;~ kret true
            else if tk_type t0 =? TK_BRACKET_OPEN then
              emit_expression c00 ;~ emit_expression c01 ;~
              add_op OP_FIELDSET true ;~ pop_recursion ;~ kret true
            else
              cerror (bs "Operator or value cannot be used to generate an LValue: " ++ tk_str t0) ;~
              give_up false
          end
      else
        b0 <~ (if is_null c0 then kret true else emit_expression c0) ;;
        if negb b0 then give_up false
        else
          b1 <~ (if is_null c1 then kret true else emit_expression c1) ;;
          if negb b1 then give_up false
          else emit_op t root c1
    end.

(** ** Whole expressions *)

(** nkiCompilerCompileExpressionWithoutEmit.  /repo/src/nkexpr.c:1282-1308. *)
Definition expression_tree (r : calls) (discard : bool) : K ast :=
  ok <~ push_recursion ;;
  if negb ok then kret ANull
  else
    n <~ r_expr r ;;
    n' <~ (match n with
           | ANull => kret ANull
           | ANode _ _ _ _ => e <~ expand n discard ;; klift (optimize e)
           end) ;;
    s <~ kgets k_vm ;;
    pop_recursion ;~
    kret (if has_errors s then ANull else n').

(** nkiCompilerCompileExpression.  /repo/src/nkexpr.c:1310-1333. *)
Definition compile_expression (r : calls) (discard : bool) : K bool :=
  ok <~ push_recursion ;;
  if negb ok then kret false
  else
    n <~ expression_tree r discard ;;
    match n with
    | ANull => give_up false
    | ANode _ _ _ _ => b <~ emit_expression n ;; pop_recursion ;~ kret b
    end.
