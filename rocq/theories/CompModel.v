(** * CompModel: statements, functions and whole scripts

    Models the rest of /repo/src/nkcompil.c. *)

From Verif Require Export ExprModel.

(** NK_EXPECT_AND_SKIP_STATEMENT: give up with false, restoring the recursion
    count.  /repo/src/nkcompil.c:402-408. *)
Definition need (t : Z) (next : K bool) : K bool :=
  ok <~ expect t ;; if ok : bool then next else give_up false.

(** [need] in functions that also have contexts to close, as at
    /repo/src/nkcompil.c:1361-1368. *)
Definition need_in (n : nat) (t : Z) (next : K bool) : K bool :=
  ok <~ expect t ;;
  if ok : bool then next else pop_contexts n ;~ give_up false.

(** Entering a function of the compiler, as at /repo/src/nkcompil.c:414-416. *)
Definition enter {A} (fail : A) (next : K A) : K A :=
  ok <~ push_recursion ;; if negb ok then kret fail else next.

(** nkiCompilerCompileVariableDeclaration.  /repo/src/nkcompil.c:592-637. *)
Definition var_declaration (r : calls) : K bool :=
  enter false (
    need TK_VAR (
      ty <~ kgets cur_type ;;
      if negb (ty =? TK_IDENTIFIER) then
        cerror (bs "Expected identifier in variable declaration.") ;~ give_up false
      else
        name <~ kgets cur_str ;;
        need TK_IDENTIFIER (
          let rest := need TK_SEMICOLON (pop_recursion ;~ kret true) in
          ty2 <~ kgets cur_type ;;
          if ty2 =? TK_ASSIGNMENT then
            need TK_ASSIGNMENT (
              b <~ compile_expression r false ;;
              if negb b then give_up false
              else add_variable name true true ;~ rest)
          else add_variable name false true ;~ rest))).

(** The innermost context that belongs to a function.
    /repo/src/nkcompil.c:643-647. *)
Fixpoint find_fn (l : list cctx) : option Z :=
  match l with
  | [] => None
  | c :: r => if cc_fn c =? INVALID then find_fn r else Some (cc_fn c)
  end.

(** nkiCompilerEmitReturn.  /repo/src/nkcompil.c:639-674. *)
Definition emit_return : K unit :=
  l <~ kgets k_ctx ;;
  match find_fn l with
  | None => cerror (bs "return statement outside of function.")
  | Some f =>
    s <~ kgets k_vm ;;
    if zlen (v_funcs s) <=? f then
      cerror (bs "Bad function id when attempting to emit return.")
    else
      fn <~ klift (rd (v_funcs s) f) ;;
      c <~ cur_cc ;;
      push_lit_int (cc_off c - f_argc fn - 3) false ;~
      add_op OP_RETURN false
  end.

(** nkiCompilerCompileReturnStatement.  /repo/src/nkcompil.c:676-696. *)
Definition return_statement (r : calls) : K bool :=
  enter false (
    need TK_RETURN (
      b <~ compile_expression r false ;;
      if negb b then give_up false
      else
        emit_return ;~
        need TK_SEMICOLON (pop_recursion ;~ kret true))).

(** The loop of nkiCompilerCompileBlock, whose argument is noBracesOrContext,
    and what follows it; the closing assertion repeats what every statement
    checks.  /repo/src/nkcompil.c:556-589. *)
Definition block_loop (r : calls) (bare : bool) : K bool :=
  ty <~ kgets cur_type ;;
  if negb (ty =? TK_CURLY_CLOSE) && negb (ty =? TK_INVALID) then
    b <~ r_stmt r ;;
    if b : bool then r_block r bare
    else (if bare then kret tt else pop_context) ;~ give_up false
  else if (ty =? TK_CURLY_CLOSE) && bare then
    cerror (bs "Extra closing curly brace.") ;~ kret false
  else if bare then pop_recursion ;~ kret true
  else
    pop_context ;~
    need TK_CURLY_CLOSE (pop_recursion ;~ kret true).

(** nkiCompilerCompileBlock.  /repo/src/nkcompil.c:543-590. *)
Definition block (r : calls) (bare : bool) : K bool :=
  enter false (
    if bare then r_block r true
    else need TK_CURLY_OPEN (push_context ;~ r_block r false)).

(** nkiCompilerCompileIfStatement.  /repo/src/nkcompil.c:1258-1326. *)
Definition if_statement (r : calls) : K bool :=
  enter false (
    need TK_IF (need TK_PAREN_OPEN (
      b <~ compile_expression r false ;;
      if negb b then give_up false
      else
        skip <~ emit_jz 0 ;;
        need TK_PAREN_CLOSE (
          push_context ;~
          b1 <~ r_stmt r ;;
          if negb b1 then pop_context ;~ give_up false
          else
            pop_context ;~
            w <~ kgets k_w ;;
            modify_jump skip w ;~
            ty <~ kgets cur_type ;;
            if ty =? TK_ELSE then
              need TK_ELSE (
                skip2 <~ emit_jump 0 ;;
                w2 <~ kgets k_w ;;
                modify_jump skip w2 ;~
                push_context ;~
                b2 <~ r_stmt r ;;
                if negb b2 then pop_context ;~ give_up false
                else
                  pop_context ;~
                  w3 <~ kgets k_w ;;
                  modify_jump skip2 w3 ;~
                  pop_recursion ;~ kret true)
            else pop_recursion ;~ kret true)))).

(** nkiCompilerFixupBreakJumpForContext.  /repo/src/nkcompil.c:1328-1337. *)
Fixpoint fix_list (l : list Z) (w : Z) : K unit :=
  match l with [] => kret tt | a :: r => modify_jump a w ;~ fix_list r w end.
Definition fix_breaks : K unit :=
  c <~ cur_cc ;; w <~ kgets k_w ;;
  fix_list (cc_fix c) w ;~
  mod_cc (set_cc_fix []).

(** The contexts of a loop: one for break statements and one inside.
    /repo/src/nkcompil.c:1357-1359 and 1403-1405. *)
Definition open_loop : K unit :=
  push_context ;~ mod_cc (set_cc_loop true) ;~ push_context.
Definition close_loop : K unit := pop_context ;~ fix_breaks ;~ pop_context.

(** nkiCompilerCompileWhileStatement.  /repo/src/nkcompil.c:1348-1409. *)
Definition while_statement (r : calls) : K bool :=
  start <~ kgets k_w ;;
  enter false (
    open_loop ;~
    need_in 2 TK_WHILE (need_in 2 TK_PAREN_OPEN (
      b <~ compile_expression r false ;;
      if negb b then pop_contexts 2 ;~ give_up false
      else
        skip <~ emit_jz 0 ;;
        need_in 2 TK_PAREN_CLOSE (
          push_context ;~
          b1 <~ r_stmt r ;;
          if negb b1 then pop_contexts 3 ;~ give_up false
          else
            pop_context ;~
            emit_jump start ;~
            w <~ kgets k_w ;;
            modify_jump skip w ;~
            close_loop ;~
            pop_recursion ;~ kret true)))).

(** nkiCompilerCompileDoWhileStatement.  /repo/src/nkcompil.c:1411-1481. *)
Definition do_statement (r : calls) : K bool :=
  start <~ kgets k_w ;;
  enter false (
    open_loop ;~
    need_in 2 TK_DO (
      push_context ;~
      b <~ r_stmt r ;;
      if negb b then pop_contexts 3 ;~ give_up false
      else
        pop_context ;~
        need_in 2 TK_WHILE (need_in 2 TK_PAREN_OPEN (
          b1 <~ compile_expression r false ;;
          if negb b1 then pop_contexts 2 ;~ give_up false
          else
            need_in 2 TK_PAREN_CLOSE (
              add_op OP_NOT true ;~
              emit_jz start ;~
              close_loop ;~
              pop_recursion ;~
              expect TK_SEMICOLON))))).

(** nkiCompilerCompileForStatement.  /repo/src/nkcompil.c:1483-1584. *)
Definition for_statement (r : calls) : K bool :=
  enter false (
    open_loop ;~
    need_in 2 TK_FOR (need_in 2 TK_PAREN_OPEN (
      b <~ r_stmt r ;;
      if negb b then pop_contexts 2 ;~ give_up false
      else
        start <~ kgets k_w ;;
        b1 <~ compile_expression r false ;;
        if negb b1 then pop_contexts 2 ;~ give_up false
        else
          skip <~ emit_jz 0 ;;
          need_in 2 TK_SEMICOLON (
            inc <~ expression_tree r true ;;
            if is_null inc then pop_contexts 2 ;~ give_up false
            else
              need_in 2 TK_PAREN_CLOSE (
                push_context ;~
                b2 <~ r_stmt r ;;
                if negb b2 then pop_contexts 3 ;~ give_up false
                else
                  pop_context ;~
                  b3 <~ emit_expression inc ;;
                  if negb b3 then pop_contexts 2 ;~ give_up false
                  else
                    add_op OP_POP true ;~
                    emit_jump start ;~
                    w <~ kgets k_w ;;
                    modify_jump skip w ;~
                    close_loop ;~
                    pop_recursion ;~ kret true))))).

(** The innermost loop context, with the contexts inside and outside it.
    /repo/src/nkcompil.c:1596-1603. *)
Fixpoint find_loop (l : list cctx) : option (list cctx * cctx * list cctx) :=
  match l with
  | [] => None
  | c :: r =>
    if cc_loop c then Some ([], c, r)
    else match find_loop r with Some (i, x, o) => Some (c :: i, x, o) | None => None end
  end.

(** nkiCompilerCompileBreakStatement.  /repo/src/nkcompil.c:1586-1641. *)
Definition break_statement : K bool :=
  c <~ cur_cc ;;
  enter false (
    l <~ kgets k_ctx ;;
    match find_loop l with
    | None => cerror (bs "Cannot break outside of a loop.") ;~ give_up false
    | Some (_, _, []) =>
      cerror (bs "Cannot break out of the root context.") ;~ give_up false
    | Some (_, x, _ :: _) =>
      push_lit_int (cc_off c - cc_off x) false ;~
      add_op OP_POPN false ;~
      j <~ emit_jump 0 ;;
      l2 <~ kgets k_ctx ;;
      match find_loop l2 with
      | None => kub UbNull
      | Some (i, x, o) =>
        kmod (set_k_ctx (i ++ set_cc_fix (j :: cc_fix x) x :: o)) ;~
        need TK_BREAK (need TK_SEMICOLON (pop_recursion ;~ kret true))
      end
    end).

(** The argument list of a function: how many names, and whether it is well
    formed.  /repo/src/nkcompil.c:793-832. *)
Definition args_body (r : calls) (n : Z) : K (Z * bool) :=
  ty <~ kgets cur_type ;;
  if ty =? TK_INVALID then kret (n, true)
  else
    let after (n : Z) : K (Z * bool) :=
      ty <~ kgets cur_type ;;
      if ty =? TK_PAREN_CLOSE then kret (n, true)
      else if ty =? TK_COMMA then next_tok ;~ r_args r n
      else cerror (bs "Expected ')' or ','.") ;~ r_args r n in
    if ty =? TK_IDENTIFIER then
      name <~ kgets cur_str ;;
      b <~ add_variable name true true ;;
      move_off 1 ;~
      (if b : bool then no_pop else kret tt) ;~
      next_tok ;~
      after (u32 (n + 1))
    else if negb (ty =? TK_PAREN_CLOSE) then
      cerror (bs "Expected identifier for function argument name.") ;~ kret (n, false)
    else after n.

(** nkiCompilerAddVariable for something the caller owns.
    /repo/src/nkcompil.c:789-794. *)
Definition add_owned (name : bytes) : K unit :=
  b <~ add_variable name true true ;; if b : bool then no_pop else kret tt.

(** cs->context = savedContext.  The global context is shared by both chains in
    the code, so it comes from the chain being left.  /repo/src/nkcompil.c:894. *)
Definition restore (saved : list cctx) (cur : list cctx) : list cctx :=
  match saved, rev cur with
  | _, [] => saved
  | _, g :: _ => removelast saved ++ [g]
  end.

(** Skipping '(' or ')'.  /repo/src/nkcompil.c:780-785 and 854-859. *)
Definition skip_or_complain (t : Z) (msg : bytes) : K unit :=
  ty <~ kgets cur_type ;; if ty =? t then next_tok else cerror msg.

(** The part of nkiCompilerCompileFunctionDefinition after the name.
    /repo/src/nkcompil.c:752-897. *)
Definition function_rest (r : calls) (id : Z) : K (option Z) :=
  push_lit_int 0 false ;~
  w0 <~ kgets k_w ;;
  let skip := u32 (w0 - 1) in
  add_op OP_JUMP false ;~
  saved <~ kgets k_ctx ;;
  match rev saved with
  | [] => kub UbNull
  | g :: _ =>
    kmod (set_k_ctx [mkCC [] 0 id false []; g]) ;~
    skip_or_complain TK_PAREN_OPEN (bs "Expected '('.") ;~
    add_owned (bs "_functionId") ;~
    move_off 1 ;~
    p <~ r_args r 0 ;;
    let '(argc, ok) := p in
    w <~ kgets k_w ;;
    s <~ kgets k_vm ;;
    fn <~ klift (rd (v_funcs s) id) ;;
    fs <~ klift (wr (v_funcs s) id (mkF argc w (f_ext fn))) ;;
    kvm (modify (set_funcs fs)) ;~
    add_owned (bs "_argumentCount") ;~
    move_off 1 ;~
    add_owned (bs "_returnPointer") ;~
    skip_or_complain TK_PAREN_CLOSE (bs "Expected ')'.") ;~
    b <~ r_stmt r ;;
    push_lit_int 0 false ;~
    move_off 1 ;~
    emit_return ;~
    w2 <~ kgets k_w ;;
    s2 <~ kgets k_vm ;;
    c <~ klift (wr (v_code s2) skip (u32 (w2 - skip - 2))) ;;
    kvm (modify (set_code c)) ;~
    pop_context ;~
    cur <~ kgets k_ctx ;;
    kmod (set_k_ctx (restore saved cur)) ;~
    pop_recursion ;~
    kret (if ok && b then Some id else None)
  end.

(** nkiCompilerCompileFunctionDefinition; [anon] is anonymousFunction.  The
    result is the identifier, [None] for "return nkfalse".
    /repo/src/nkcompil.c:698-903. *)
Definition function_body (r : calls) (anon : bool) : K (option Z) :=
  enter None (
    id <~ kvm create_function ;;
    ok <~ expect TK_FUNCTION ;;
    if negb ok then give_up None
    else if anon then function_rest r id
    else
      ty <~ kgets cur_type ;;
      if ty =? TK_IDENTIFIER then
        name <~ kgets cur_str ;;
        next_tok ;~
        push_lit_func id true ;~
        add_variable name true true ;~
        function_rest r id
      else
        cerror (bs "Expected identifier for function name.") ;~ give_up None).

(** nkiCompilerCompileStatement.  Contexts are compared by their number.
    /repo/src/nkcompil.c:410-507. *)
Definition statement_body (r : calls) : K bool :=
  start <~ kgets k_ctx ;;
  enter false (
    let finish : K bool :=
      l <~ kgets k_ctx ;;
      if negb (zlen l =? zlen start) then kub UbAssert
      else pop_recursion ;~ kret true in
    let after (m : K bool) : K bool := b <~ m ;; if b : bool then finish else kret false in
    ts <~ kgets k_toks ;;
    match ts with
    | [] => cerror (bs "Ran out of tokens to parse.") ;~ kret false
    | t :: rest =>
      let ty := tk_type t in
      if ty =? TK_INVALID then cerror (bs "Ran out of tokens to parse.") ;~ kret false
      else if ty =? TK_VAR then var_declaration r
      else if ty =? TK_RETURN then return_statement r
      else if ty =? TK_CURLY_OPEN then after (block r false)
      else if ty =? TK_IF then after (if_statement r)
      else if ty =? TK_WHILE then after (while_statement r)
      else if ty =? TK_DO then after (do_statement r)
      else if ty =? TK_FOR then after (for_statement r)
      else if ty =? TK_BREAK then after break_statement
      else if (ty =? TK_FUNCTION) &&
              match rest with n :: _ => tk_type n =? TK_IDENTIFIER | [] => false end
      then after (i <~ r_func r false ;; kret (match i with Some _ => true | None => false end))
      else
        b <~ compile_expression r true ;;
        if negb b then kret false
        else
          ty2 <~ kgets cur_type ;;
          (if ty2 =? TK_SEMICOLON then add_op OP_POP true else kret tt) ;~
          ok <~ expect TK_SEMICOLON ;;
          if ok : bool then finish else give_up false
    end).

(** ** Tying the knot *)

Definition no_calls : calls :=
  mkCalls (kub UbFuel) (fun _ _ => kub UbFuel) (fun _ _ => kub UbFuel) (kub UbFuel)
    (kub UbFuel) (fun _ => kub UbFuel) (fun _ => kub UbFuel) (fun _ => kub UbFuel).

Definition bodies (r : calls) : calls :=
  mkCalls (parse_body r) (loop_body r) (postfix_body r) (params_body r)
    (statement_body r) (block_loop r) (function_body r) (args_body r).

(** The compiler with calls nested at most [fuel] deep; loop iterations count
    as calls. *)
Fixpoint compiler (fuel : nat) : calls :=
  match fuel with O => no_calls | S f => bodies (compiler f) end.

(** ** Scripts *)

(** nkiCompilerCompileScript.  /repo/src/nkcompil.c:1173-1215. *)
Definition compile_script (fuel : nat) (text fname : bytes) : K bool :=
  enter false (
    ts <~ kvm (tokenize text fname) ;;
    match ts with
    | None => give_up false
    | Some l =>
      kmod (set_k_toks l) ;~
      a <~ kgets k_act ;;
      kmod (match l with
            | [] => set_k_pos 0 INVALID a
            | t :: _ => set_k_pos (u32 (tk_line t)) (tk_file t) a
            end) ;~
      b <~ block (compiler fuel) true ;;
      a2 <~ kgets k_act ;;
      kmod (set_k_toks []) ;~
      kmod (set_k_pos 0 INVALID a2) ;~
      pop_recursion ;~
      kret b
    end).

(** nkiCompilerCreate.  /repo/src/nkcompil.c:1042-1071. *)
Definition comp_init (s : vm) : comp :=
  mkComp s 0 [mkCC [] 0 INVALID false []] [] 0 INVALID 0 0 0.

(** nkiCompilerGenerateGlobalVariables.  /repo/src/nkcompil.c:1074-1112. *)
Definition generate_globals : K unit :=
  c <~ cur_cc ;;
  kvm (modify (set_globals (map (fun v => (cv_pos v, cv_name v)) (cc_vars c)))).

(** nkiCompilerPartiallyFinalize.  /repo/src/nkcompil.c:1123-1143. *)
Definition partially_finalize : K unit :=
  l <~ kgets k_ctx ;;
  match l with
  | _ :: _ :: _ => kub UbAssert
  | _ =>
    generate_globals ;~
    w <~ kgets k_w ;;
    add_op OP_END false ;~
    kmod (set_k_w w)
  end.

(** nkiCompilerFinalize.  /repo/src/nkcompil.c:1145-1171. *)
Definition finalize : K unit :=
  l <~ kgets k_ctx ;;
  (match l with [_] => kret tt | _ => cerror (bs "Context mismatch at compilation end!") end) ;~
  l <~ kgets k_ctx ;;
  pop_contexts (length l - 1) ;~
  partially_finalize ;~
  l <~ kgets k_ctx ;;
  pop_contexts (length l) ;~
  add_op OP_END true.

(** nkiVmFindGlobalVariable: the slot of the static space the result points
    to, [None] for NULL.  /repo/src/nkvm.c:442-453. *)
Fixpoint find_record (name : bytes) (l : list (Z * bytes)) : option Z :=
  match l with
  | [] => None
  | (p, n) :: r => if bytes_eqb n name then Some p else find_record name r
  end.
Definition find_global (name : bytes) (s : vm) : option Z :=
  match find_record name (v_globals s) with
  | Some p => Some (Z.land (v_smask s) p)
  | None => None
  end.

(** nkiCompilerCreateGlobalVariable: the position of the variable's slot.
    /repo/src/nkcompil.c:989-1013. *)
Definition create_global (name : bytes) : K (option Z) :=
  l <~ kgets k_ctx ;;
  match l with
  | [_] =>
    b <~ add_variable name false false ;;
    if negb b then kret None
    else
      c <~ cur_cc ;;
      match cc_vars c with
      | [] => kub UbNull
      | v :: r =>
        if cv_pos v =? INVALID then kret None
        else
          p <~ allocate_static ;;
          s <~ kgets k_vm ;;
          klift (rd (v_static s) (Z.land p (v_smask s))) ;~
          mod_cc (set_cc_vars (mkCV (cv_name v) (cv_global v) (cv_nopop v) p :: r)) ;~
          kret (Some p)
      end
  | _ => kub UbAssert
  end.

(** nkiCompilerCreateCFunctionVariable.  /repo/src/nkcompil.c:1015-1040. *)
Definition create_c_function (name : bytes) (cb : option Z) : K unit :=
  e <~ kvm (register_external_function name cb) ;;
  f <~ kvm (get_or_create_internal e) ;;
  p <~ create_global name ;;
  match p with
  | None => kret tt
  | Some p =>
    s <~ kgets k_vm ;;
    st <~ klift (wr (v_static s) (Z.land p (v_smask s)) (mkV T_FUNC f)) ;;
    kvm (modify (set_static st))
  end.
