(** * RunSpec: what scripts mean (C37, C38, C40-C42)

    A reference semantics for scripts that compute with integers, floats,
    strings, nil, script functions and objects: how statements are written,
    which declaration a name refers to, and what evaluating expressions and
    executing statements does.  It knows nothing of instructions, code
    addresses, the operand stack, identifiers of strings and objects or the
    garbage collector, except for one thing: how many values are in use,
    because the virtual machine only has room for a limited number.

    Not covered: coroutines, callable objects, floats and nil
    as keys. *)

From Coq Require Import Floats.SpecFloat.
From Verif Require Import Base State StrModel ValueModel StrSpec TokenModel ExprModel ParseSpec FoldSpec InsnSpec.

(** ** Statements, with every token of their text *)

Inductive params :=
| PNone
| PLast (n : token)                         (* n *)
| PMore (n c : token) (r : params).         (* n , r *)

Inductive stmt :=
| SExpr (e : expr) (semi : token)                                     (* e; *)
| SVar (v n : token) (semi : token)                                   (* var n; *)
| SInit (v n q : token) (e : expr) (semi : token)                     (* var n = e; *)
| SReturn (r : token) (e : expr) (semi : token)                       (* return e; *)
| SBlock (o : token) (l : stmts) (c : token)                          (* { l } *)
| SIf (i o : token) (e : expr) (c : token) (s : stmt)                 (* if(e) s *)
| SElse (i o : token) (e : expr) (c : token) (s : stmt) (el : token) (s2 : stmt)  (* if(e) s else s2 *)
| SWhile (w o : token) (e : expr) (c : token) (s : stmt)              (* while(e) s *)
| SDo (d : token) (s : stmt) (w o : token) (e : expr) (c semi : token)   (* do s while(e); *)
| SFor (f o : token) (s0 : stmt) (e : expr) (semi : token) (i : expr) (c : token) (s : stmt)
                                                                      (* for(s0 e; i) s *)
| SBreak (b semi : token)                                             (* break; *)
| SFunc (id : Z) (f n o : token) (p : params) (c : token) (s : stmt)  (* function n(p) s; the
                                                            function's number is [id] *)
with stmts :=
| Done
| Then (s : stmt) (l : stmts).

Fixpoint ptext (p : params) : list token :=
  match p with PNone => [] | PLast n => [n] | PMore n c r => n :: c :: ptext r end.

Fixpoint stext (s : stmt) : list token :=
  match s with
  | SExpr e semi => text e ++ [semi]
  | SVar v n semi => [v; n; semi]
  | SInit v n q e semi => [v; n; q] ++ text e ++ [semi]
  | SReturn r e semi => [r] ++ text e ++ [semi]
  | SBlock o l c => [o] ++ sstext l ++ [c]
  | SIf i o e c s => [i; o] ++ text e ++ [c] ++ stext s
  | SElse i o e c s el s2 => [i; o] ++ text e ++ [c] ++ stext s ++ [el] ++ stext s2
  | SWhile w o e c s => [w; o] ++ text e ++ [c] ++ stext s
  | SDo d s w o e c semi => [d] ++ stext s ++ [w; o] ++ text e ++ [c; semi]
  | SFor f o s0 e semi i c s => [f; o] ++ stext s0 ++ text e ++ [semi] ++ text i ++ [c] ++ stext s
  | SBreak b semi => [b; semi]
  | SFunc _ f n o p c s => [f; n; o] ++ ptext p ++ [c] ++ stext s
  end
with sstext (l : stmts) : list token :=
  match l with Done => [] | Then s r => stext s ++ sstext r end.

(** An if without else at the end of the text: an else after it would belong
    to it. *)
Fixpoint open_ended (s : stmt) : bool :=
  match s with
  | SIf _ _ _ _ _ => true
  | SElse _ _ _ _ _ _ s => open_ended s
  | SWhile _ _ _ _ s => open_ended s
  | SFor _ _ _ _ _ _ _ s => open_ended s
  | SFunc _ _ _ _ _ _ s => open_ended s
  | _ => false
  end.

(** Words that are part of statements, and so are no values. *)
Definition keyword (t : Z) : Prop :=
  In t [TK_VAR; TK_RETURN; TK_CURLY_OPEN; TK_CURLY_CLOSE; TK_IF; TK_ELSE; TK_WHILE; TK_DO; TK_FOR; TK_BREAK].
Definition starts (p : Z -> Prop) (l : list token) : Prop := match l with [] => False | t :: _ => p (tk_type t) end.
(** An expression with its operators grouped by precedence, that does not begin
    like a statement. *)
Definition readable (e : expr) : Prop := grouped e /\ ~ starts keyword (text e).

(** The tokens are where they belong, expressions are grouped by precedence,
    and an else belongs to the nearest if. *)
Fixpoint pwritten (p : params) : Prop :=
  match p with
  | PNone => True
  | PLast n => tk_type n = TK_IDENTIFIER
  | PMore n c r => tk_type n = TK_IDENTIFIER /\ tk_type c = TK_COMMA /\ pwritten r
  end.
Fixpoint written (s : stmt) : Prop :=
  match s with
  | SExpr e semi => readable e /\ tk_type semi = TK_SEMICOLON
  | SVar v n semi => tk_type v = TK_VAR /\ tk_type n = TK_IDENTIFIER /\ tk_type semi = TK_SEMICOLON
  | SInit v n q e semi => tk_type v = TK_VAR /\ tk_type n = TK_IDENTIFIER /\
      tk_type q = TK_ASSIGNMENT /\ readable e /\ tk_type semi = TK_SEMICOLON
  | SReturn r e semi => tk_type r = TK_RETURN /\ readable e /\ tk_type semi = TK_SEMICOLON
  | SBlock o l c => tk_type o = TK_CURLY_OPEN /\ swritten l /\ tk_type c = TK_CURLY_CLOSE
  | SIf i o e c s => tk_type i = TK_IF /\ tk_type o = TK_PAREN_OPEN /\ readable e /\
      tk_type c = TK_PAREN_CLOSE /\ written s
  | SElse i o e c s el s2 => tk_type i = TK_IF /\ tk_type o = TK_PAREN_OPEN /\ readable e /\
      tk_type c = TK_PAREN_CLOSE /\ written s /\ tk_type el = TK_ELSE /\ written s2 /\ open_ended s = false
  | SWhile w o e c s => tk_type w = TK_WHILE /\ tk_type o = TK_PAREN_OPEN /\ readable e /\
      tk_type c = TK_PAREN_CLOSE /\ written s
  | SDo d s w o e c semi => tk_type d = TK_DO /\ written s /\ tk_type w = TK_WHILE /\
      tk_type o = TK_PAREN_OPEN /\ readable e /\ tk_type c = TK_PAREN_CLOSE /\ tk_type semi = TK_SEMICOLON
  | SFor f o s0 e semi i c s => tk_type f = TK_FOR /\ tk_type o = TK_PAREN_OPEN /\ written s0 /\
      readable e /\ tk_type semi = TK_SEMICOLON /\ readable i /\ tk_type c = TK_PAREN_CLOSE /\ written s
  | SBreak b semi => tk_type b = TK_BREAK /\ tk_type semi = TK_SEMICOLON
  | SFunc _ f n o p c s => tk_type f = TK_FUNCTION /\ tk_type n = TK_IDENTIFIER /\
      tk_type o = TK_PAREN_OPEN /\ pwritten p /\ tk_type c = TK_PAREN_CLOSE /\ written s
  end
with swritten (l : stmts) : Prop :=
  match l with Done => True | Then s r => written s /\ swritten r end.

(** ** Names *)

(** Where a variable lives: a global by its number, a local by its position
    among the values its function has in use. *)
Inductive place := Global (slot : Z) | Local (i : Z).
Definition scope := list (bytes * place).

(** What is known at a point of the text: the scopes, innermost first (the
    last one is the global one), how many values of the current function (or
    of the program outside functions) are in use, and how many globals have
    been declared. *)
Record env := mkEnv {
  e_scopes : list scope;
  e_used : Z;
  e_globals : Z
}.

Fixpoint find_in (n : bytes) (s : scope) : option place :=
  match s with
  | [] => None
  | (m, p) :: r => if bytes_eqb m n then Some p else find_in n r
  end.
(** The innermost scope that declares the name decides. *)
Fixpoint lookup (n : bytes) (l : list scope) : option place :=
  match l with
  | [] => None
  | s :: r => match find_in n s with Some p => Some p | None => lookup n r end
  end.

Definition enter_scope (E : env) : env := mkEnv ([] :: e_scopes E) (e_used E) (e_globals E).
(** A loop opens a scope for itself and one for its header. *)
Definition enter_loop (E : env) : env := enter_scope (enter_scope E).

(** Declaring a name: in the global scope it gets the next global, elsewhere
    the next value of the function. *)
Definition declare (n : bytes) (E : env) : env :=
  match e_scopes E with
  | [] => E
  | [g] => mkEnv [(n, Global (e_globals E)) :: g] (e_used E) (e_globals E + 1)
  | s :: r => mkEnv (((n, Local (e_used E)) :: s) :: r) (e_used E + 1) (e_globals E)
  end.

(** What a statement declares for the statements after it. *)
Definition after (s : stmt) (E : env) : env :=
  match s with
  | SVar _ n _ => declare (tk_str n) E
  | SInit _ n _ _ _ => declare (tk_str n) E
  | SFunc _ _ n _ _ _ _ => declare (tk_str n) E
  | _ => E
  end.

(** ** Functions *)

Fixpoint names (p : params) : list bytes :=
  match p with PNone => [] | PLast n => [tk_str n] | PMore n _ r => tk_str n :: names r end.

(** A function: its parameters, its body, and the global scope it is written
    in. *)
Record fundef := mkFun {
  fd_params : list bytes;
  fd_body : stmt;
  fd_scope : scope;
  fd_globals : Z
}.

(** The scope of a function: parameters, and three names the compiler adds,
    for the function itself and two values of its frame. *)
Fixpoint param_scope (i : Z) (l : list bytes) (s : scope) : scope :=
  match l with [] => s | n :: r => param_scope (i + 1) r ((n, Local i) :: s) end.
Definition fun_env (f : fundef) : env :=
  let n := zlen (fd_params f) in
  mkEnv [ (bs "_returnPointer", Local (n + 1)) :: (bs "_argumentCount", Local n) ::
            param_scope 0 (fd_params f) [(bs "_functionId", Local (-1))];
          fd_scope f ] (n + 2) (fd_globals f).

(** ** Values *)

(** Floats are given by their bits, strings by their text; an object has an
    identity. *)
Inductive val := VInt (z : Z) | VFlt (b : Z) | VStr (t : bytes) | VNil | VFun (id : Z) | VObj (o : Z).

Fixpoint text_eqb (a b : bytes) : bool :=
  match a, b with
  | [], [] => true
  | x :: a', y :: b' => (x =? y) && text_eqb a' b'
  | _, _ => false
  end.
Definition val_eqb (a b : val) : bool :=
  match a, b with
  | VInt x, VInt y | VFlt x, VFlt y | VFun x, VFun y | VObj x, VObj y => x =? y
  | VStr x, VStr y => text_eqb x y
  | VNil, VNil => true
  | _, _ => false
  end.

(** The integer a value counts as, in a condition or as the right operand of
    an operator whose left operand is an integer. *)
Definition number_of (v : val) : option Z :=
  match v with
  | VInt z => Some z
  | VFlt b => f_trunc b
  | VStr t => Some (c_atol t)
  | VNil => Some 0
  | VFun _ => None
  | VObj _ => Some 1
  end.
(** The float a value counts as, as the right operand of an operator whose
    left operand is a float. *)
Definition float_of (v : val) : option Z :=
  match v with
  | VInt z => Some (f_of_int z)
  | VFlt b => Some b
  | VStr t => Some (c_atof t)
  | _ => None
  end.
(** What a value looks like appended to a string. *)
Definition text_of_val (v : val) : option bytes :=
  match v with
  | VInt z => Some (i_to_str z)
  | VFlt b => Some (f_to_str b)
  | VStr t => Some t
  | _ => None
  end.

(** How two values compare; the left one decides how the right one is
    converted, and nil is above everything else.  Two different objects have
    no order that a script could rely on. *)
Definition order (a b : val) : option comparison :=
  match a, b with
  | VNil, VNil => Some Eq
  | VNil, _ => Some Gt
  | _, VNil => Some Lt
  | VInt x, _ => match number_of b with Some y => Some (Z.compare x y) | None => None end
  | VFlt x, _ => match float_of b with Some y => SFcompare (f_dec x) (f_dec y) | None => None end
  | VStr x, VStr y => Some (lex x y)
  | VFun x, VFun y => Some (Z.compare x y)
  | VObj x, VObj y => if x =? y then Some Eq else None
  | _, _ => None
  end.

Definition yes (b : bool) : val := VInt (if b then 1 else 0).
Definition same_kind (a b : val) : bool :=
  match a, b with
  | VInt _, VInt _ | VFlt _, VFlt _ | VStr _, VStr _ | VNil, VNil | VFun _, VFun _ | VObj _, VObj _ => true
  | _, _ => false
  end.

(** && and || look at the lowest byte only; this is their meaning where that
    makes no difference. *)
Definition sound_test (z : Z) : Prop := z = 0 \/ z mod 256 <> 0.

Inductive binop : Z -> val -> val -> val -> Prop :=
| bo_add x b y : number_of b = Some y -> is_s32 (x + y) -> binop TK_PLUS (VInt x) b (VInt (x + y))
| bo_sub x b y : number_of b = Some y -> is_s32 (x - y) -> binop TK_MINUS (VInt x) b (VInt (x - y))
| bo_mul x b y : number_of b = Some y -> is_s32 (x * y) -> binop TK_MULTIPLY (VInt x) b (VInt (x * y))
| bo_div x b y q : number_of b = Some y -> y <> 0 -> quotient x y q -> is_s32 q -> binop TK_DIVIDE (VInt x) b (VInt q)
| bo_mod x b y q : number_of b = Some y -> y <> 0 -> quotient x y q -> is_s32 q -> binop TK_MODULO (VInt x) b (VInt (x - y * q))
| bo_fadd x b y : float_of b = Some y -> binop TK_PLUS (VFlt x) b (VFlt (f_add x y))
| bo_fsub x b y : float_of b = Some y -> binop TK_MINUS (VFlt x) b (VFlt (f_sub x y))
| bo_fmul x b y : float_of b = Some y -> binop TK_MULTIPLY (VFlt x) b (VFlt (f_mul x y))
| bo_fdiv x b y : float_of b = Some y -> f_eq y 0 = false -> binop TK_DIVIDE (VFlt x) b (VFlt (f_div x y))
| bo_cat x b y : text_of_val b = Some y -> binop TK_PLUS (VStr x) b (VStr (x ++ y))
| bo_lt a b c : order a b = Some c -> binop TK_LT a b (yes (match c with Lt => true | _ => false end))
| bo_gt a b c : order a b = Some c -> binop TK_GT a b (yes (match c with Gt => true | _ => false end))
| bo_le a b c : order a b = Some c -> binop TK_LE a b (yes (match c with Gt => false | _ => true end))
| bo_ge a b c : order a b = Some c -> binop TK_GE a b (yes (match c with Lt => false | _ => true end))
| bo_eq a b c : order a b = Some c -> binop TK_EQ a b (yes (match c with Eq => true | _ => false end))
| bo_ne a b c : order a b = Some c -> binop TK_NE a b (yes (match c with Eq => false | _ => true end))
| bo_same a b c : same_kind a b = true -> order a b = Some c ->
    binop TK_SAME a b (yes (match c with Eq => true | _ => false end))
| bo_other a b : same_kind a b = false -> binop TK_SAME a b (yes false)
| bo_eq_obj a b : a <> b -> binop TK_EQ (VObj a) (VObj b) (yes false)
| bo_ne_obj a b : a <> b -> binop TK_NE (VObj a) (VObj b) (yes true)
| bo_same_obj a b : a <> b -> binop TK_SAME (VObj a) (VObj b) (yes false)
| bo_and a b x y : number_of a = Some x -> number_of b = Some y -> sound_test x -> sound_test y ->
    binop TK_AND a b (yes (negb (x =? 0) && negb (y =? 0)))
| bo_or a b x y : number_of a = Some x -> number_of b = Some y -> sound_test x -> sound_test y ->
    binop TK_OR a b (yes (negb (x =? 0) || negb (y =? 0))).

Inductive unop : Z -> val -> val -> Prop :=
| uo_neg x : is_s32 (- x) -> unop TK_MINUS (VInt x) (VInt (- x))
| uo_fneg x : unop TK_MINUS (VFlt x) (VFlt (f_neg x))
| uo_not a x : number_of a = Some x -> unop TK_NOT a (yes (x =? 0)).

(** An expression made of number literals and arithmetic.  Arithmetic on two
    of them is done by the compiler, which writes the result down in decimal
    (C36); it then has the meaning given here only if the operands are both
    integers, or both floats and the decimal number reads back as the same
    float. *)
Fixpoint numeric (n : ast) : bool :=
  match n with
  | ANull => true
  | ANode t _ a b => ((tk_type t =? TK_INTEGER) || (tk_type t =? TK_FLOAT)
      || (((tk_type t =? TK_PLUS) || (tk_type t =? TK_MINUS) || (tk_type t =? TK_MULTIPLY) || (tk_type t =? TK_DIVIDE))
          && numeric a && numeric b))%bool
  end.
Definition in_decimal (v : val) : Prop := match v with VFlt b => c_atof (f_to_str b) = b | _ => True end.

(** ** Objects *)

(** An object is a list of keys and values: every key once, no value nil. *)
Definition obj := list (val * val).
(** Floats and nil as keys are not covered. *)
Definition key_ok (k : val) : Prop := match k with VFlt _ | VNil => False | _ => True end.

Fixpoint oget (k : val) (l : obj) : val :=
  match l with [] => VNil | (k', v) :: r => if val_eqb k k' then v else oget k r end.
Fixpoint odel (k : val) (l : obj) : obj :=
  match l with [] => [] | (k', v) :: r => if val_eqb k k' then r else (k', v) :: odel k r end.
(** Assigning to a field; assigning nil removes it. *)
Definition oset (k v : val) (l : obj) : obj :=
  match v with VNil => odel k l | _ => (k, v) :: odel k l end.

(** ** Memory *)

(** The globals, the values the current function has in use -- those that are
    not the script's business are [None] --, and the objects made so far. *)
Record mem := mkMem {
  m_global : Z -> option val;
  m_local : list (option val);
  m_heap : list obj
}.

Definition read (p : place) (m : mem) : option val :=
  match p with
  | Global i => m_global m i
  | Local i => match znth (m_local m) i with Some v => v | None => None end
  end.
Definition write (p : place) (v : val) (m : mem) : mem :=
  match p with
  | Global i => mkMem (fun j => if j =? i then Some v else m_global m j) (m_local m) (m_heap m)
  | Local i => mkMem (m_global m) (zupd (m_local m) i (Some v)) (m_heap m)
  end.
Definition push_local (v : val) (m : mem) : mem := mkMem (m_global m) (m_local m ++ [Some v]) (m_heap m).
(** Forget all but the first [n] values in use. *)
Definition keep (n : Z) (m : mem) : mem := mkMem (m_global m) (firstn (Z.to_nat n) (m_local m)) (m_heap m).
Definition set_locals (l : list (option val)) (m : mem) : mem := mkMem (m_global m) l (m_heap m).
(** The fields of an object; changing one. *)
Definition fields (o : Z) (m : mem) : option obj := znth (m_heap m) o.
Definition set_heap (h : list obj) (m : mem) : mem := mkMem (m_global m) (m_local m) h.
Definition set_field (o : Z) (k v : val) (l : obj) (m : mem) : mem := set_heap (zupd (m_heap m) o (oset k v l)) m.

(** ** Meaning *)

Inductive out := Next | Broke | Returned (v : val).

(** Increment and decrement of a variable or field with value [v]: it gets the
    value [v'].  The result of the prefix forms is [v'].  The postfix forms
    take the change back to get theirs, which for integers is [v] (C42), but
    for floats not always. *)
Definition incdec (ty : Z) (v v' r : val) : Prop :=
  (ty = TK_INCREMENT /\ binop TK_PLUS v (VInt 1) v' /\ r = v') \/
  (ty = TK_DECREMENT /\ binop TK_MINUS v (VInt 1) v' /\ r = v') \/
  (ty = TK_POSTINC /\ binop TK_PLUS v (VInt 1) v' /\ binop TK_MINUS v' (VInt 1) r) \/
  (ty = TK_POSTDEC /\ binop TK_MINUS v (VInt 1) v' /\ binop TK_PLUS v' (VInt 1) r).

(** A new variable: a global, or one more value in use. *)
Definition decl (E : env) (v : val) (m : mem) : mem :=
  match e_scopes E with
  | [_] => write (Global (e_globals E)) v m
  | _ => push_local v m
  end.
(** Leaving a scope forgets its variables; leaving a loop by break, too. *)
Definition leave (E : env) (o : out) (m : mem) : mem :=
  match o with Next => keep (e_used E) m | _ => m end.
Definition leave_loop (E : env) (o : out) (m : mem) : mem :=
  match o with Returned _ => m | _ => keep (e_used E) m end.
(** What a loop makes of the way its body ended. *)
Definition stops (o : out) : out := match o with Returned v => Returned v | _ => Next end.

(** A statement that is nothing but a declaration.  As the body of a function
    it is miscompiled, so it has no meaning here. *)
Definition declares (s : stmt) : bool :=
  match s with SVar _ _ _ | SInit _ _ _ _ _ | SFunc _ _ _ _ _ _ _ => true | _ => false end.

(** The functions written inside an expression, in order: the text of each, and
    the token the parser puts in its place, which names the function's number. *)
Fixpoint lits (e : expr) : list (list token * token) :=
  match e with
  | EAtom _ => []
  | EFunc ts t => [(ts, t)]
  | EGroup _ e _ | EPre _ e | EIncDec e _ | EField e _ _ => lits e
  | EIndex e _ i _ => lits e ++ lits i
  | ECall e _ a _ | EMethod e _ _ _ a _ => lits e ++ args_lits a
  | EInfix a _ b => lits a ++ lits b
  end
with args_lits (a : args) : list (list token * token) :=
  match a with
  | NoArgs => []
  | LastArg e => lits e
  | Arg e _ r => lits e ++ args_lits r
  end.
Definition number (t : token) : Z := u32 (c_atol (tk_str t)).

(** What the functions of the host do: [hosts id vs m v m'] means that function
    number [id], called with [vs], may return [v] and leave the globals and
    objects of [m']; [host_fails id vs m m'] that it may report an error and
    leave those of [m'].  Each host is its own instance. *)
Class Hosts := {
  hosts : Z -> list val -> mem -> val -> mem -> Prop;
  host_fails : Z -> list val -> mem -> mem -> Prop
}.

Section Meaning.
Context {HS : Hosts}.
(** The functions of the script by number; how many values there is room for;
    how many fields an object may have. *)
Variable funs : Z -> option fundef.
Variable lim mf : Z.

(** There is room for the field, or it is already there. *)
Definition fits (k v : val) (l : obj) : Prop := v = VNil \/ zlen l < mf \/ oget k l <> VNil.

(** Room for working values when [h] values are in use. *)
Definition spare (h : Z) : Prop := h + 3 <= lim.

(** A function that is not miscompiled, see [declares]. *)
Definition usable (id : Z) : Prop := exists fd, funs id = Some fd /\ declares (fd_body fd) = false.

(** [ev E h m n v m']: with [h] values in use, evaluating the expression [n]
    gives [v] and leaves the memory [m'].
    [evs]: the same for a list of arguments, left to right.
    [ex E b m s o m']: executing the statement [s] of a function whose values
    start at [b] ends with [o]. *)
Inductive ev : env -> Z -> mem -> ast -> val -> mem -> Prop :=
| ev_int E h m t root : tk_type t = TK_INTEGER -> spare h ->
    ev E h m (ANode t root ANull ANull) (VInt (c_atol (tk_str t))) m
| ev_nil E h m t root : tk_type t = TK_NIL -> spare h ->
    ev E h m (ANode t root ANull ANull) VNil m
| ev_float E h m t root : tk_type t = TK_FLOAT -> spare h ->
    ev E h m (ANode t root ANull ANull) (VFlt (c_atof (tk_str t))) m
| ev_string E h m t root : tk_type t = TK_STRING -> spare h ->
    ev E h m (ANode t root ANull ANull) (VStr (tk_str t)) m
| ev_function E h m t root : tk_type t = TK_FUNCTION -> spare h -> usable (number t) ->
    ev E h m (ANode t root ANull ANull) (VFun (number t)) m
| ev_name E h m t root p v : tk_type t = TK_IDENTIFIER -> spare h ->
    lookup (tk_str t) (e_scopes E) = Some p -> read p m = Some v ->
    ev E h m (ANode t root ANull ANull) v m
| ev_unary E h m t root a x v m1 : ev E h m a x m1 -> unop (tk_type t) x v ->
    (numeric a = true -> in_decimal v) ->
    ev E h m (ANode t root a ANull) v m1
| ev_binary E h m t root a b x y v m1 m2 : ev E h m a x m1 -> ev E (h + 1) m1 b y m2 -> binop (tk_type t) x y v ->
    (numeric a && numeric b = true -> same_kind x y = true /\ in_decimal v)%bool ->
    ev E h m (ANode t root a b) v m2
| ev_assign E h m t root t0 root0 b p v v0 m1 : tk_type t = TK_ASSIGNMENT -> tk_type t0 = TK_IDENTIFIER ->
    ev E h m b v m1 -> spare h -> lookup (tk_str t0) (e_scopes E) = Some p -> read p m1 = Some v0 ->
    ev E h m (ANode t root (ANode t0 root0 ANull ANull) b) v (write p v m1)
| ev_incdec E h m t root t0 root0 p v v' r : tk_type t0 = TK_IDENTIFIER -> spare h ->
    lookup (tk_str t0) (e_scopes E) = Some p -> read p m = Some v ->
    incdec (tk_type t) v v' r ->
    ev E h m (ANode t root (ANode t0 root0 ANull ANull) ANull) r (write p v' m)
| ev_call E h m t f args id fd vs m1 m2 o m3 v : tk_type t = TK_PAREN_OPEN ->
    ev E h m f (VFun id) m1 -> evs E (h + 1) m1 args vs m2 -> spare (h + zlen vs) ->
    funs id = Some fd -> zlen (fd_params fd) = zlen vs ->
    ex (fun_env fd) (h + 1) (set_locals (map Some vs ++ [None; None]) m2) (fd_body fd) o m3 ->
    (o = Next /\ v = VInt 0 /\ spare (h + 1 + zlen (m_local m3)) \/ o = Returned v) ->
    ev E h m (ANode t true f args) v (set_locals (m_local m2) m3)
(* a function of the host *)
| ev_host E h m t f args id vs m1 m2 v m3 : tk_type t = TK_PAREN_OPEN ->
    ev E h m f (VFun id) m1 -> evs E (h + 1) m1 args vs m2 -> spare (h + zlen vs) ->
    hosts id vs m2 v m3 ->
    ev E h m (ANode t true f args) v (set_locals (m_local m2) m3)
(* object() and len(a) *)
| ev_object E h m t root : tk_type t = TK_FSE -> tk_str t = bs "object" -> spare h ->
    ev E h m (ANode t root ANull ANull) (VObj (zlen (m_heap m))) (set_heap (m_heap m ++ [[]]) m)
| ev_len E h m t root t1 a o l m1 : tk_type t = TK_FSE -> tk_str t = bs "len" -> tk_type t1 = TK_PAREN_OPEN ->
    ev E h m a (VObj o) m1 -> fields o m1 = Some l -> is_s32 (zlen l) ->
    ev E h m (ANode t root ANull (ANode t1 false a ANull)) (VInt (zlen l)) m1
(* a[b], which a.b stands for *)
| ev_field E h m t root a b o l k m1 m2 : tk_type t = TK_BRACKET_OPEN ->
    ev E h m a (VObj o) m1 -> ev E (h + 1) m1 b k m2 -> fields o m2 = Some l -> key_ok k ->
    ev E h m (ANode t root a b) (oget k l) m2
(* a[b] = c: first c, then a, then b *)
| ev_set E h m t root t0 root0 a b c v o k l m1 m2 m3 : tk_type t = TK_ASSIGNMENT -> tk_type t0 = TK_BRACKET_OPEN ->
    ev E h m c v m1 -> ev E (h + 1) m1 a (VObj o) m2 -> ev E (h + 2) m2 b k m3 ->
    fields o m3 = Some l -> key_ok k -> fits k v l ->
    ev E h m (ANode t root (ANode t0 root0 a b) c) v (set_field o k v l m3)
(* a[b]++ and the like: a and b are evaluated twice *)
| ev_incdec_field E h m t root t0 root0 a b o k l m1 m2 v v' r o' k' l' m3 m4 : tk_type t0 = TK_BRACKET_OPEN ->
    ev E h m a (VObj o) m1 -> ev E (h + 1) m1 b k m2 -> fields o m2 = Some l -> key_ok k -> oget k l = v ->
    incdec (tk_type t) v v' r ->
    ev E (h + 1) m2 a (VObj o') m3 -> ev E (h + 2) m3 b k' m4 -> fields o' m4 = Some l' -> key_ok k' ->
    fits k' v' l' ->
    ev E h m (ANode t root (ANode t0 root0 a b) ANull) r (set_field o' k' v' l' m4)
(* a->n(args): the field n of a is called with a as the first argument *)
| ev_method E h m t root0 ti rooti a tn rootn args o l id fd vs m1 m2 out m3 v : tk_type t = TK_CALL_SELF ->
    tk_type ti = TK_INDEX_NOPOP -> tk_type tn = TK_STRING -> root0 = true ->
    ev E h m a (VObj o) m1 -> spare (h + 1) -> fields o m1 = Some l -> oget (VStr (tk_str tn)) l = VFun id ->
    evs E (h + 2) m1 args vs m2 -> spare (h + 1 + zlen vs) ->
    funs id = Some fd -> zlen (fd_params fd) = zlen vs + 1 ->
    ex (fun_env fd) (h + 1) (set_locals (Some (VObj o) :: map Some vs ++ [None; None]) m2) (fd_body fd) out m3 ->
    (out = Next /\ v = VInt 0 /\ spare (h + 1 + zlen (m_local m3)) \/ out = Returned v) ->
    ev E h m (ANode t root0 (ANode ti rooti a (ANode tn rootn ANull ANull)) args) v (set_locals (m_local m2) m3)
| ev_host_method E h m t root0 ti rooti a tn rootn args o l id vs m1 m2 v m3 : tk_type t = TK_CALL_SELF ->
    tk_type ti = TK_INDEX_NOPOP -> tk_type tn = TK_STRING -> root0 = true ->
    ev E h m a (VObj o) m1 -> spare (h + 1) -> fields o m1 = Some l -> oget (VStr (tk_str tn)) l = VFun id ->
    evs E (h + 2) m1 args vs m2 -> spare (h + 1 + zlen vs) ->
    hosts id (VObj o :: vs) m2 v m3 ->
    ev E h m (ANode t root0 (ANode ti rooti a (ANode tn rootn ANull ANull)) args) v (set_locals (m_local m2) m3)
with evs : env -> Z -> mem -> ast -> list val -> mem -> Prop :=
| evs_nil E h m : evs E h m ANull [] m
| evs_cons E h m t a rest v vs m1 m2 : tk_type t = TK_PAREN_OPEN \/ tk_type t = TK_CALL_SELF -> ev E h m a v m1 -> evs E (h + 1) m1 rest vs m2 ->
    evs E h m (ANode t false a rest) (v :: vs) m2
with ex : env -> Z -> mem -> stmt -> out -> mem -> Prop :=
| ex_expr E b m e semi v m' : ev E (b + zlen (m_local m)) m (tree e) v m' ->
    ex E b m (SExpr e semi) Next m'
| ex_var E b m v n semi : spare (b + zlen (m_local m)) ->
    ex E b m (SVar v n semi) Next (decl E (VInt 0) m)
| ex_init E b m v n q e semi x m' : ev E (b + zlen (m_local m)) m (tree e) x m' ->
    spare (b + zlen (m_local m)) ->
    ex E b m (SInit v n q e semi) Next (decl E x m')
| ex_return E b m r e semi x m' : ev E (b + zlen (m_local m)) m (tree e) x m' ->
    spare (b + zlen (m_local m)) ->
    ex E b m (SReturn r e semi) (Returned x) m'
| ex_block E b m o l c out m' : exs (enter_scope E) b m l out m' ->
    ex E b m (SBlock o l c) out (leave E out m')
| ex_if E b m i o e c s v z m1 out m2 : ev E (b + zlen (m_local m)) m (tree e) v m1 -> spare (b + zlen (m_local m)) ->
    number_of v = Some z -> z <> 0 -> ex (enter_scope E) b m1 s out m2 ->
    ex E b m (SIf i o e c s) out (leave E out m2)
| ex_ifnot E b m i o e c s v m1 : ev E (b + zlen (m_local m)) m (tree e) v m1 -> spare (b + zlen (m_local m)) ->
    number_of v = Some 0 ->
    ex E b m (SIf i o e c s) Next m1
| ex_then E b m i o e c s el s2 v z m1 out m2 : ev E (b + zlen (m_local m)) m (tree e) v m1 -> spare (b + zlen (m_local m)) ->
    number_of v = Some z -> z <> 0 -> ex (enter_scope E) b m1 s out m2 ->
    ex E b m (SElse i o e c s el s2) out (leave E out m2)
| ex_else E b m i o e c s el s2 v m1 out m2 : ev E (b + zlen (m_local m)) m (tree e) v m1 -> spare (b + zlen (m_local m)) ->
    number_of v = Some 0 -> ex (enter_scope E) b m1 s2 out m2 ->
    ex E b m (SElse i o e c s el s2) out (leave E out m2)
| ex_while E b m w o e c s out m' : loops (enter_loop E) b m e s None out m' ->
    ex E b m (SWhile w o e c s) out (leave_loop E out m')
| ex_do E b m d s w o e c semi out1 m1 : ex (enter_scope (enter_loop E)) b m s out1 m1 -> out1 <> Next ->
    ex E b m (SDo d s w o e c semi) (stops out1) (leave_loop E (stops out1) m1)
| ex_do_test E b m d s w o e c semi m1 v m2 : ex (enter_scope (enter_loop E)) b m s Next m1 ->
    ev (enter_loop E) (b + zlen (m_local m)) (keep (e_used E) m1) (tree e) v m2 -> spare (b + zlen (m_local m)) ->
    number_of v = Some 0 ->
    ex E b m (SDo d s w o e c semi) Next m2
| ex_do_again E b m d s w o e c semi m1 v z m2 out m' : ex (enter_scope (enter_loop E)) b m s Next m1 ->
    ev (enter_loop E) (b + zlen (m_local m)) (keep (e_used E) m1) (tree e) v m2 -> spare (b + zlen (m_local m)) ->
    number_of v = Some z -> z <> 0 ->
    ex E b m2 (SDo d s w o e c semi) out m' ->
    ex E b m (SDo d s w o e c semi) out m'
| ex_for E b m f o s0 e semi i c s m1 out m' : ex (enter_loop E) b m s0 Next m1 ->
    loops (after s0 (enter_loop E)) b m1 e s (Some i) out m' ->
    (forall ts t, In (ts, t) (lits i) -> usable (number t)) ->
    ex E b m (SFor f o s0 e semi i c s) out (leave_loop E out m')
| ex_for_out E b m f o s0 e semi i c s out m1 : ex (enter_loop E) b m s0 out m1 -> out <> Next ->
    ex E b m (SFor f o s0 e semi i c s) (stops out) (leave_loop E (stops out) m1)
| ex_break E b m k semi : spare (b + zlen (m_local m)) -> ex E b m (SBreak k semi) Broke m
| ex_func E b m id f n o p c s : spare (b + zlen (m_local m)) ->
    declares s = false ->
    ex E b m (SFunc id f n o p c s) Next (decl E (VFun id) m)
with exs : env -> Z -> mem -> stmts -> out -> mem -> Prop :=
| exs_done E b m : spare (b + zlen (m_local m)) -> exs E b m Done Next m
| exs_then E b m s l m1 out m2 : ex E b m s Next m1 -> exs (after s E) b m1 l out m2 -> exs E b m (Then s l) out m2
| exs_out E b m s l out m1 : ex E b m s out m1 -> out <> Next -> exs E b m (Then s l) out m1
(** The iterations of a loop with condition [e], body [s] and, for a for loop,
    the expression evaluated after each of them. *)
with loops : env -> Z -> mem -> expr -> stmt -> option expr -> out -> mem -> Prop :=
| lp_end E b m e s i v m1 : ev E (b + zlen (m_local m)) m (tree e) v m1 -> spare (b + zlen (m_local m)) -> number_of v = Some 0 ->
    loops E b m e s i Next m1
| lp_out E b m e s i v z m1 out m2 : ev E (b + zlen (m_local m)) m (tree e) v m1 -> spare (b + zlen (m_local m)) ->
    number_of v = Some z -> z <> 0 ->
    ex (enter_scope E) b m1 s out m2 -> out <> Next ->
    loops E b m e s i (stops out) m2
| lp_again E b m e s v z m1 m2 out m3 : ev E (b + zlen (m_local m)) m (tree e) v m1 -> spare (b + zlen (m_local m)) ->
    number_of v = Some z -> z <> 0 ->
    ex (enter_scope E) b m1 s Next m2 -> loops E b (keep (e_used E) m2) e s None out m3 ->
    loops E b m e s None out m3
| lp_step E b m e s i v z m1 m2 x m3 out m4 : ev E (b + zlen (m_local m)) m (tree e) v m1 -> spare (b + zlen (m_local m)) ->
    number_of v = Some z -> z <> 0 ->
    ex (enter_scope E) b m1 s Next m2 -> ev E (b + zlen (m_local m)) (keep (e_used E) m2) (tree i) x m3 ->
    loops E b m3 e s (Some i) out m4 ->
    loops E b m e s (Some i) out m4.
End Meaning.

(** ** Functions and their text *)

(** The global scope. *)
Definition outermost (E : env) : scope := last (e_scopes E) [].

(** What a list of statements declares for what comes after it. *)
Fixpoint afters (l : stmts) (E : env) : env :=
  match l with Done => E | Then s r => afters r (after s E) end.

(** The functions declared in a text, and those written in its expressions, are
    the ones in the table. *)
Section Defined.
Variable funs : Z -> option fundef.

Inductive defined : env -> stmt -> Prop :=
| df_expr E e semi : (forall ts t, In (ts, t) (lits e) -> literal E ts t) -> defined E (SExpr e semi)
| df_var E v n semi : defined E (SVar v n semi)
| df_init E v n q e semi : (forall ts t, In (ts, t) (lits e) -> literal E ts t) -> defined E (SInit v n q e semi)
| df_return E r e semi : (forall ts t, In (ts, t) (lits e) -> literal E ts t) -> defined E (SReturn r e semi)
| df_block E o l c : sdefined (enter_scope E) l -> defined E (SBlock o l c)
| df_if E i o e c s : (forall ts t, In (ts, t) (lits e) -> literal E ts t) ->
    defined (enter_scope E) s -> defined E (SIf i o e c s)
| df_else E i o e c s el s2 : (forall ts t, In (ts, t) (lits e) -> literal E ts t) ->
    defined (enter_scope E) s -> defined (enter_scope E) s2 -> defined E (SElse i o e c s el s2)
| df_while E w o e c s : (forall ts t, In (ts, t) (lits e) -> literal E ts t) ->
    defined (enter_scope (enter_loop E)) s -> defined E (SWhile w o e c s)
| df_do E d s w o e c semi : defined (enter_scope (enter_loop E)) s ->
    (forall ts t, In (ts, t) (lits e) -> literal E ts t) -> defined E (SDo d s w o e c semi)
| df_for E f o s0 e semi i c s : defined (enter_loop E) s0 ->
    (forall ts t, In (ts, t) (lits e) -> literal (after s0 (enter_loop E)) ts t) ->
    (forall ts t, In (ts, t) (lits i) -> literal (after s0 (enter_loop E)) ts t) ->
    defined (enter_scope (after s0 (enter_loop E))) s -> defined E (SFor f o s0 e semi i c s)
| df_break E b semi : defined E (SBreak b semi)
| df_func E id f n o p c s fd : fd = mkFun (names p) s (outermost (declare (tk_str n) E)) (e_globals (declare (tk_str n) E)) ->
    funs id = Some fd -> defined (fun_env fd) s -> defined E (SFunc id f n o p c s)
with sdefined : env -> stmts -> Prop :=
| df_done E : sdefined E Done
| df_then E s l : defined E s -> sdefined (after s E) l -> sdefined E (Then s l)
(** [function(p) s] inside an expression: it sees the globals declared before
    it, and its own parameters. *)
with literal : env -> list token -> token -> Prop :=
| df_literal E f o p c s t fd : tk_type f = TK_FUNCTION -> tk_type o = TK_PAREN_OPEN -> pwritten p ->
    tk_type c = TK_PAREN_CLOSE -> written s -> fd = mkFun (names p) s (outermost E) (e_globals E) ->
    funs (number t) = Some fd -> defined (fun_env fd) s ->
    literal E ([f; o] ++ ptext p ++ [c] ++ stext s) t.
End Defined.
