(** * CsModel: the compiler's state and the primitives that write code

    Models the parts of /repo/src/nkcompil.c that the expression compiler
    (ExprModel.v) and the statement compiler (CompModel.v) are built from.
    Allocation succeeds.  The chain of contexts is a list, innermost first;
    its last element is the global context. *)

From Verif Require Export State StrModel FloatModel RegModel.
From Verif Require Export TokenModel.

(** enum NKOpcode.  /repo/src/nkenums.h:60-131. *)
Definition OP_ADD : Z := 1.
Definition OP_SUBTRACT : Z := 2.
Definition OP_MULTIPLY : Z := 3.
Definition OP_DIVIDE : Z := 4.
Definition OP_NEGATE : Z := 5.
Definition OP_MODULO : Z := 6.
Definition OP_LIT_INT : Z := 7.
Definition OP_LIT_FLOAT : Z := 8.
Definition OP_LIT_STRING : Z := 9.
Definition OP_LIT_FUNC : Z := 10.
Definition OP_POP : Z := 11.
Definition OP_POPN : Z := 12.
Definition OP_STACKPEEK : Z := 13.
Definition OP_STACKPOKE : Z := 14.
Definition OP_STATICPOKE : Z := 15.
Definition OP_STATICPEEK : Z := 16.
Definition OP_JUMP : Z := 17.
Definition OP_CALL : Z := 18.
Definition OP_RETURN : Z := 19.
Definition OP_END : Z := 20.
Definition OP_JZ : Z := 21.
Definition OP_GT : Z := 22.
Definition OP_LT : Z := 23.
Definition OP_GE : Z := 24.
Definition OP_LE : Z := 25.
Definition OP_EQ : Z := 26.
Definition OP_NE : Z := 27.
Definition OP_SAME : Z := 28.
Definition OP_NOT : Z := 29.
Definition OP_AND : Z := 30.
Definition OP_OR : Z := 31.
Definition OP_NEWOBJ : Z := 32.
Definition OP_FIELDGET : Z := 33.
Definition OP_FIELDSET : Z := 34.
Definition OP_FIELDGET_NOPOP : Z := 35.
Definition OP_SELFCALL : Z := 36.
Definition OP_NIL : Z := 37.
Definition OP_CORO_CREATE : Z := 38.
Definition OP_CORO_YIELD : Z := 39.
Definition OP_CORO_RESUME : Z := 40.
Definition OP_CORO_FINISHED : Z := 41.
Definition OP_LEN : Z := 42.

(** nkiCompilerStackOffsetTable, indexed by opcode; NOP first.
    /repo/src/nkvm.c:63, 82-134. *)
Definition offset_table : list Z :=
  [0; -1; -1; -1; -1; 0; -1; 1; 1; 1; 1; -1; 0; 0; -1; -1; 0; -1; 0; 0; 0; -2;
   -1; -1; -1; -1; -1; -1; -1; 0; -1; -1; 1; -1; -2; 0; 0; 1; 1; 0; -1; 1; 0].
Definition stack_offset (op : Z) : Z :=
  match znth offset_table (Z.land op 63) with Some d => d | None => 0 end.

(** struct NKCompilerStateContextVariable.  /repo/src/nkcompil.h:52-68. *)
Record cvar := mkCV {
  cv_name : bytes;
  cv_global : bool;
  cv_nopop : bool;      (* doNotPopWhenOutOfScope *)
  cv_pos : Z
}.

(** struct NKCompilerStateContext; [cc_vars] newest first, [cc_fix] last
    fixup first.  /repo/src/nkcompil.h:70-81. *)
Record cctx := mkCC {
  cc_vars : list cvar;
  cc_off : Z;           (* stackFrameOffset *)
  cc_fn : Z;            (* currentFunctionId *)
  cc_loop : bool;
  cc_fix : list Z       (* loopContextFixups *)
}.
Definition set_cc_vars x (c : cctx) := mkCC x (cc_off c) (cc_fn c) (cc_loop c) (cc_fix c).
Definition set_cc_off x (c : cctx) := mkCC (cc_vars c) x (cc_fn c) (cc_loop c) (cc_fix c).
Definition set_cc_loop x (c : cctx) := mkCC (cc_vars c) (cc_off c) (cc_fn c) x (cc_fix c).
Definition set_cc_fix x (c : cctx) := mkCC (cc_vars c) (cc_off c) (cc_fn c) (cc_loop c) x.

(** struct NKCompilerState; the tokens from the current one on.
    /repo/src/nkcompil.h:83-99. *)
Record comp := mkComp {
  k_vm : vm;
  k_w : Z;              (* instructionWriteIndex *)
  k_ctx : list cctx;    (* context and its parents *)
  k_toks : list token;  (* currentToken and the tokens after it *)
  k_line : Z;           (* currentLineNumber *)
  k_file : Z;           (* currentFileIndex *)
  k_act : Z;            (* currentActualLineNumber *)
  k_rec : Z;            (* recursionCount *)
  k_nstat : Z           (* staticVariableCount *)
}.
Definition set_k_vm x (k : comp) := mkComp x (k_w k) (k_ctx k) (k_toks k) (k_line k) (k_file k) (k_act k) (k_rec k) (k_nstat k).
Definition set_k_w x (k : comp) := mkComp (k_vm k) x (k_ctx k) (k_toks k) (k_line k) (k_file k) (k_act k) (k_rec k) (k_nstat k).
Definition set_k_ctx x (k : comp) := mkComp (k_vm k) (k_w k) x (k_toks k) (k_line k) (k_file k) (k_act k) (k_rec k) (k_nstat k).
Definition set_k_toks x (k : comp) := mkComp (k_vm k) (k_w k) (k_ctx k) x (k_line k) (k_file k) (k_act k) (k_rec k) (k_nstat k).
Definition set_k_pos l f a (k : comp) := mkComp (k_vm k) (k_w k) (k_ctx k) (k_toks k) l f a (k_rec k) (k_nstat k).
Definition set_k_rec x (k : comp) := mkComp (k_vm k) (k_w k) (k_ctx k) (k_toks k) (k_line k) (k_file k) (k_act k) x (k_nstat k).
Definition set_k_nstat x (k : comp) := mkComp (k_vm k) (k_w k) (k_ctx k) (k_toks k) (k_line k) (k_file k) (k_act k) (k_rec k) x.

(** ** Outcomes over compiler states *)

Definition K (A : Type) : Type := comp -> res (A * comp).
Definition kret {A} (a : A) : K A := fun k => Ok (a, k).
Definition kbind {A B} (m : K A) (f : A -> K B) : K B :=
  fun k => match m k with Ok (a, k') => f a k' | Ub u => Ub u end.
Definition kub {A} (u : ub) : K A := fun _ => Ub u.
Definition kgets {A} (f : comp -> A) : K A := fun k => Ok (f k, k).
Definition kmod (f : comp -> comp) : K unit := fun k => Ok (tt, f k).
Definition klift {A} (r : res A) : K A :=
  fun k => match r with Ok a => Ok (a, k) | Ub u => Ub u end.
(** An operation on the virtual machine. *)
Definition kvm {A} (m : M A) : K A := fun k =>
  match m (k_vm k) with Ok (a, s) => Ok (a, set_k_vm s k) | Ub u => Ub u end.
Notation "x <~ a ;; b" := (kbind a (fun x => b))
  (at level 61, a at next level, right associativity).
Notation "a ;~ b" := (kbind a (fun _ => b)) (at level 61, right associativity).

(** ** Tokens *)

(** nkiCompilerCurrentTokenType.  /repo/src/nkcompil.c:948-954. *)
Definition cur_type (k : comp) : Z :=
  match k_toks k with [] => TK_INVALID | t :: _ => tk_type t end.

(** nkiCompilerCurrentTokenLinenumber.  /repo/src/nkcompil.c:956-962. *)
Definition cur_line (k : comp) : Z :=
  match k_toks k with [] => k_line k | t :: _ => u32 (tk_line t) end.

(** nkiCompilerCurrentTokenFileIndex.  /repo/src/nkcompil.c:964-970. *)
Definition cur_file (k : comp) : Z :=
  match k_toks k with [] => k_file k | t :: _ => tk_file t end.

(** nkiCompilerCurrentTokenString.  /repo/src/nkcompil.c:972-978. *)
Definition cur_str (k : comp) : bytes :=
  match k_toks k with [] => bs "<invalid token>" | t :: _ => tk_str t end.

(** nkiCompilerAddError.  /repo/src/nkcompil.c:980-987. *)
Definition cerror (msg : bytes) : K unit :=
  l <~ kgets cur_line ;; f <~ kgets cur_file ;; kvm (add_error_ex l f msg).

(** nkiCompilerNextToken.  /repo/src/nkcompil.c:905-936. *)
Definition next_tok : K unit :=
  ts <~ kgets k_toks ;;
  match ts with
  | [] => kret tt
  | _ :: r =>
    kmod (set_k_toks r) ;~
    match r with
    | [] => kret tt
    | t :: _ =>
      l <~ kgets k_line ;; f <~ kgets k_file ;;
      if negb (s32 l =? tk_line t) || negb (f =? tk_file t) then
        kmod (set_k_pos (u32 (tk_line t)) (tk_file t) (u32 (tk_actual t))) ;~
        w <~ kgets k_w ;;
        kvm (modify (fun s => set_markers
          (v_markers s ++ [mkMk w (tk_file t) (u32 (tk_line t)) (u32 (tk_actual t))]) s))
      else kret tt
    end
  end.

(** nkiCompilerExpectAndSkipToken.  /repo/src/nkcompil.c:381-397. *)
Definition expect (t : Z) : K bool :=
  c <~ kgets cur_type ;;
  if negb (c =? t) then
    s <~ kgets cur_str ;; cerror (bs "Unexpected token: " ++ s) ;~ kret false
  else next_tok ;~ kret true.

(** ** Recursion *)

(** nkiCompilerPushRecursion.  /repo/src/nkcompil.c:1643-1652. *)
Definition push_recursion : K bool :=
  n <~ kgets k_rec ;;
  if 256 <? n then
    cerror (bs "Reached recursion limit during compilation.") ;~ kret false
  else kmod (set_k_rec (n + 1)) ;~ kret true.

(** nkiCompilerPopRecursion.  /repo/src/nkcompil.c:1654-1658. *)
Definition pop_recursion : K unit :=
  n <~ kgets k_rec ;;
  if n =? 0 then kub UbAssert else kmod (set_k_rec (n - 1)).

(** ** Contexts *)

(** cs->context, dereferenced. *)
Definition cur_cc : K cctx :=
  l <~ kgets k_ctx ;; match l with [] => kub UbNull | c :: _ => kret c end.
Definition mod_cc (f : cctx -> cctx) : K unit :=
  l <~ kgets k_ctx ;;
  match l with [] => kub UbNull | c :: r => kmod (set_k_ctx (f c :: r)) end.

(** cs->context->stackFrameOffset += d on an [nkuint32_t]. *)
Definition move_off (d : Z) : K unit := mod_cc (fun c => set_cc_off (u32 (cc_off c + d)) c).

(** ** Writing code *)

(** nkiCompilerAddInstruction with the raw word [w].  [adj] is
    adjustStackFrame.  Growing to 2^32 instructions reallocates to nothing.
    /repo/src/nkcompil.c:46-87. *)
Definition grow_code : K unit :=
  s <~ kgets k_vm ;;
  let old := u32 (v_cmask s + 1) in
  let new := u32 (old * 2) in
  let m := Z.lor (u32 (v_cmask s * 2)) 1 in
  (if INVALID <=? m then
     cerror (bs "Too many instructions. Hit address space limit.")
   else kret tt) ;~
  if new =? 0 then kub UbOob
  else kvm (modify (fun s => set_cmask m (set_code (v_code s ++ repeat 0 (Z.to_nat old)) s))).

Definition add_word (w : Z) (adj : bool) : K unit :=
  i <~ kgets k_w ;;
  s0 <~ kgets k_vm ;;
  (if v_cmask s0 <=? i then grow_code else kret tt) ;~
  s <~ kgets k_vm ;;
  c <~ klift (wr (v_code s) i w) ;;
  kvm (modify (set_code c)) ;~
  l <~ kgets k_ctx ;;
  (match l with
   | [] => kret tt
   | _ => if adj then move_off (stack_offset w) else kret tt
   end) ;~
  kmod (set_k_w (u32 (i + 1))).

(** nkiCompilerAddInstructionSimple.  /repo/src/nkcompil.c:89-97. *)
Definition add_op (op : Z) (adj : bool) : K unit := add_word op adj.

(** nkiCompilerEmitPushLiteralInt.  /repo/src/nkcompil.c:199-212. *)
Definition push_lit_int (v : Z) (adj : bool) : K unit :=
  add_word OP_LIT_INT adj ;~ add_word (u32 v) false.

(** nkiCompilerEmitPushLiteralFunctionId.  /repo/src/nkcompil.c:214-228. *)
Definition push_lit_func (v : Z) (adj : bool) : K unit :=
  add_word OP_LIT_FUNC adj ;~ add_word (u32 v) false.

(** nkiCompilerEmitPushLiteralFloat, given the bits of the float.
    /repo/src/nkcompil.c:230-243. *)
Definition push_lit_float (v : Z) (adj : bool) : K unit :=
  add_word OP_LIT_FLOAT adj ;~ add_word v false.

(** entry->dontGC = nktrue for the entry found under this index. *)
Definition keep_string (i : Z) : M unit :=
  s <- gets (fun s => s) ;;
  match get_str_entry s i with
  | None => ret tt
  | Some e =>
    slots <- lift (wr (t_slots (v_strs s)) i (Some (set_s_keep true e))) ;;
    modify (set_strs (TableModel.mkT slots (t_holes (v_strs s))))
  end.

(** nkiCompilerEmitPushLiteralString.  /repo/src/nkcompil.c:245-270. *)
Definition push_lit_string (txt : bytes) (adj : bool) : K unit :=
  add_word OP_LIT_STRING adj ;~
  i <~ kvm (find_or_add_string txt) ;;
  add_word i false ;~
  kvm (keep_string i).

(** nkiCompilerEmitPushNil.  /repo/src/nkcompil.c:272-275. *)
Definition push_nil_op (adj : bool) : K unit := add_op OP_NIL adj.

(** nkiCompilerPushContext.  /repo/src/nkcompil.c:99-114. *)
Definition push_context : K unit :=
  l <~ kgets k_ctx ;;
  let off := match l with [] => 0 | c :: _ => cc_off c end in
  kmod (set_k_ctx (mkCC [] off INVALID false [] :: l)).

Definition pop_count (vs : list cvar) : Z :=
  zlen (filter (fun v => negb (cv_nopop v) && negb (cv_global v)) vs).

(** nkiCompilerPopContext.  /repo/src/nkcompil.c:116-197. *)
Definition pop_context : K unit :=
  l <~ kgets k_ctx ;;
  match l with
  | [] => kub UbAssert
  | c :: r =>
    kmod (set_k_ctx r) ;~
    let n := pop_count (cc_vars c) in
    if n =? 0 then kret tt else push_lit_int n false ;~ add_op OP_POPN false
  end.

(** nkiCompilerPopContextCount.  /repo/src/nkcompil.c:1340-1346. *)
Fixpoint pop_contexts (n : nat) : K unit :=
  match n with O => kret tt | S m => pop_context ;~ pop_contexts m end.

(** ** Variables *)

(** nkiCompilerAllocateStaticSpace.  /repo/src/nkcompil.c:277-315. *)
Definition allocate_static : K Z :=
  s <~ kgets k_vm ;; n <~ kgets k_nstat ;;
  let full := u32 (v_smask s + 1) =? n in
  let m := Z.lor (u32 (v_smask s * 2)) 1 in
  if full && (m =? INVALID) then
    kvm (modify (set_smask m)) ;~
    cerror (bs "Address space exhaustion trying to add static variable.") ;~ kret 0
  else
    (if full then
       kvm (modify (fun s => set_smask m (set_static (v_static s ++ repeat (mkV 0 0) (Z.to_nat n)) s)))
     else kret tt) ;~
    kmod (set_k_nstat (u32 (n + 1))) ;~
    if u32 (n + 1) =? 0 then
      cerror (bs "Address space exhaustion trying to add static variable.") ;~ kret 0
    else kret n.

Definition has_var (n : bytes) (vs : list cvar) : bool :=
  existsb (fun v => bytes_eqb (cv_name v) n) vs.

(** nkiCompilerAddVariable; the result tells whether a variable was made, it
    is then the first one of the current context.
    /repo/src/nkcompil.c:317-379. *)
Definition add_variable (name : bytes) (use_top init : bool) : K bool :=
  c <~ cur_cc ;;
  if has_var name (cc_vars c) then
    cerror (bs "Redundant variable declaration.") ;~ kret false
  else
    l <~ kgets k_ctx ;;
    match l with
    | [_] =>
      (if init && negb use_top then push_lit_int 0 true else kret tt) ;~
      p <~ allocate_static ;;
      (if init : bool then
         push_lit_int p true ;~ add_op OP_STATICPOKE true ;~ add_op OP_POP true
       else kret tt) ;~
      mod_cc (fun c => set_cc_vars (mkCV name true false p :: cc_vars c) c) ;~
      kret true
    | _ =>
      (if use_top : bool then kret tt else push_lit_int 0 true) ;~
      mod_cc (fun c => set_cc_vars (mkCV name false false (u32 (cc_off c - 1)) :: cc_vars c) c) ;~
      kret true
    end.

(** varTmp->doNotPopWhenOutOfScope = nktrue. *)
Definition no_pop : K unit :=
  mod_cc (fun c => set_cc_vars
    (match cc_vars c with
     | [] => []
     | v :: r => mkCV (cv_name v) (cv_global v) true (cv_pos v) :: r
     end) c).

Fixpoint find_var (n : bytes) (vs : list cvar) : option cvar :=
  match vs with
  | [] => None
  | v :: r => if bytes_eqb (cv_name v) n then Some v else find_var n r
  end.
Fixpoint find_var_in (n : bytes) (l : list cctx) : option cvar :=
  match l with
  | [] => None
  | c :: r => match find_var n (cc_vars c) with Some v => Some v | None => find_var_in n r end
  end.

(** nkiCompilerLookupVariable.  /repo/src/nkcompil.c:509-541. *)
Definition lookup_variable (n : bytes) : K (option cvar) :=
  l <~ kgets k_ctx ;;
  match find_var_in n l with
  | Some v => kret (Some v)
  | None => cerror (bs "Cannot find variable: " ++ n) ;~ kret None
  end.

(** ** Jumps *)

(** nkiCompilerEmitJump.  /repo/src/nkcompil.c:1217-1223. *)
Definition emit_jump (target : Z) : K Z :=
  w <~ kgets k_w ;;
  push_lit_int (target - w - 3) true ;~ add_op OP_JUMP true ;~ kret w.

(** nkiCompilerEmitJumpIfZero.  /repo/src/nkcompil.c:1226-1232. *)
Definition emit_jz (target : Z) : K Z :=
  w <~ kgets k_w ;;
  push_lit_int (target - w - 3) true ;~ add_op OP_JZ true ;~ kret w.

(** nkiCompilerModifyJump, through nkiCompilerGetInstruction.
    /repo/src/nkcompil.c:1234-1256. *)
Definition modify_jump (at_ target : Z) : K unit :=
  s <~ kgets k_vm ;;
  let addr a := Z.land (u32 a) (v_cmask s) in
  p <~ klift (rd (v_code s) (addr at_)) ;;
  j <~ klift (rd (v_code s) (addr (at_ + 2))) ;;
  if negb (p =? OP_LIT_INT) || negb ((j =? OP_JUMP) || (j =? OP_JZ)) then kub UbAssert
  else
    c <~ klift (wr (v_code s) (addr (at_ + 1)) (u32 (target - at_ - 3))) ;;
    kvm (modify (set_code c)).
