(** * VmModel: opcodes, coroutines, function calls, the run loop

    /repo/src/nkopcode.c, /repo/src/nkcorout.c, /repo/src/nkvm.c,
    /repo/src/nkfunc.c and the run functions of /repo/src/nkx.c. *)
From Verif Require Export GcModel.

Section Vm.

(** The host: what its GC mark callbacks mark, and what its C functions do
    (given the callback and the argument array; returns
    [data.returnValue]). *)
Variable hostmark : Z -> Z -> option Z -> list value.
Variable host : Z -> list value -> M value.

Definition self : M vm := gets (fun s => s).

(** ** Arithmetic *)

(** Pushing the result of a signed 32-bit C operation; leaving the range is
    undefined behaviour. *)
Definition push_signed (z : Z) : M unit :=
  if in_s32 z then push_int z else mub UbSignedOverflow.

Definition unimplemented (what : bytes) (t : Z) : M unit :=
  add_error (what ++ bs " unimplemented for type " ++ type_name t ++ bs ".").

Definition null_text (o : option bytes) : bytes :=
  match o with Some t => t | None => bs "<null>" end.

(** nkiOpcode_add.  /repo/src/nkopcode.c:46-108.  (The 32-bit length limit of
    nkiDynStrAppend is not modelled.) *)
Definition op_add : M unit :=
  in2 <- pop ;; in1 <- pop ;;
  let t := v_type in1 in
  if t =? T_INT then b <- to_int in2 ;; push_signed (v_int in1 + b)
  else if t =? T_FLOAT then b <- to_float in2 ;; push_float (f_add (v_data in1) b)
  else if t =? T_STRING then
    s <- self ;;
    let a := null_text (get_str s (v_data in1)) in
    b <- to_string in2 ;;
    push_string (a ++ null_text b)
  else unimplemented (bs "Addition") t.

(** nkiOpcode_subtract.  /repo/src/nkopcode.c:155-189. *)
Definition op_subtract : M unit :=
  in2 <- pop ;; in1 <- pop ;;
  let t := v_type in1 in
  if t =? T_INT then b <- to_int in2 ;; push_signed (v_int in1 - b)
  else if t =? T_FLOAT then b <- to_float in2 ;; push_float (f_sub (v_data in1) b)
  else unimplemented (bs "Subtraction") t.

(** nkiOpcode_multiply.  /repo/src/nkopcode.c:191-225. *)
Definition op_multiply : M unit :=
  in2 <- pop ;; in1 <- pop ;;
  let t := v_type in1 in
  if t =? T_INT then b <- to_int in2 ;; push_signed (v_int in1 * b)
  else if t =? T_FLOAT then b <- to_float in2 ;; push_float (f_mul (v_data in1) b)
  else unimplemented (bs "Multiplication") t.

(** C division truncates towards zero; dividing by zero or overflowing traps. *)
Definition c_div (a b : Z) : res Z :=
  if b =? 0 then Ub UbDivTrap
  else if (a =? - W31) && (b =? -1) then Ub UbDivTrap else Ok (Z.quot a b).
Definition c_rem (a b : Z) : res Z :=
  if b =? 0 then Ub UbDivTrap
  else if (a =? - W31) && (b =? -1) then Ub UbDivTrap else Ok (Z.rem a b).

(** nkiOpcode_divide.  /repo/src/nkopcode.c:227-275. *)
Definition op_divide : M unit :=
  in2 <- pop ;; in1 <- pop ;;
  let t := v_type in1 in
  if t =? T_INT then
    b <- to_int in2 ;;
    if (b =? 0) || ((b =? -1) && (v_int in1 =? -2147483647 - 1))
    then add_error (bs "Integer divide-by-zero or division overflow.")
    else r <- lift (c_div (v_int in1) b) ;; push_int r
  else if t =? T_FLOAT then b <- to_float in2 ;; push_float (f_div (v_data in1) b)
  else unimplemented (bs "Division") t.

(** nkiOpcode_modulo.  /repo/src/nkopcode.c:277-315. *)
Definition op_modulo : M unit :=
  in2 <- pop ;; in1 <- pop ;;
  let t := v_type in1 in
  if t =? T_INT then
    b <- to_int in2 ;;
    if (b =? 0) || ((v_int in1 =? -2147483648) && (b =? -1))
    then add_error (bs "Integer divide-by-zero.")
    else r <- lift (c_rem (v_int in1) b) ;; push_int r
  else unimplemented (bs "Modulo") t.

(** nkiOpcode_negate.  /repo/src/nkopcode.c:317-348. *)
Definition op_negate : M unit :=
  in1 <- pop ;;
  let t := v_type in1 in
  if t =? T_INT then push_signed (- v_int in1)
  else if t =? T_FLOAT then push_float (f_neg (v_data in1))
  else unimplemented (bs "Negation") t.

(** ** Literals, stack and static data *)

(** nkiOpcode_pushLiteral_int / _float / _string / _functionId: push a slot,
    step to the literal word, store it with the type tag.
    /repo/src/nkopcode.c:110-149. *)
Definition op_push_literal (t : Z) : M unit :=
  i <- push_slot ;;
  ip <- get_ip ;;
  set_ip (u32 (ip + 1)) ;;;
  s <- self ;;
  w <- lift (rd (v_code s) (Z.land (u32 (ip + 1)) (v_cmask s))) ;;
  set_slot i (mkV t w).

(** nkiOpcode_pop.  /repo/src/nkopcode.c:350-353. *)
Definition op_pop : M unit := _ <- pop ;; ret tt.

(** nkiOpcode_popN.  /repo/src/nkopcode.c:355-359. *)
Definition op_popn : M unit := v <- pop ;; n <- to_int v ;; pop_n (u32 n).

(** The address used by nkiOpcode_stackPeek / _stackPoke for index value [v]
    (already popped).  /repo/src/nkopcode.c:371-390, 403-419. *)
Definition stack_addr (v : value) : M Z :=
  sz <- stack_size ;;
  ret (if 0 <=? v_int v then v_int v else u32 (sz + v_int v)).

(** nkiOpcode_stackPeek.  /repo/src/nkopcode.c:361-391. *)
Definition op_stack_peek : M unit :=
  v <- pop ;;
  if negb (v_type v =? T_INT) then
    add_error (bs "Attempted to use a non-integer as a stack index.")
  else
    a <- stack_addr v ;; x <- peek a ;; push x.

(** nkiOpcode_stackPoke.  /repo/src/nkopcode.c:393-420. *)
Definition op_stack_poke : M unit :=
  v <- pop ;;
  if negb (v_type v =? T_INT) then
    add_error (bs "Attempted to use a non-integer as a stack index.")
  else
    a <- stack_addr v ;;
    sz <- stack_size ;;
    x <- peek (sz - 1) ;;
    j <- peek_idx a ;;
    set_slot j x.

(** nkiOpcode_staticPeek.  /repo/src/nkopcode.c:422-438. *)
Definition op_static_peek : M unit :=
  v <- pop ;;
  if negb (v_type v =? T_INT) then
    add_error (bs "Attempted to use a non-integer as a static index.")
  else
    s <- self ;;
    x <- lift (rd (v_static s) (Z.land (u32 (v_int v)) (v_smask s))) ;;
    push x.

(** nkiOpcode_staticPoke.  /repo/src/nkopcode.c:440-456. *)
Definition op_static_poke : M unit :=
  v <- pop ;;
  if negb (v_type v =? T_INT) then
    add_error (bs "Attempted to use a non-integer as a static index.")
  else
    sz <- stack_size ;;
    x <- peek (sz - 1) ;;
    s <- self ;;
    st <- lift (wr (v_static s) (Z.land (u32 (v_int v)) (v_smask s)) x) ;;
    modify (set_static st).

(** nkiOpcode_pushNil: only the type tag is written.
    /repo/src/nkopcode.c:1113-1117. *)
Definition op_push_nil : M unit :=
  i <- push_slot ;; old <- get_slot i ;; set_slot i (mkV T_NIL (v_data old)).

(** ** Control flow *)

(** nkiOpcode_jumpRelative.  /repo/src/nkopcode.c:458-462. *)
Definition op_jump : M unit :=
  v <- pop ;; n <- to_int v ;; ip <- get_ip ;; set_ip (u32 (ip + n)).

(** nkiOpcode_jz.  /repo/src/nkopcode.c:890-898. *)
Definition op_jz : M unit :=
  off <- pop ;; test <- pop ;;
  t <- to_int test ;;
  if t =? 0 then n <- to_int off ;; ip <- get_ip ;; set_ip (u32 (ip + n)) else ret tt.

(** nkiOpcode_end.  /repo/src/nkopcode.c:870-888. *)
Definition op_end : M unit :=
  sz <- stack_size ;;
  (if sz =? 0 then ret tt else add_error (bs "Stack data remaining after end of program.")) ;;;
  ip <- get_ip ;; set_ip (u32 (ip - 1)).

(** ** Comparison and logic *)

(** nkiOpcode_internal_compare.  /repo/src/nkopcode.c:900-906. *)
Definition internal_compare : M Z :=
  in2 <- pop ;; in1 <- pop ;; value_compare in1 in2 false.

Definition b2z (b : bool) : Z := if b then 1 else 0.

(** nkiOpcode_gt, _lt, _ge, _le, _eq, _ne.  /repo/src/nkopcode.c:908-942. *)
Definition op_gt : M unit := c <- internal_compare ;; push_int (b2z (c =? 1)).
Definition op_lt : M unit := c <- internal_compare ;; push_int (b2z (c =? -1)).
Definition op_ge : M unit := c <- internal_compare ;; push_int (b2z ((c =? 0) || (c =? 1))).
Definition op_le : M unit := c <- internal_compare ;; push_int (b2z ((c =? 0) || (c =? -1))).
Definition op_eq : M unit := c <- internal_compare ;; push_int (b2z (c =? 0)).
Definition op_ne : M unit := c <- internal_compare ;; push_int (b2z (negb (c =? 0))).

(** nkiOpcode_eqsametype.  /repo/src/nkopcode.c:944-958. *)
Definition op_eqsame : M unit :=
  sz <- stack_size ;;
  a <- peek (sz - 1) ;; b <- peek (sz - 2) ;;
  if v_type a =? v_type b then c <- internal_compare ;; push_int (b2z (c =? 0))
  else pop_n 2 ;;; push_int 0.

(** nkiOpcode_not.  /repo/src/nkopcode.c:960-963. *)
Definition op_not : M unit := v <- pop ;; n <- to_int v ;; push_int (b2z (n =? 0)).

(** Conversion of an int to the one-byte [nkbool], as a truth value. *)
Definition nkbool_of (n : Z) : bool := negb (Z.land (u32 n) 255 =? 0).

(** nkiOpcode_and.  /repo/src/nkopcode.c:965-972. *)
Definition op_and : M unit :=
  a <- pop ;; x <- to_int a ;; b <- pop ;; y <- to_int b ;;
  push_int (b2z (nkbool_of x && nkbool_of y)).

(** nkiOpcode_or.  /repo/src/nkopcode.c:974-981. *)
Definition op_or : M unit :=
  a <- pop ;; x <- to_int a ;; b <- pop ;; y <- to_int b ;;
  push_int (b2z (nkbool_of x || nkbool_of y)).

(** ** Objects *)

(** nkiOpcode_createObject.  /repo/src/nkopcode.c:983-988. *)
Definition op_create_object : M unit :=
  i <- push_slot ;;
  old <- get_slot i ;;
  set_slot i (mkV T_OBJ (v_data old)) ;;;
  id <- create_object ;;
  set_slot i (vobj id).

(** nkiOpcode_objectFieldGet_internal.  /repo/src/nkopcode.c:990-1031. *)
Definition op_field_get (pop_object : bool) : M unit :=
  key <- pop ;;
  ob <- (if pop_object then pop else sz <- stack_size ;; peek (sz - 1)) ;;
  if negb (v_type ob =? T_OBJ) then
    add_error (bs "Attempted to get a field on a value that is not an object.")
  else
    s <- self ;;
    match get_obj s (v_data ob) with
    | None => add_error (bs "Bad object id in nkiOpcode_objectFieldGet.")
    | Some _ =>
      out <- push_slot ;;
      p <- find_or_add_entry (v_data ob) key true ;;
      match p with
      | Some q => x <- el_get (v_data ob) q ;; set_slot out x
      | None => set_slot out vnil
      end
    end.

(** nkiOpcode_objectFieldSet.  /repo/src/nkopcode.c:1043-1089. *)
Definition op_field_set : M unit :=
  key <- pop ;; ob <- pop ;; v <- pop ;;
  if negb (v_type ob =? T_OBJ) then
    add_error (bs "Attempted to set a field on a value that is not an object.")
  else
    s <- self ;;
    match get_obj s (v_data ob) with
    | None => add_error (bs "Bad object id in nkiOpcode_objectFieldSet.")
    | Some _ =>
      (if v_type v =? T_NIL then clear_entry (v_data ob) key
       else
         p <- find_or_add_entry (v_data ob) key false ;;
         match p with
         | Some q => el_set (v_data ob) q v
         | None => ret tt
         end) ;;;
      push v
    end.

(** nkiOpcode_prepareSelfCall.  The three writes go through slot pointers and
    may alias, so they are kept in order.  /repo/src/nkopcode.c:1091-1111. *)
Definition op_prepare_self_call : M unit :=
  sz <- stack_size ;;
  ai <- peek_idx (sz - 1) ;;
  av <- get_slot ai ;;
  n <- to_int av ;;
  let off := u32 n in
  fi <- peek_idx (sz - u32 (off + 3)) ;;
  oi <- peek_idx (sz - u32 (off + 2)) ;;
  f <- get_slot fi ;;
  o <- get_slot oi ;;
  set_slot fi o ;;;
  set_slot oi f ;;;
  set_slot ai (vint (off + 1)).

(** nkiOpcode_len.  The popped slot and the pushed slot are the same slot, and
    a non-object is left in place.  /repo/src/nkopcode.c:1365-1382. *)
Definition op_len : M unit :=
  v <- pop ;;
  i <- push_slot ;;
  if negb (v_type v =? T_OBJ) then add_error (bs "Non-object passed into len().")
  else n <- get_obj_size v ;; set_slot i (vint n).

(** ** Calls *)

(** The shift loop of the callable-object case: for i = argumentCount .. 1,
    slot base+i+1 := slot base+i (masked).  /repo/src/nkopcode.c:537-540. *)
Fixpoint shift_args (n : nat) (base mask : Z) : M unit :=
  match n with
  | O => ret tt
  | S k =>
    let i := Z.of_nat n in
    x <- get_slot (Z.land (u32 (base + i)) mask) ;;
    set_slot (Z.land (u32 (base + i + 1)) mask) x ;;;
    shift_args k base mask
  end.

(** Inserting the "_data" value as first argument; returns the new argument
    count, [None] on overflow.  /repo/src/nkopcode.c:513-567. *)
Definition insert_data (argc : Z) (d : value) : M (option Z) :=
  if INVALID - 1 <? argc then
    add_error (bs "Argument count overflow.") ;;; ret None
  else
    let argc' := argc + 1 in
    _ <- push_slot ;;
    c <- cur_ctx ;;
    let sz := k_size (c_stack c) in
    let mask := k_mask (c_stack c) in
    shift_args (Z.to_nat argc') (u32 (sz - argc' - 2)) mask ;;;
    set_slot (Z.land (u32 (sz - argc' - 1)) mask) d ;;;
    set_slot (Z.land (u32 (sz - 1)) mask) (vint argc') ;;;
    ret (Some argc').

(** Reading an optional entry found by nkiVmObjectFindOrAddEntry_public. *)
Definition entry_value (p : option (Z * (Z * Z))) : M (option value) :=
  match p with
  | None => ret None
  | Some (ob, q) => v <- el_get ob q ;; ret (Some v)
  end.

(** The callable-object loop: the function value and argument count it ends
    with, or [None] after an error return.  [fuel] counts the 10 permitted
    redirections.  /repo/src/nkopcode.c:477-568. *)
Fixpoint resolve_callee (fuel : nat) (fv : option value) (argc : Z) : M (option (option value * Z)) :=
  match fv with
  | None => ret (Some (None, argc))
  | Some v =>
    if negb (v_type v =? T_OBJ) then ret (Some (Some v, argc))
    else
      match fuel with
      | O => add_error (bs "Too many callable object redirections.") ;;; ret None
      | S f =>
        i <- find_or_add_string (bs "_exec") ;;
        p <- find_or_add_entry_public v (vstr i) true ;;
        x <- entry_value p ;;
        j <- find_or_add_string (bs "_data") ;;
        q <- find_or_add_entry_public v (vstr j) true ;;
        d <- entry_value q ;;
        match d with
        | None => resolve_callee f x argc
        | Some dv =>
          r <- insert_data argc dv ;;
          match r with
          | None => ret None
          | Some argc' => resolve_callee f x argc'
          end
        end
      end
  end.

(** Copying the arguments of a native call out of the stack.
    /repo/src/nkopcode.c:643-652. *)
Fixpoint copy_args (k : stack) (argc : Z) (idx : list Z) : res (list value) :=
  match idx with
  | [] => Ok []
  | i :: r =>
    do v <- rd (k_vals k) (Z.land (k_mask k) (u32 (k_size k - argc - 1 + i))) ;
    do vs <- copy_args k argc r ; Ok (v :: vs)
  end.

(** The argument checks of a native call; [true] if the call may proceed.
    /repo/src/nkopcode.c:654-738. *)
Fixpoint check_args (xf : extfunc) (i : Z) (args : list value) : M bool :=
  match args with
  | [] => ret true
  | a :: r =>
    ' (t, et) <- lift (rd (x_types xf) i) ;;
    if t =? T_NIL then check_args xf (i + 1) r
    else if negb (t =? v_type a) then
      add_error (bs "Incorrect argument type in call to " ++ x_name xf ++ bs ". Expected "
        ++ type_name t ++ bs " but got " ++ type_name (v_type a) ++ bs " for argument "
        ++ u_to_str i ++ bs ".") ;;; ret false
    else if t =? T_OBJ then
      s <- self ;;
      match get_obj s (v_data a) with
      | Some o =>
        if negb (et =? INVALID) && negb (et =? o_ext o) then
          add_error (bs "Bad external object type passed to external function " ++ x_name xf
            ++ bs " for argument " ++ u_to_str i ++ bs ".") ;;; ret false
        else check_args xf (i + 1) r
      | None =>
        add_error (bs "Bad object ID passed to external function " ++ x_name xf
          ++ bs " for argument " ++ u_to_str i ++ bs ".") ;;; ret false
      end
    else check_args xf (i + 1) r
  end.

(** The native branch of nkiOpcode_call.  /repo/src/nkopcode.c:604-767. *)
Definition call_native (f : func) (argc : Z) : M unit :=
  s <- self ;;
  match znth (v_extfuncs s) (f_ext f) with
  | None => add_error (bs "Tried to call a bad native function.")
  | Some xf =>
    match x_cb xf with
    | None => add_error (bs "Tried to call a null native function.")
    | Some cb =>
      c <- cur_ctx ;;
      args <- lift (copy_args (c_stack c) argc (zseq 0 (Z.to_nat argc))) ;;
      ok <- (if x_argc xf =? INVALID then ret true
             else if negb (x_argc xf =? argc) then
               add_error (bs "Tried to call an external function " ++ x_name xf
                 ++ bs " with an incorrect number of arguments.") ;;; ret false
             else check_args xf 0 args) ;;
      if ok then
        r <- host cb args ;;
        pop_n (u32 (argc + 2)) ;;;
        push r
      else ret tt
    end
  end.

(** nkiOpcode_call.  /repo/src/nkopcode.c:464-789. *)
Definition op_call : M unit :=
  sz <- stack_size ;;
  av <- peek (sz - 1) ;;
  n <- to_int av ;;
  let argc := u32 n in
  fv <- peek (sz - u32 (argc + 2)) ;;
  r <- resolve_callee 10 (Some fv) argc ;;
  match r with
  | None => ret tt
  | Some (fv', argc') =>
    match fv' with
    | None =>
      add_error (bs "Tried to call something that is not a function id or a callable object.")
    | Some v =>
      if negb (v_type v =? T_FUNC) then
        add_error (bs "Tried to call something that is not a function id or a callable object.")
      else
        s <- self ;;
        match znth (v_funcs s) (v_data v) with
        | None => add_error (bs "Bad function id.")
        | Some f =>
          if negb (f_argc f =? INVALID) && negb (f_argc f =? argc') then
            add_error (bs "Incorrect argument count for function call. Expected: "
              ++ u_to_str (f_argc f) ++ bs " Found: " ++ u_to_str argc')
          else if negb (f_ext f =? INVALID) then call_native f argc'
          else
            ip <- get_ip ;;
            push_int ip ;;;
            set_ip (u32 (f_first f - 1))
        end
    end
  end.

(** ** Coroutines *)

(** nkiVmInitExecutionContext.  /repo/src/nkvm.c:163-175. *)
Definition ctx_init : ctx := mkC stack_init 0 None vnil CO_INVALID.

(** nkiVmPopExecutionContext.  /repo/src/nkcorout.c:146-161. *)
Definition pop_context : M unit :=
  i <- gets v_cur ;;
  c <- get_ctx i ;;
  match c_parent c with
  | None => add_error (bs "Cannot yield out of the root context." ++ [10])
  | Some p =>
    modify (set_cur p) ;;;
    put_ctx i (set_c_parent None c)
  end.

(** nkiVmPushExecutionContext (the NULL check is done by the callers'
    model).  /repo/src/nkcorout.c:163-180. *)
Definition push_context (i : Z) : M unit :=
  c <- get_ctx i ;;
  match c_parent c with
  | Some _ => add_error (bs "Cannot switch to an already-active coroutine." ++ [10])
  | None =>
    cur <- gets v_cur ;;
    put_ctx i (set_c_parent (Some cur) c) ;;;
    modify (set_cur i)
  end.

(** Pushing a list of values in order. *)
Fixpoint push_all (vs : list value) : M unit :=
  match vs with [] => ret tt | v :: r => push v ;;; push_all r end.

(** The middle of nkiOpcode_coroutineCreate: create the coroutine object in the
    stack slot [out], tie it to the new context [ci], or on failure drop the
    context; [false] on failure.  /repo/src/nkopcode.c:1165-1195. *)
Definition coroutine_object (ci out : Z) : M bool :=
  old <- get_slot out ;;
  set_slot out (mkV T_OBJ (v_data old)) ;;;
  id <- create_object ;;
  set_slot out (vobj id) ;;;
  c <- get_ctx ci ;;
  put_ctx ci (set_c_state CO_CREATED (set_c_obj (vobj id) c)) ;;;
  ty <- gets v_corotype ;;
  ok1 <- set_ext_type (vobj id) ty ;;
  ok <- (if ok1 then set_ext_data (vobj id) (Some ci) else ret false) ;;
  if negb ok then
    _ <- clear_ext (vobj id) ;;
    free_ctx ci ;;;
    add_error (bs "Failed to set execution context for coroutine.") ;;; ret false
  else ret true.

(** nkiOpcode_coroutineCreate.  The new context gets the next context number;
    its buffer is allocated before the arguments are popped in the code, which
    makes no difference.  /repo/src/nkopcode.c:1119-1232. *)
Definition op_coroutine_create : M unit :=
  acv <- pop ;;
  argc <- to_int acv ;;
  if argc <? 0 then
    add_error (bs "Got negative argument count in coroutine creation.")
  else
    pc <- cur_ctx ;;
    let k := c_stack pc in
    if k_size k <? argc then
      add_error (bs "Argument count bigger than stack in coroutine creation.")
    else
      args <- lift (copy_args (mkK (k_vals k) (k_size k) (k_cap k) INVALID)
                      (argc - 1) (zseq 0 (Z.to_nat argc))) ;;
      pop_n argc ;;;
      fv <- pop ;;
      out <- push_slot ;;
      s <- self ;;
      let ci := zlen (v_ctxs s) in
      modify (fun s => set_ctxs (v_ctxs s ++ [Some ctx_init]) s) ;;;
      ok <- coroutine_object ci out ;;
      if ok then
        push_context ci ;;;
        push fv ;;;
        push_all args ;;;
        push_int argc ;;;
        c' <- get_ctx ci ;;
        put_ctx ci (set_c_ip INVALID c') ;;;
        op_call ;;;
        pop_context
      else ret tt.

(** nkiOpcode_coroutineYield.  /repo/src/nkopcode.c:1234-1260. *)
Definition op_yield : M unit :=
  i <- gets v_cur ;;
  if i =? 0 then add_error (bs "Tried to yield from the root execution context.")
  else
    v <- pop ;;
    pop_context ;;;
    push v.

(** nkiOpcode_coroutineResume.  /repo/src/nkopcode.c:1262-1328. *)
Definition op_resume : M unit :=
  v <- pop ;; co <- pop ;;
  ty <- gets v_corotype ;;
  oty <- get_ext_type co ;;
  if negb (ty =? oty) then
    add_error (bs "Tried to resume something that is not a coroutine.")
  else
    d <- get_ext_data co ;;
    match d with
    | None => mub UbNull
    | Some ci =>
      c <- get_ctx ci ;;
      if c_state c =? CO_INVALID then add_error (bs "Tried to resume an invalid coroutine.")
      else if c_state c =? CO_FINISHED then push vnil
      else
        match c_parent c with
        | Some _ => add_error (bs "Tried to recursively resume an active coroutine.")
        | None =>
          push_context ci ;;;
          if c_state c =? CO_CREATED then
            c' <- get_ctx ci ;; put_ctx ci (set_c_state CO_RUNNING c')
          else if c_state c =? CO_RUNNING then push v
          else ret tt
        end
    end.

(** nkiOpcode_coroutineIsFinished.  /repo/src/nkopcode.c:1330-1363. *)
Definition op_is_finished : M unit :=
  co <- pop ;;
  ty <- gets v_corotype ;;
  oty <- get_ext_type co ;;
  if negb (ty =? oty) then
    add_error (bs "Tried to check for a finished coroutine with the wrong object type.")
  else
    d <- get_ext_data co ;;
    match d with
    | None => mub UbNull
    | Some ci =>
      c <- get_ctx ci ;;
      push (vint (b2z (c_state c =? CO_FINISHED)))
    end.

(** nkiOpcode_return.  /repo/src/nkopcode.c:791-868. *)
Definition op_return : M unit :=
  cc <- pop ;;
  rv <- pop ;;
  n <- to_int cc ;;
  pop_n (u32 n) ;;;
  rav <- pop ;;
  ra <- to_int rav ;;
  acv <- pop ;;
  ac <- to_int acv ;;
  pop_n (u32 ac) ;;;
  _ <- pop ;;
  if u32 ra =? INVALID then
    mod_cur (fun c => set_c_ip INVALID (set_c_state CO_FINISHED c)) ;;;
    pop_context ;;;
    push rv
  else
    push rv ;;;
    set_ip (u32 ra).

(** ** Dispatch *)

(** nkiOpcodeTable after nkiVmInitOpcodeTable, indexed by the opcode numbers
    of /repo/src/nkenums.h:60-128.  /repo/src/nkvm.c:69-144. *)
Definition opcode (n : Z) : M unit :=
  match n with
  | 1 => op_add | 2 => op_subtract | 3 => op_multiply | 4 => op_divide
  | 5 => op_negate | 6 => op_modulo
  | 7 => op_push_literal T_INT | 8 => op_push_literal T_FLOAT
  | 9 => op_push_literal T_STRING | 10 => op_push_literal T_FUNC
  | 11 => op_pop | 12 => op_popn
  | 13 => op_stack_peek | 14 => op_stack_poke
  | 15 => op_static_poke | 16 => op_static_peek
  | 17 => op_jump | 18 => op_call | 19 => op_return | 20 => op_end | 21 => op_jz
  | 22 => op_gt | 23 => op_lt | 24 => op_ge | 25 => op_le | 26 => op_eq | 27 => op_ne
  | 28 => op_eqsame | 29 => op_not | 30 => op_and | 31 => op_or
  | 32 => op_create_object | 33 => op_field_get true | 34 => op_field_set
  | 35 => op_field_get false | 36 => op_prepare_self_call | 37 => op_push_nil
  | 38 => op_coroutine_create | 39 => op_yield | 40 => op_resume | 41 => op_is_finished
  | 42 => op_len
  | _ => ret tt
  end.

Definition OP_END : Z := 20.

(** The word at the current instruction pointer. *)
Definition fetch : M Z :=
  c <- cur_ctx ;; s <- self ;;
  lift (rd (v_code s) (Z.land (c_ip c) (v_cmask s))).

(** The periodic part of nkiVmIterate; [false] when the instruction limit was
    hit.  /repo/src/nkvm.c:399-419. *)
Definition tick : M bool :=
  modify (fun s => set_gccount (u32 (v_gccount s - 1)) s) ;;;
  s <- self ;;
  if negb (v_gccount s =? 0) then ret true
  else
    go <- (if v_left s =? INVALID then ret true
           else if v_left s <? v_gcint s then
             add_error (bs "Instruction count limit reached.") ;;;
             modify (set_left 0) ;;; ret false
           else modify (set_left (v_left s - v_gcint s)) ;;; ret true) ;;
    if go then
      (if v_newcount s =? 0 then
         garbage_collect hostmark ;;;
         modify (fun s => set_newcount (v_newint s) s)
       else ret tt) ;;;
      modify (fun s => set_gccount (v_gcint s) s) ;;;
      ret true
    else ret false.

(** nkiVmIterate.  /repo/src/nkvm.c:390-424. *)
Definition iterate : M unit :=
  w <- fetch ;;
  go <- tick ;;
  if go then
    opcode (Z.land w 63) ;;;
    ip <- get_ip ;;
    set_ip (u32 (ip + 1))
  else ret tt.

(** nkiVmExecuteProgram; the fuel bounds the number of instructions.
    [None] when it ran out.  /repo/src/nkvm.c:426-440. *)
Fixpoint execute (fuel : nat) : M (option bool) :=
  w <- fetch ;;
  if w =? OP_END then ret (Some true)
  else
    match fuel with
    | O => ret None
    | S f =>
      iterate ;;;
      s <- self ;;
      if has_errors s then ret (Some false) else execute f
    end.

(** nkxVmIterate.  /repo/src/nkx.c:134-160. *)
Fixpoint iterate_n (count : nat) : M unit :=
  match count with
  | O => ret tt
  | S n =>
    w <- fetch ;;
    if w =? OP_END then iterate
    else
      s <- self ;;
      if has_errors s then ret tt else iterate ;;; iterate_n n
  end.

(** nkxVmProgramHasEnded.  /repo/src/nkx.c:1113-1118. *)
Definition program_has_ended : M bool := w <- fetch ;; ret (w =? OP_END).

(** The loop of nkiVmCallFunction.  /repo/src/nkfunc.c:125-129. *)
Fixpoint call_loop (fuel : nat) : M bool :=
  ip <- get_ip ;;
  s <- self ;;
  if (ip =? INVALID) || has_errors s then ret true
  else
    match fuel with
    | O => ret false
    | S f => iterate ;;; call_loop f
    end.

(** nkiVmCallFunction: the returned value; [None] in the outer option when the
    fuel ran out, [Some None] when it returned early with an error.
    /repo/src/nkfunc.c:67-143. *)
Definition call_function (fuel : nat) (fv : value) (args : list value) : M (option (option value)) :=
  if negb (v_type fv =? T_FUNC) then
    add_error (bs "Tried to call a non-function with nkiVmCallFunction.") ;;; ret (Some None)
  else
    old <- get_ip ;;
    push fv ;;;
    push_all args ;;;
    push_int (zlen args) ;;;
    set_ip (INVALID - 1) ;;;
    op_call ;;;
    s <- self ;;
    if has_errors s then ret (Some None)
    else
      ip <- get_ip ;;
      set_ip (u32 (ip + 1)) ;;;
      fin <- call_loop fuel ;;
      if fin then
        v <- pop ;;
        set_ip old ;;;
        ret (Some (Some v))
      else ret None.

End Vm.

(** nkiVmInit, followed by the registration of the coroutine type.  The host
    may lower the limits before running anything.
    /repo/src/nkvm.c:184-260, /repo/src/nkcorout.c:136-144. *)
Definition vm_init : vm :=
  mkVm [] [Some (set_c_state CO_RUNNING ctx_init)] 0
    [vzero; vzero] 1 [0; 0; 0; 0] 3
    tab_init (repeat [] (Z.to_nat STR_BUCKETS)) tab_init [] []
    0 1024 1024 256 256
    [] [] INVALID INVALID
    [mkET (bs "coroutine") true true true]
    INVALID (repeat [] 16) [] [] 0 [].
