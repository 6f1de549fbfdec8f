(** * StackModel: the value stack (/repo/src/nkstack.c) *)
From Verif Require Export ObjsModel.

Definition vzero : value := mkV 0 0.

(** nkiVmStackInit.  /repo/src/nkstack.c:46-54. *)
Definition stack_init : stack := mkK [vzero] 0 1 0.

(** Reading / writing a slot of the current context's stack buffer through a
    pointer [&stack->values[i]]. *)
Definition get_slot (i : Z) : M value :=
  c <- cur_ctx ;; lift (rd (k_vals (c_stack c)) i).
Definition set_slot (i : Z) (v : value) : M unit :=
  c <- cur_ctx ;;
  vals <- lift (wr (k_vals (c_stack c)) i v) ;;
  mod_cur (set_c_stack (mkK vals (k_size (c_stack c)) (k_cap (c_stack c)) (k_mask (c_stack c)))).

Definition stack_size : M Z := c <- cur_ctx ;; ret (k_size (c_stack c)).

(** nkiVmStackPush_internal: index of the slot to write.  On error the code
    hands out slot 0.  /repo/src/nkstack.c:64-139.  A zero capacity makes
    nkiReallocArray(vm, p, 0, sizeof) divide by zero (/repo/src/nkmem.c:304-314). *)
Definition push_slot : M Z :=
  c <- cur_ctx ;;
  let k := c_stack c in
  if k_cap k =? 0 then mub UbDivTrap
  else if k_size k =? k_cap k then
    if 65535 <? k_cap k then add_error (bs "Stack overflow.") ;;; ret 0
    else
      let cap := u32 (k_cap k * 2) in
      if cap =? 0 then add_error (bs "Stack ran out of address space.") ;;; ret 0
      else
        maxs <- gets v_maxstack ;;
        if maxs <? cap then add_error (bs "Reached stack capacity limit.") ;;; ret 0
        else
          let mask := Z.lor (u32 (k_mask k * 2)) 1 in
          (* reallocation keeps the first slots; the rest is zeroed *)
          let vals := firstn (Z.to_nat (k_size k)) (k_vals k)
                      ++ repeat vzero (Z.to_nat (cap - k_size k)) in
          mod_cur (set_c_stack (mkK vals (k_size k + 1) cap mask)) ;;;
          ret (k_size k)
  else if k_cap k <=? k_size k then mub UbAssert
  else
    mod_cur (set_c_stack (mkK (k_vals k) (k_size k + 1) (k_cap k) (k_mask k))) ;;;
    ret (k_size k).

(** "*nkiVmStackPush_internal(vm) = v" *)
Definition push (v : value) : M unit := i <- push_slot ;; set_slot i v.

(** nkiVmStackPushInt.  /repo/src/nkstack.c:141-150. *)
Definition push_int (z : Z) : M unit := push (vint z).

(** nkiVmStackPushFloat.  /repo/src/nkstack.c:152-161. *)
Definition push_float (b : Z) : M unit := push (vfloat b).

(** nkiVmStackPushString: the slot is taken and its type set before the string
    is interned.  /repo/src/nkstack.c:163-174. *)
Definition push_string (txt : bytes) : M unit :=
  i <- push_slot ;;
  old <- get_slot i ;;
  set_slot i (mkV T_STRING (v_data old)) ;;;
  id <- find_or_add_string txt ;;
  set_slot i (vstr id).

(** nkiVmStackPop.  The pointer result is modelled by the value it points to:
    no caller writes the slot before its last read of the popped value.
    /repo/src/nkstack.c:176-192. *)
Definition pop : M value :=
  c <- cur_ctx ;;
  let k := c_stack c in
  if k_size k =? 0 then add_error (bs "Stack underflow in pop.") ;;; get_slot 0
  else
    mod_cur (set_c_stack (mkK (k_vals k) (k_size k - 1) (k_cap k) (k_mask k))) ;;;
    get_slot (k_size k - 1).

(** nkiVmStackPopN.  /repo/src/nkstack.c:194-210. *)
Definition pop_n (n : Z) : M unit :=
  c <- cur_ctx ;;
  let k := c_stack c in
  if k_size k <? n then
    add_error (bs "Stack underflow in popN.") ;;;
    mod_cur (set_c_stack (mkK (k_vals k) 0 (k_cap k) (k_mask k)))
  else mod_cur (set_c_stack (mkK (k_vals k) (k_size k - n) (k_cap k) (k_mask k))).

(** nkiVmStackPeek: the masked slot index.  /repo/src/nkstack.c:212-215. *)
Definition peek_idx (i : Z) : M Z := c <- cur_ctx ;; ret (Z.land (u32 i) (k_mask (c_stack c))).
Definition peek (i : Z) : M value := j <- peek_idx i ;; get_slot j.

(** nkiVmStackClear.  /repo/src/nkstack.c:217-233. *)
Definition stack_clear (free_mem : bool) (k : stack) : stack :=
  if free_mem then mkK [vzero; vzero] 0 2 1
  else mkK (repeat vzero (Z.to_nat (k_cap k))) 0 (k_cap k) (k_mask k).
