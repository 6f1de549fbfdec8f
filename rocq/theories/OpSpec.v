(** * OpSpec: what the instruction properties (C19-C27) talk about *)
From Coq Require Import Floats.SpecFloat.
From Verif Require Import Base State StrModel ValueModel StackModel ObjsModel VmModel ApiModel StackProofs.

(** The instruction numbers.  /repo/src/nkenums.h:61-125. *)
Definition O_ADD := 1.        Definition O_SUBTRACT := 2.   Definition O_MULTIPLY := 3.
Definition O_DIVIDE := 4.     Definition O_NEGATE := 5.     Definition O_MODULO := 6.
Definition O_LIT_INT := 7.    Definition O_LIT_FLOAT := 8.  Definition O_LIT_STRING := 9.
Definition O_LIT_FUNC := 10.  Definition O_POP := 11.       Definition O_POPN := 12.
Definition O_STACKPEEK := 13. Definition O_STACKPOKE := 14. Definition O_STATICPOKE := 15.
Definition O_STATICPEEK := 16. Definition O_JUMP := 17.     Definition O_CALL := 18.
Definition O_RETURN := 19.    Definition O_END := 20.       Definition O_JZ := 21.
Definition O_GT := 22.        Definition O_LT := 23.        Definition O_GE := 24.
Definition O_LE := 25.        Definition O_EQ := 26.        Definition O_NE := 27.
Definition O_SAME := 28.      Definition O_NOT := 29.       Definition O_AND := 30.
Definition O_OR := 31.        Definition O_NEWOBJ := 32.    Definition O_FIELDGET := 33.
Definition O_FIELDSET := 34.  Definition O_FIELDGET_KEEP := 35. Definition O_SELFCALL := 36.
Definition O_NIL := 37.       Definition O_CORO := 38.      Definition O_YIELD := 39.
Definition O_RESUME := 40.    Definition O_FINISHED := 41.  Definition O_LEN := 42.

(** The running context is live and its operand stack holds [l], bottom
    first. *)
Definition stack_is (s : vm) (l : list value) : Prop :=
  exists c, znth (v_ctxs s) (v_cur s) = Some (Some c) /\ kwf (c_stack c) /\ contents (c_stack c) = l.

(** The instruction pointer of the running context. *)
Definition ip_is (s : vm) (ip : Z) : Prop :=
  exists c, znth (v_ctxs s) (v_cur s) = Some (Some c) /\ c_ip c = ip.

(** [restacked s l s']: [s'] is [s] except that the operand stack of the
    running context holds [l]. *)
Definition restacked (s : vm) (l : list value) (s' : vm) : Prop :=
  exists c k, znth (v_ctxs s) (v_cur s) = Some (Some c) /\ kwf k /\ contents k = l /\
    s' = set_ctxs (zupd (v_ctxs s) (v_cur s) (Some (set_c_stack k c))) s.

(** The same with the instruction pointer set to [ip]. *)
Definition moved (s : vm) (l : list value) (ip : Z) (s' : vm) : Prop :=
  exists c k, znth (v_ctxs s) (v_cur s) = Some (Some c) /\ kwf k /\ contents k = l /\
    s' = set_ctxs (zupd (v_ctxs s) (v_cur s) (Some (set_c_ip ip (set_c_stack k c)))) s.

(** The same as [restacked] with one more error reported. *)
Definition failed (s : vm) (l : list value) (s' : vm) : Prop :=
  exists e, restacked (set_errs (v_errs s ++ [e]) s) l s'.

(** The integer a value converts to: an integer to itself, a float to its
    integer part (if that is a 32-bit integer), a string to the number it
    starts with, an object to 1, nil to 0.  Functions do not convert. *)
Inductive as_int (s : vm) : value -> Z -> Prop :=
| ai_int v : v_type v = T_INT -> as_int s v (v_int v)
| ai_float v z : v_type v = T_FLOAT -> f_trunc (v_data v) = Some z -> as_int s v z
| ai_string v t : v_type v = T_STRING -> get_str s (v_data v) = Some t -> as_int s v (c_atol t)
| ai_object v : v_type v = T_OBJ -> as_int s v 1
| ai_nil v : v_type v = T_NIL -> as_int s v 0.

(** Truncating division: the remainder is smaller than the divisor and has
    the sign of the dividend. *)
Definition truncating (x y q r : Z) : Prop :=
  x = y * q + r /\ Z.abs r < Z.abs y /\ (0 <= x -> 0 <= r) /\ (x <= 0 -> r <= 0).

(** One instruction: the handler and the step to the next instruction word
    (the end of nkiVmIterate, /repo/src/nkvm.c:421-423). *)
Definition instruction (host : Z -> list value -> M value) (op : Z) : M unit :=
  opcode host op ;;; ip <- get_ip ;; set_ip (u32 (ip + 1)).

(** The word the running context is about to execute is the end marker. *)
Definition at_end (s : vm) : Prop := fetch s = Ok (OP_END, s).

(** [trace s l s']: iterating the VM leads from [s] to [s'], and [l] lists the
    states in which an iteration was started, in order. *)
Inductive trace (hostmark : Z -> Z -> option Z -> list value) (host : Z -> list value -> M value)
  : vm -> list vm -> vm -> Prop :=
| tr_nil s : trace hostmark host s [] s
| tr_cons s s1 l s' : iterate hostmark host s = Ok (tt, s1) -> trace hostmark host s1 l s' ->
    trace hostmark host s (s :: l) s'.

(** Virtual machines as a host sets them up and runs them: created, given an
    instruction limit and a collection interval of at least one instruction,
    loaded with any program, and run any number of instructions without an
    error. *)
Inductive clocked (hostmark : Z -> Z -> option Z -> list value) (host : Z -> list value -> M value) : vm -> Prop :=
| ck_init : clocked hostmark host vm_init
| ck_limit n s s' : clocked hostmark host s -> 0 <= n <= INVALID -> set_instruction_limit n s = Ok (tt, s') -> clocked hostmark host s'
| ck_interval n s s' : clocked hostmark host s -> 1 <= n <= INVALID -> set_gc_interval n s = Ok (tt, s') -> clocked hostmark host s'
| ck_code code m s : clocked hostmark host s -> clocked hostmark host (set_code code (set_cmask m s))
| ck_run s s' : clocked hostmark host s -> iterate hostmark host s = Ok (tt, s') -> has_errors s' = false -> clocked hostmark host s'.
