(** * ReplSpec: what a host relies on after an error (C72)

    [active] (CallSpec): the contexts that run or wait for one they resumed. *)

From Verif Require Import Base BaseFacts State StackModel StackProofs ExprModel CompModel VmModel OpSpec CallSpec.
From Coq Require Import ZArith List.
Import ListNotations.
Open Scope Z_scope.

(** [starts_over w k k']: from [k] to [k'] the errors are gone, the main program
    runs, with nothing on its stack, and is at [w], where there is an end and
    where the next script goes. *)
Record starts_over (w : Z) (k k' : comp) : Prop := {
  so_errs : v_errs (k_vm k') = [];
  so_cur : v_cur (k_vm k') = 0;
  so_stack : stack_is (k_vm k') [];
  so_ip : ip_is (k_vm k') w;
  so_end : znth (v_code (k_vm k')) w = Some OP_END;
  so_next : k_w k' = w;
  (* the coroutines that were active are dead *)
  so_dead : forall i, active (k_vm k) i -> i <> 0 ->
    exists c, znth (v_ctxs (k_vm k')) i = Some (Some c) /\ contents (c_stack c) = [] /\ c_parent c = None /\ c_state c = CO_INVALID;
  (* the others are as they were *)
  so_others : forall i, ~ active (k_vm k) i -> znth (v_ctxs (k_vm k')) i = znth (v_ctxs (k_vm k)) i;
  so_code_len : zlen (v_code (k_vm k')) = zlen (v_code (k_vm k));
  so_code : forall i, i <> w -> znth (v_code (k_vm k')) i = znth (v_code (k_vm k)) i;
  (* and so is everything else: globals, objects, strings, functions, names, ... *)
  so_rest_vm : k_vm k' = set_ctxs (v_ctxs (k_vm k')) (set_code (v_code (k_vm k')) (set_errs [] (set_cur 0 (k_vm k))));
  so_rest : k' = set_k_w w (set_k_vm (k_vm k') k)
}.
