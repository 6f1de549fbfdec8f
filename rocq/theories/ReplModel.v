(** * ReplModel: starting over after an error (C72)

    What an interactive host calls after a script failed to compile or to run:
    nkxCompilerClearReplErrorState. *)

From Verif Require Import Base BaseFacts State StackModel ExprModel CompModel VmModel.
From Coq Require Import ZArith List.
Import ListNotations.
Open Scope Z_scope.

(** nkiVmDeinitExecutionContext followed by nkiVmInitExecutionContext: the
    operand stack is freed and a new one made.  The model does not say which
    block of memory a stack occupies (AllocModel does).
    /repo/src/nkvm.c:163-183. *)
Definition reset_ctx (i : Z) : M unit := put_ctx i ctx_init.

(** The loop of nkiCompilerClearReplErrorState: from the current context through
    the parents to the root.  [fuel] bounds the number of turns; the loop in C
    has no bound and ends because the chain of parents does (nkiVmInit... clears
    the parent link, so the link is read first).
    /repo/src/nkcompil.c:1676-1693. *)
Fixpoint unwind (fuel : nat) : M unit :=
  match fuel with
  | O => mub UbFuel
  | S f =>
    i <- gets v_cur ;;
    c <- get_ctx i ;;
    reset_ctx i ;;;
    match c_parent c with
    | None => ret tt
    | Some p => modify (set_cur p) ;;; unwind f
    end
  end.

(** nkiCompilerClearReplErrorState: the next instruction goes to [w], where
    there is an end of program; no errors; every context from the current one up
    to the root is reset and the root is current, at [w].
    /repo/src/nkcompil.c:1660-1698. *)
Definition clear_repl (w : Z) : K unit :=
  kmod (set_k_w w) ;~
  s <~ kgets k_vm ;;
  c <~ klift (wr (v_code s) w OP_END) ;;
  kvm (modify (fun s => set_errs [] (set_code c s))) ;~
  kvm (unwind (length (v_ctxs s))) ;~
  kvm (set_ip w).
