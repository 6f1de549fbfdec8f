(** * TeardownModel: deleting a VM *)
From Verif Require Import Base.
From Verif Require Export VmModel.

Section Teardown.
Variable hostmark : Z -> Z -> option Z -> list value.

(** nkiVmDestroy, standard cleanup, up to and including the point where all
    objects are gone (the remaining calls release memory only, see C01/C50 for
    the allocator): the root stack is cleared, the static space zeroed, a last
    collection made, and all remaining objects cleaned up.
    /repo/src/nkvm.c:306-325. *)
Definition destroy : M unit :=
  rc <- get_ctx 0 ;;
  put_ctx 0 (set_c_stack (stack_clear false (c_stack rc)) rc) ;;;
  modify (fun s => set_static
    (repeat vzero (Z.to_nat (v_smask s + 1)) ++ skipn (Z.to_nat (v_smask s + 1)) (v_static s)) s) ;;;
  garbage_collect hostmark ;;;
  clean_all_objects.
End Teardown.
