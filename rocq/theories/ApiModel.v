(** * ApiModel: the limit setters of the public API (/repo/src/nkx.c) *)
From Verif Require Export VmModel.

(** nkxSetRemainingInstructionLimit, nkxGetRemainingInstructionLimit.
    /repo/src/nkx.c:676-684. *)
Definition set_instruction_limit (n : Z) : M unit := modify (set_left n).
Definition get_instruction_limit : M Z := gets v_left.

(** nkxSetMaxStackSize, nkxSetMaxFieldsPerObject.  /repo/src/nkx.c:686-704. *)
Definition set_max_stack_size (n : Z) : M unit := modify (set_maxstack n).
Definition set_max_fields_per_object (n : Z) : M unit := modify (set_maxfields n).

(** nkxSetGarbageCollectionInterval.  /repo/src/nkx.c:716-722. *)
Definition set_gc_interval (n : Z) : M unit :=
  modify (fun s => set_gcint n (if n <? v_gccount s then set_gccount n s else s)).

(** nkxSetGarbageCollectionNewObjectInterval.  /repo/src/nkx.c:729-735. *)
Definition set_gc_new_object_interval (n : Z) : M unit :=
  modify (fun s => set_newint n (if n <? v_newcount s then set_newcount n s else s)).
