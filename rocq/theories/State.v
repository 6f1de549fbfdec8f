(** * State: the virtual machine state

    Records for the structures of /repo/src/nkvm.h and friends, and the
    state-and-outcome monad in which the rest of the VM model is written.
    Pointers are modelled by indices: a string or object pointer by its table
    index, an execution context pointer by its position in the append-only
    list [v_ctxs]. *)
From Verif Require Export Base TableModel FloatModel.

(** ** Values *)

(** struct NKValue: type tag and 32-bit payload, both raw because loading a
    binary can store any tag.  /repo/src/nkvalue.h:62-85. *)
Record value := mkV { v_type : Z; v_data : Z }.

(** enum NKValueType.  /repo/src/nkenums.h:50-58. *)
Definition T_INT : Z := 0.
Definition T_FLOAT : Z := 1.
Definition T_STRING : Z := 2.
Definition T_FUNC : Z := 3.
Definition T_OBJ : Z := 4.
Definition T_NIL : Z := 5.

Definition vint (z : Z) : value := mkV T_INT (u32 z).
Definition vfloat (b : Z) : value := mkV T_FLOAT b.
Definition vstr (i : Z) : value := mkV T_STRING i.
Definition vfunc (i : Z) : value := mkV T_FUNC i.
Definition vobj (i : Z) : value := mkV T_OBJ i.
Definition vnil : value := mkV T_NIL 0.

(** Reading the payload as [intData]. *)
Definition v_int (v : value) : Z := s32 (v_data v).

Definition value_eqb (a b : value) : bool := (v_type a =? v_type b) && (v_data a =? v_data b).

(** ** Strings, objects *)

(** struct NKVMString.  /repo/src/nkstring.h:50-63.  The hash-bucket link is
    represented by the chains [v_byhash]. *)
Record nkstr := mkS {
  s_idx : Z;      (* stringTableIndex *)
  s_gc : Z;       (* lastGCPass *)
  s_keep : bool;  (* dontGC *)
  s_hash : Z;
  s_str : bytes
}.

(** struct NKVMObject.  /repo/src/nkobjs.h:61-78.  Element chains are lists
    of (key, value) in link order; the intrusive handle list is [v_hlist]. *)
Record nkobj := mkO {
  o_idx : Z;
  o_gc : Z;
  o_size : Z;
  o_buckets : list (list (value * value));
  o_handles : Z;        (* externalHandleCount *)
  o_ext : Z;            (* externalDataType.id *)
  o_data : option Z     (* externalData; for coroutines the context index *)
}.

Definition set_o_idx x (o : nkobj) := mkO x (o_gc o) (o_size o) (o_buckets o) (o_handles o) (o_ext o) (o_data o).
Definition set_o_gc x (o : nkobj) := mkO (o_idx o) x (o_size o) (o_buckets o) (o_handles o) (o_ext o) (o_data o).
Definition set_o_size x (o : nkobj) := mkO (o_idx o) (o_gc o) x (o_buckets o) (o_handles o) (o_ext o) (o_data o).
Definition set_o_buckets x (o : nkobj) := mkO (o_idx o) (o_gc o) (o_size o) x (o_handles o) (o_ext o) (o_data o).
Definition set_o_handles x (o : nkobj) := mkO (o_idx o) (o_gc o) (o_size o) (o_buckets o) x (o_ext o) (o_data o).
Definition set_o_ext x (o : nkobj) := mkO (o_idx o) (o_gc o) (o_size o) (o_buckets o) (o_handles o) x (o_data o).
Definition set_o_data x (o : nkobj) := mkO (o_idx o) (o_gc o) (o_size o) (o_buckets o) (o_handles o) (o_ext o) x.

Definition set_s_idx x (r : nkstr) := mkS x (s_gc r) (s_keep r) (s_hash r) (s_str r).
Definition set_s_gc x (r : nkstr) := mkS (s_idx r) x (s_keep r) (s_hash r) (s_str r).
Definition set_s_keep x (r : nkstr) := mkS (s_idx r) (s_gc r) x (s_hash r) (s_str r).

(** ** Stacks and execution contexts *)

(** struct NKVMStack.  /repo/src/nkstack.h.  [k_vals] is the allocated
    buffer. *)
Record stack := mkK { k_vals : list value; k_size : Z; k_cap : Z; k_mask : Z }.

(** enum NKVMCoroutineState.  /repo/src/nkvm.h:130-151. *)
Definition CO_INVALID : Z := 0.
Definition CO_CREATED : Z := 1.
Definition CO_RUNNING : Z := 2.
Definition CO_FINISHED : Z := 3.

(** struct NKVMExecutionContext.  /repo/src/nkvm.h:153-172. *)
Record ctx := mkC {
  c_stack : stack;
  c_ip : Z;
  c_parent : option Z;
  c_obj : value;      (* coroutineObject *)
  c_state : Z
}.
Definition set_c_stack x (c : ctx) := mkC x (c_ip c) (c_parent c) (c_obj c) (c_state c).
Definition set_c_ip x (c : ctx) := mkC (c_stack c) x (c_parent c) (c_obj c) (c_state c).
Definition set_c_parent x (c : ctx) := mkC (c_stack c) (c_ip c) x (c_obj c) (c_state c).
Definition set_c_obj x (c : ctx) := mkC (c_stack c) (c_ip c) (c_parent c) x (c_state c).
Definition set_c_state x (c : ctx) := mkC (c_stack c) (c_ip c) (c_parent c) (c_obj c) x.

(** ** Functions, types, registries *)

(** struct NKVMFunction.  /repo/src/nkfunc.h:55-62. *)
Record func := mkF { f_argc : Z; f_first : Z; f_ext : Z }.

(** struct NKVMExternalFunction.  /repo/src/nkfunc.h:65-93.  The callback is
    an abstract number ([None] = NULL); argTypes and argExternalTypes are one
    list of pairs (argument type, external type). *)
Record extfunc := mkXF {
  x_name : bytes;
  x_cb : option Z;
  x_func : Z;      (* internalFunctionId *)
  x_argc : Z;
  x_types : list (Z * Z)
}.

(** struct NKVMExternalType.  /repo/src/nkvm.h:100-106.  Only whether a
    callback is present is recorded. *)
Record exttype := mkET { et_name : bytes; et_ser : bool; et_cleanup : bool; et_mark : bool }.

(** struct NKVMExternalSubsystemData.  /repo/src/nkvm.h:70-90. *)
Record subsys := mkSub { sub_name : bytes; sub_data : Z; sub_ser : bool; sub_cleanup : bool }.

(** struct NKVMFilePositionMarker.  /repo/src/nkvm.h:114-128. *)
Record marker := mkMk { mk_instr : Z; mk_file : Z; mk_line : Z; mk_actual : Z }.

(** ** The virtual machine *)

(** struct NKVM (/repo/src/nkvm.h:174-274) without the allocator fields
    (MemModel.v), userData, serializationState and the allocation-failure
    flag.  [v_cleanups] is a ghost trace that the code does not have. *)
Record vm := mkVm {
  v_errs : list bytes  (* errorState.firstError list, texts in order *);
  v_ctxs : list (option ctx)  (* all execution contexts ever made; index 0 is rootExecutionContext; None = freed *);
  v_cur : Z  (* currentExecutionContext (index into v_ctxs) *);
  v_static : list value  (* staticSpace *);
  v_smask : Z  (* staticAddressMask *);
  v_code : list Z  (* instructions (raw 32-bit words) *);
  v_cmask : Z  (* instructionAddressMask *);
  v_strs : table nkstr  (* stringTable *);
  v_byhash : list (list Z)  (* stringsByHash: chains of string identifiers in link order *);
  v_objs : table nkobj  (* objectTable *);
  v_hlist : list Z  (* objectsWithExternalHandles: object identifiers in link order *);
  v_funcs : list func  (* functionTable / functionCount *);
  v_gcpass : Z  (* gcInfo.lastGCPass *);
  v_gcint : Z  (* gcInfo.gcInterval *);
  v_gccount : Z  (* gcInfo.gcCountdown *);
  v_newint : Z  (* gcInfo.gcNewObjectInterval *);
  v_newcount : Z  (* gcInfo.gcNewObjectCountdown *);
  v_extfuncs : list extfunc  (* externalFunctionTable / externalFunctionCount *);
  v_globals : list (Z * bytes)  (* globalVariables: (staticPosition, name) *);
  v_maxstack : Z  (* limits.maxStackSize *);
  v_maxfields : Z  (* limits.maxFieldsPerObject *);
  v_exttypes : list exttype  (* externalTypes / externalTypeCount *);
  v_left : Z  (* instructionsLeftBeforeTimeout *);
  v_subsys : list (list subsys)  (* subsystemDataTable *);
  v_files : list bytes  (* sourceFileList / sourceFileCount *);
  v_markers : list marker  (* positionMarkerList / positionMarkerCount *);
  v_corotype : Z  (* internalObjectTypes.coroutine *);
  v_cleanups : list (Z * Z * option Z)  (* ghost: cleanup callbacks run so far (type, object, data) *)
}.

Definition set_errs (x : list bytes) (s : vm) : vm :=
  mkVm x (v_ctxs s) (v_cur s) (v_static s) (v_smask s) (v_code s) (v_cmask s) (v_strs s) (v_byhash s) (v_objs s) (v_hlist s) (v_funcs s) (v_gcpass s) (v_gcint s) (v_gccount s) (v_newint s) (v_newcount s) (v_extfuncs s) (v_globals s) (v_maxstack s) (v_maxfields s) (v_exttypes s) (v_left s) (v_subsys s) (v_files s) (v_markers s) (v_corotype s) (v_cleanups s).
Definition set_ctxs (x : list (option ctx)) (s : vm) : vm :=
  mkVm (v_errs s) x (v_cur s) (v_static s) (v_smask s) (v_code s) (v_cmask s) (v_strs s) (v_byhash s) (v_objs s) (v_hlist s) (v_funcs s) (v_gcpass s) (v_gcint s) (v_gccount s) (v_newint s) (v_newcount s) (v_extfuncs s) (v_globals s) (v_maxstack s) (v_maxfields s) (v_exttypes s) (v_left s) (v_subsys s) (v_files s) (v_markers s) (v_corotype s) (v_cleanups s).
Definition set_cur (x : Z) (s : vm) : vm :=
  mkVm (v_errs s) (v_ctxs s) x (v_static s) (v_smask s) (v_code s) (v_cmask s) (v_strs s) (v_byhash s) (v_objs s) (v_hlist s) (v_funcs s) (v_gcpass s) (v_gcint s) (v_gccount s) (v_newint s) (v_newcount s) (v_extfuncs s) (v_globals s) (v_maxstack s) (v_maxfields s) (v_exttypes s) (v_left s) (v_subsys s) (v_files s) (v_markers s) (v_corotype s) (v_cleanups s).
Definition set_static (x : list value) (s : vm) : vm :=
  mkVm (v_errs s) (v_ctxs s) (v_cur s) x (v_smask s) (v_code s) (v_cmask s) (v_strs s) (v_byhash s) (v_objs s) (v_hlist s) (v_funcs s) (v_gcpass s) (v_gcint s) (v_gccount s) (v_newint s) (v_newcount s) (v_extfuncs s) (v_globals s) (v_maxstack s) (v_maxfields s) (v_exttypes s) (v_left s) (v_subsys s) (v_files s) (v_markers s) (v_corotype s) (v_cleanups s).
Definition set_smask (x : Z) (s : vm) : vm :=
  mkVm (v_errs s) (v_ctxs s) (v_cur s) (v_static s) x (v_code s) (v_cmask s) (v_strs s) (v_byhash s) (v_objs s) (v_hlist s) (v_funcs s) (v_gcpass s) (v_gcint s) (v_gccount s) (v_newint s) (v_newcount s) (v_extfuncs s) (v_globals s) (v_maxstack s) (v_maxfields s) (v_exttypes s) (v_left s) (v_subsys s) (v_files s) (v_markers s) (v_corotype s) (v_cleanups s).
Definition set_code (x : list Z) (s : vm) : vm :=
  mkVm (v_errs s) (v_ctxs s) (v_cur s) (v_static s) (v_smask s) x (v_cmask s) (v_strs s) (v_byhash s) (v_objs s) (v_hlist s) (v_funcs s) (v_gcpass s) (v_gcint s) (v_gccount s) (v_newint s) (v_newcount s) (v_extfuncs s) (v_globals s) (v_maxstack s) (v_maxfields s) (v_exttypes s) (v_left s) (v_subsys s) (v_files s) (v_markers s) (v_corotype s) (v_cleanups s).
Definition set_cmask (x : Z) (s : vm) : vm :=
  mkVm (v_errs s) (v_ctxs s) (v_cur s) (v_static s) (v_smask s) (v_code s) x (v_strs s) (v_byhash s) (v_objs s) (v_hlist s) (v_funcs s) (v_gcpass s) (v_gcint s) (v_gccount s) (v_newint s) (v_newcount s) (v_extfuncs s) (v_globals s) (v_maxstack s) (v_maxfields s) (v_exttypes s) (v_left s) (v_subsys s) (v_files s) (v_markers s) (v_corotype s) (v_cleanups s).
Definition set_strs (x : table nkstr) (s : vm) : vm :=
  mkVm (v_errs s) (v_ctxs s) (v_cur s) (v_static s) (v_smask s) (v_code s) (v_cmask s) x (v_byhash s) (v_objs s) (v_hlist s) (v_funcs s) (v_gcpass s) (v_gcint s) (v_gccount s) (v_newint s) (v_newcount s) (v_extfuncs s) (v_globals s) (v_maxstack s) (v_maxfields s) (v_exttypes s) (v_left s) (v_subsys s) (v_files s) (v_markers s) (v_corotype s) (v_cleanups s).
Definition set_byhash (x : list (list Z)) (s : vm) : vm :=
  mkVm (v_errs s) (v_ctxs s) (v_cur s) (v_static s) (v_smask s) (v_code s) (v_cmask s) (v_strs s) x (v_objs s) (v_hlist s) (v_funcs s) (v_gcpass s) (v_gcint s) (v_gccount s) (v_newint s) (v_newcount s) (v_extfuncs s) (v_globals s) (v_maxstack s) (v_maxfields s) (v_exttypes s) (v_left s) (v_subsys s) (v_files s) (v_markers s) (v_corotype s) (v_cleanups s).
Definition set_objs (x : table nkobj) (s : vm) : vm :=
  mkVm (v_errs s) (v_ctxs s) (v_cur s) (v_static s) (v_smask s) (v_code s) (v_cmask s) (v_strs s) (v_byhash s) x (v_hlist s) (v_funcs s) (v_gcpass s) (v_gcint s) (v_gccount s) (v_newint s) (v_newcount s) (v_extfuncs s) (v_globals s) (v_maxstack s) (v_maxfields s) (v_exttypes s) (v_left s) (v_subsys s) (v_files s) (v_markers s) (v_corotype s) (v_cleanups s).
Definition set_hlist (x : list Z) (s : vm) : vm :=
  mkVm (v_errs s) (v_ctxs s) (v_cur s) (v_static s) (v_smask s) (v_code s) (v_cmask s) (v_strs s) (v_byhash s) (v_objs s) x (v_funcs s) (v_gcpass s) (v_gcint s) (v_gccount s) (v_newint s) (v_newcount s) (v_extfuncs s) (v_globals s) (v_maxstack s) (v_maxfields s) (v_exttypes s) (v_left s) (v_subsys s) (v_files s) (v_markers s) (v_corotype s) (v_cleanups s).
Definition set_funcs (x : list func) (s : vm) : vm :=
  mkVm (v_errs s) (v_ctxs s) (v_cur s) (v_static s) (v_smask s) (v_code s) (v_cmask s) (v_strs s) (v_byhash s) (v_objs s) (v_hlist s) x (v_gcpass s) (v_gcint s) (v_gccount s) (v_newint s) (v_newcount s) (v_extfuncs s) (v_globals s) (v_maxstack s) (v_maxfields s) (v_exttypes s) (v_left s) (v_subsys s) (v_files s) (v_markers s) (v_corotype s) (v_cleanups s).
Definition set_gcpass (x : Z) (s : vm) : vm :=
  mkVm (v_errs s) (v_ctxs s) (v_cur s) (v_static s) (v_smask s) (v_code s) (v_cmask s) (v_strs s) (v_byhash s) (v_objs s) (v_hlist s) (v_funcs s) x (v_gcint s) (v_gccount s) (v_newint s) (v_newcount s) (v_extfuncs s) (v_globals s) (v_maxstack s) (v_maxfields s) (v_exttypes s) (v_left s) (v_subsys s) (v_files s) (v_markers s) (v_corotype s) (v_cleanups s).
Definition set_gcint (x : Z) (s : vm) : vm :=
  mkVm (v_errs s) (v_ctxs s) (v_cur s) (v_static s) (v_smask s) (v_code s) (v_cmask s) (v_strs s) (v_byhash s) (v_objs s) (v_hlist s) (v_funcs s) (v_gcpass s) x (v_gccount s) (v_newint s) (v_newcount s) (v_extfuncs s) (v_globals s) (v_maxstack s) (v_maxfields s) (v_exttypes s) (v_left s) (v_subsys s) (v_files s) (v_markers s) (v_corotype s) (v_cleanups s).
Definition set_gccount (x : Z) (s : vm) : vm :=
  mkVm (v_errs s) (v_ctxs s) (v_cur s) (v_static s) (v_smask s) (v_code s) (v_cmask s) (v_strs s) (v_byhash s) (v_objs s) (v_hlist s) (v_funcs s) (v_gcpass s) (v_gcint s) x (v_newint s) (v_newcount s) (v_extfuncs s) (v_globals s) (v_maxstack s) (v_maxfields s) (v_exttypes s) (v_left s) (v_subsys s) (v_files s) (v_markers s) (v_corotype s) (v_cleanups s).
Definition set_newint (x : Z) (s : vm) : vm :=
  mkVm (v_errs s) (v_ctxs s) (v_cur s) (v_static s) (v_smask s) (v_code s) (v_cmask s) (v_strs s) (v_byhash s) (v_objs s) (v_hlist s) (v_funcs s) (v_gcpass s) (v_gcint s) (v_gccount s) x (v_newcount s) (v_extfuncs s) (v_globals s) (v_maxstack s) (v_maxfields s) (v_exttypes s) (v_left s) (v_subsys s) (v_files s) (v_markers s) (v_corotype s) (v_cleanups s).
Definition set_newcount (x : Z) (s : vm) : vm :=
  mkVm (v_errs s) (v_ctxs s) (v_cur s) (v_static s) (v_smask s) (v_code s) (v_cmask s) (v_strs s) (v_byhash s) (v_objs s) (v_hlist s) (v_funcs s) (v_gcpass s) (v_gcint s) (v_gccount s) (v_newint s) x (v_extfuncs s) (v_globals s) (v_maxstack s) (v_maxfields s) (v_exttypes s) (v_left s) (v_subsys s) (v_files s) (v_markers s) (v_corotype s) (v_cleanups s).
Definition set_extfuncs (x : list extfunc) (s : vm) : vm :=
  mkVm (v_errs s) (v_ctxs s) (v_cur s) (v_static s) (v_smask s) (v_code s) (v_cmask s) (v_strs s) (v_byhash s) (v_objs s) (v_hlist s) (v_funcs s) (v_gcpass s) (v_gcint s) (v_gccount s) (v_newint s) (v_newcount s) x (v_globals s) (v_maxstack s) (v_maxfields s) (v_exttypes s) (v_left s) (v_subsys s) (v_files s) (v_markers s) (v_corotype s) (v_cleanups s).
Definition set_globals (x : list (Z * bytes)) (s : vm) : vm :=
  mkVm (v_errs s) (v_ctxs s) (v_cur s) (v_static s) (v_smask s) (v_code s) (v_cmask s) (v_strs s) (v_byhash s) (v_objs s) (v_hlist s) (v_funcs s) (v_gcpass s) (v_gcint s) (v_gccount s) (v_newint s) (v_newcount s) (v_extfuncs s) x (v_maxstack s) (v_maxfields s) (v_exttypes s) (v_left s) (v_subsys s) (v_files s) (v_markers s) (v_corotype s) (v_cleanups s).
Definition set_maxstack (x : Z) (s : vm) : vm :=
  mkVm (v_errs s) (v_ctxs s) (v_cur s) (v_static s) (v_smask s) (v_code s) (v_cmask s) (v_strs s) (v_byhash s) (v_objs s) (v_hlist s) (v_funcs s) (v_gcpass s) (v_gcint s) (v_gccount s) (v_newint s) (v_newcount s) (v_extfuncs s) (v_globals s) x (v_maxfields s) (v_exttypes s) (v_left s) (v_subsys s) (v_files s) (v_markers s) (v_corotype s) (v_cleanups s).
Definition set_maxfields (x : Z) (s : vm) : vm :=
  mkVm (v_errs s) (v_ctxs s) (v_cur s) (v_static s) (v_smask s) (v_code s) (v_cmask s) (v_strs s) (v_byhash s) (v_objs s) (v_hlist s) (v_funcs s) (v_gcpass s) (v_gcint s) (v_gccount s) (v_newint s) (v_newcount s) (v_extfuncs s) (v_globals s) (v_maxstack s) x (v_exttypes s) (v_left s) (v_subsys s) (v_files s) (v_markers s) (v_corotype s) (v_cleanups s).
Definition set_exttypes (x : list exttype) (s : vm) : vm :=
  mkVm (v_errs s) (v_ctxs s) (v_cur s) (v_static s) (v_smask s) (v_code s) (v_cmask s) (v_strs s) (v_byhash s) (v_objs s) (v_hlist s) (v_funcs s) (v_gcpass s) (v_gcint s) (v_gccount s) (v_newint s) (v_newcount s) (v_extfuncs s) (v_globals s) (v_maxstack s) (v_maxfields s) x (v_left s) (v_subsys s) (v_files s) (v_markers s) (v_corotype s) (v_cleanups s).
Definition set_left (x : Z) (s : vm) : vm :=
  mkVm (v_errs s) (v_ctxs s) (v_cur s) (v_static s) (v_smask s) (v_code s) (v_cmask s) (v_strs s) (v_byhash s) (v_objs s) (v_hlist s) (v_funcs s) (v_gcpass s) (v_gcint s) (v_gccount s) (v_newint s) (v_newcount s) (v_extfuncs s) (v_globals s) (v_maxstack s) (v_maxfields s) (v_exttypes s) x (v_subsys s) (v_files s) (v_markers s) (v_corotype s) (v_cleanups s).
Definition set_subsys (x : list (list subsys)) (s : vm) : vm :=
  mkVm (v_errs s) (v_ctxs s) (v_cur s) (v_static s) (v_smask s) (v_code s) (v_cmask s) (v_strs s) (v_byhash s) (v_objs s) (v_hlist s) (v_funcs s) (v_gcpass s) (v_gcint s) (v_gccount s) (v_newint s) (v_newcount s) (v_extfuncs s) (v_globals s) (v_maxstack s) (v_maxfields s) (v_exttypes s) (v_left s) x (v_files s) (v_markers s) (v_corotype s) (v_cleanups s).
Definition set_files (x : list bytes) (s : vm) : vm :=
  mkVm (v_errs s) (v_ctxs s) (v_cur s) (v_static s) (v_smask s) (v_code s) (v_cmask s) (v_strs s) (v_byhash s) (v_objs s) (v_hlist s) (v_funcs s) (v_gcpass s) (v_gcint s) (v_gccount s) (v_newint s) (v_newcount s) (v_extfuncs s) (v_globals s) (v_maxstack s) (v_maxfields s) (v_exttypes s) (v_left s) (v_subsys s) x (v_markers s) (v_corotype s) (v_cleanups s).
Definition set_markers (x : list marker) (s : vm) : vm :=
  mkVm (v_errs s) (v_ctxs s) (v_cur s) (v_static s) (v_smask s) (v_code s) (v_cmask s) (v_strs s) (v_byhash s) (v_objs s) (v_hlist s) (v_funcs s) (v_gcpass s) (v_gcint s) (v_gccount s) (v_newint s) (v_newcount s) (v_extfuncs s) (v_globals s) (v_maxstack s) (v_maxfields s) (v_exttypes s) (v_left s) (v_subsys s) (v_files s) x (v_corotype s) (v_cleanups s).
Definition set_corotype (x : Z) (s : vm) : vm :=
  mkVm (v_errs s) (v_ctxs s) (v_cur s) (v_static s) (v_smask s) (v_code s) (v_cmask s) (v_strs s) (v_byhash s) (v_objs s) (v_hlist s) (v_funcs s) (v_gcpass s) (v_gcint s) (v_gccount s) (v_newint s) (v_newcount s) (v_extfuncs s) (v_globals s) (v_maxstack s) (v_maxfields s) (v_exttypes s) (v_left s) (v_subsys s) (v_files s) (v_markers s) x (v_cleanups s).
Definition set_cleanups (x : list (Z * Z * option Z)) (s : vm) : vm :=
  mkVm (v_errs s) (v_ctxs s) (v_cur s) (v_static s) (v_smask s) (v_code s) (v_cmask s) (v_strs s) (v_byhash s) (v_objs s) (v_hlist s) (v_funcs s) (v_gcpass s) (v_gcint s) (v_gccount s) (v_newint s) (v_newcount s) (v_extfuncs s) (v_globals s) (v_maxstack s) (v_maxfields s) (v_exttypes s) (v_left s) (v_subsys s) (v_files s) (v_markers s) (v_corotype s) x.

(** ** The monad: outcomes with state *)

Definition M (A : Type) : Type := vm -> res (A * vm).
Definition ret {A} (a : A) : M A := fun s => Ok (a, s).
Definition mbind {A B} (m : M A) (k : A -> M B) : M B :=
  fun s => match m s with Ok (a, s') => k a s' | Ub u => Ub u end.
Definition mub {A} (u : ub) : M A := fun _ => Ub u.
Definition gets {A} (f : vm -> A) : M A := fun s => Ok (f s, s).
Definition modify (f : vm -> vm) : M unit := fun s => Ok (tt, f s).
Definition lift {A} (r : res A) : M A := fun s => match r with Ok a => Ok (a, s) | Ub u => Ub u end.
Definition of_opt {A} (u : ub) (o : option A) : M A :=
  match o with Some a => ret a | None => mub u end.
Notation "x <- a ;; b" := (mbind a (fun x => b))
  (at level 61, a at next level, right associativity).
Notation "' p <- a ;; b" := (mbind a (fun p => b))
  (at level 61, p pattern, a at next level, right associativity).
Notation "a ;;; b" := (mbind a (fun _ => b)) (at level 61, right associativity).

(** ** Execution contexts *)

(** Dereferencing a context pointer. *)
Definition get_ctx (i : Z) : M ctx := fun s =>
  match znth (v_ctxs s) i with
  | Some (Some c) => Ok (c, s)
  | _ => Ub UbNull
  end.
Definition put_ctx (i : Z) (c : ctx) : M unit := fun s =>
  match znth (v_ctxs s) i with
  | Some (Some _) => Ok (tt, set_ctxs (zupd (v_ctxs s) i (Some c)) s)
  | _ => Ub UbNull
  end.
Definition cur_ctx : M ctx := i <- gets v_cur ;; get_ctx i.
Definition mod_cur (f : ctx -> ctx) : M unit :=
  i <- gets v_cur ;; c <- get_ctx i ;; put_ctx i (f c).
Definition get_ip : M Z := c <- cur_ctx ;; ret (c_ip c).
Definition set_ip (z : Z) : M unit := mod_cur (set_c_ip z).

(** ** Errors *)

(** The loop of nkiVmFindSourceMarker: the marker before the first one (after
    the head) that starts beyond the instruction.
    /repo/src/nkvm.c:617-643. *)
Fixpoint find_marker (m : marker) (rest : list marker) (i : Z) : marker :=
  match rest with
  | [] => m
  | n :: r => if i <? mk_instr n then m else find_marker n r i
  end.
Definition find_source_marker (s : vm) (i : Z) : option marker :=
  match v_markers s with [] => None | m :: r => Some (find_marker m r i) end.

(** The text nkiAddErrorEx formats with sprintf "%s:%u: %s".
    /repo/src/nkerror.c:83-163 (the 32-bit length overflow branch is not
    modelled: it needs a message of nearly 2^32 bytes). *)
Definition format_error (file : bytes) (line : Z) (msg : bytes) : bytes :=
  file ++ bs ":" ++ u_to_str line ++ bs ": " ++ msg.

(** nkiAddErrorEx.  /repo/src/nkerror.c:83-163. *)
Definition add_error_ex (line file : Z) (msg : bytes) : M unit :=
  c <- cur_ctx ;;
  s <- gets (fun s => s) ;;
  let mk := if (line =? INVALID) || (file =? INVALID)
            then find_source_marker s (Z.land (c_ip c) (v_cmask s)) else None in
  let line' := if line =? INVALID then match mk with Some m => mk_line m | None => line end else line in
  let file' := if file =? INVALID then match mk with Some m => mk_file m | None => file end else file in
  let fname := match znth (v_files s) file' with Some f => f | None => bs "<unknown>" end in
  modify (fun s => set_errs
    (v_errs s ++ [format_error fname (if line' =? INVALID then 0 else line') msg]) s).

(** nkiAddError.  /repo/src/nkerror.c:76-81. *)
Definition add_error (msg : bytes) : M unit := add_error_ex INVALID INVALID msg.

(** nkiVmHasErrors (allocation failure excluded).  /repo/src/nkerror.c:71-74. *)
Definition has_errors (s : vm) : bool := match v_errs s with [] => false | _ => true end.
