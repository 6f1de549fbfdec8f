(** * CallSpec: what the call and coroutine properties (C21-C23, C26, C27) talk about *)
From Verif Require Import Base State StrModel ValueModel StackModel ObjsModel VmModel StackProofs ObjsSpec VmSpec.
From Verif Require Export OpSpec.

(** The stack may hold the values [l] without reaching a limit: the VM's own
    (65536) and the configured one, which bounds the capacity, a power of two
    less than twice the size. *)
Definition fits (s : vm) (l : list value) : Prop :=
  zlen l <= 65536 /\ 2 * zlen l - 2 <= v_maxstack s.

(** The stack when a call instruction is about to run: the callee, the
    arguments, and how many there are. *)
Definition call_frame (fv : value) (args : list value) : list value := fv :: args ++ [vint (zlen args)].

(** The function a function value stands for. *)
Definition function_is (s : vm) (fv : value) (f : func) : Prop :=
  v_type fv = T_FUNC /\ znth (v_funcs s) (v_data fv) = Some f.

(** A declared argument count that accepts [n] arguments. *)
Definition accepts (declared n : Z) : Prop := declared = INVALID \/ declared = n.

(** An argument that does not match its declared type: another type, or an
    object of another external type, or a dead object. *)
Definition mismatch (s : vm) (decl : Z * Z) (a : value) : Prop :=
  fst decl <> T_NIL /\
  (v_type a <> fst decl \/
   (fst decl = T_OBJ /\ match get_obj s (v_data a) with
      | None => True
      | Some o => snd decl <> INVALID /\ snd decl <> o_ext o
      end)).

(** A call the VM has to reject, given the callee (not an object) and the
    arguments. *)
Inductive bad_call (s : vm) (fv : value) (args : list value) : Prop :=
| bc_type : v_type fv <> T_FUNC -> bad_call s fv args
| bc_unknown : v_type fv = T_FUNC -> znth (v_funcs s) (v_data fv) = None -> bad_call s fv args
| bc_count f : function_is s fv f -> ~ accepts (f_argc f) (zlen args) -> bad_call s fv args
| bc_unregistered f : function_is s fv f -> f_ext f <> INVALID -> znth (v_extfuncs s) (f_ext f) = None -> bad_call s fv args
| bc_null f xf : function_is s fv f -> f_ext f <> INVALID -> znth (v_extfuncs s) (f_ext f) = Some xf ->
    x_cb xf = None -> bad_call s fv args
| bc_native_count f xf : function_is s fv f -> f_ext f <> INVALID -> znth (v_extfuncs s) (f_ext f) = Some xf ->
    ~ accepts (x_argc xf) (zlen args) -> bad_call s fv args
| bc_native_type f xf i d a : function_is s fv f -> f_ext f <> INVALID -> znth (v_extfuncs s) (f_ext f) = Some xf ->
    x_argc xf <> INVALID -> znth (x_types xf) i = Some d -> znth args i = Some a -> mismatch s d a -> bad_call s fv args.

(** A native call whose arguments fit the declaration. *)
Definition good_native (s : vm) (fv : value) (args : list value) (cb : Z) : Prop :=
  exists f xf, function_is s fv f /\ accepts (f_argc f) (zlen args) /\ f_ext f <> INVALID /\
    znth (v_extfuncs s) (f_ext f) = Some xf /\ x_cb xf = Some cb /\ accepts (x_argc xf) (zlen args) /\
    (x_argc xf <> INVALID -> zlen (x_types xf) = x_argc xf /\
       forall i d a, znth (x_types xf) i = Some d -> znth args i = Some a -> ~ mismatch s d a).

(** The value of the field with the given name, as last written ([m] is the
    record of writes of ObjsSpec); nil if there is none. *)
Definition field (s : vm) (m : memory) (ob : Z) (name : bytes) (x : value) : Prop :=
  (exists i, get_str s i = Some name /\ m ob (vstr i) = x) \/
  ((forall i, get_str s i <> Some name) /\ x = vnil).

(** [callable s m v n f ds]: following the "_exec" fields from the value [v]
    leads through [n] objects to the value [f], which is not an object; [ds]
    are the "_data" values met, the last one first. *)
Inductive callable (s : vm) (m : memory) : value -> nat -> value -> list value -> Prop :=
| cl_end f : v_type f <> T_OBJ -> callable s m f 0 f []
| cl_plain v x n f ds : v_type v = T_OBJ -> get_obj s (v_data v) <> None ->
    field s m (v_data v) (bs "_exec") x -> field s m (v_data v) (bs "_data") vnil ->
    callable s m x n f ds -> callable s m v (S n) f ds
| cl_data v x d n f ds : v_type v = T_OBJ -> get_obj s (v_data v) <> None ->
    field s m (v_data v) (bs "_exec") x -> field s m (v_data v) (bs "_data") d -> v_type d <> T_NIL ->
    callable s m x n f ds -> callable s m v (S n) f (ds ++ [d]).

(** [deep s m v n k]: [v] starts a chain of at least [n] callable objects, with
    [k] "_data" fields among them. *)
Inductive deep (s : vm) (m : memory) : value -> nat -> nat -> Prop :=
| dp_end v : v_type v = T_OBJ -> get_obj s (v_data v) <> None -> deep s m v 1 0
| dp_plain v x n k : v_type v = T_OBJ -> get_obj s (v_data v) <> None ->
    field s m (v_data v) (bs "_exec") x -> field s m (v_data v) (bs "_data") vnil ->
    deep s m x n k -> deep s m v (S n) k
| dp_data v x d n k : v_type v = T_OBJ -> get_obj s (v_data v) <> None ->
    field s m (v_data v) (bs "_exec") x -> field s m (v_data v) (bs "_data") d -> v_type d <> T_NIL ->
    deep s m x n k -> deep s m v (S n) (S k).

(** [more_strings s s']: [s'] is [s] with, at most, more strings. *)
Definition more_strings (s s' : vm) : Prop :=
  (exists t bh, s' = set_byhash bh (set_strs t s)) /\
  forall i e, get_str_entry s i = Some e -> get_str_entry s' i = Some e.

(** Two string identifiers are still free. *)
Definition string_room (s : vm) : Prop :=
  exists i j, 0 <= i < W31 /\ 0 <= j < W31 /\ i <> j /\ get_str s i = None /\ get_str s j = None.

(** ** Coroutines *)

(** Context [i] as a user sees it. *)
Record view := mkView {
  w_stack : list value;    (* operand stack, bottom first *)
  w_ip : Z;                (* instruction it is at *)
  w_parent : option Z;     (* who resumed it *)
  w_state : Z              (* created, running, finished *)
}.
Definition ctx_is (s : vm) (i : Z) (w : view) : Prop :=
  exists c, znth (v_ctxs s) i = Some (Some c) /\ kwf (c_stack c) /\ contents (c_stack c) = w_stack w /\
    c_ip c = w_ip w /\ c_parent c = w_parent w /\ c_state c = w_state w.

(** The coroutine value [co] stands for context [i]. *)
Definition coroutine (s : vm) (co : value) (i : Z) : Prop :=
  v_type co = T_OBJ /\ exists o, get_obj s (v_data co) = Some o /\ o_ext o = v_corotype s /\ o_data o = Some i.

(** From [s] to [s'] nothing changed but which context runs and the contexts
    listed. *)
Definition switched (s : vm) (l : list Z) (s' : vm) : Prop :=
  s' = set_cur (v_cur s') (set_ctxs (v_ctxs s') s) /\
  zlen (v_ctxs s') = zlen (v_ctxs s) /\
  (forall j, ~ In j l -> znth (v_ctxs s') j = znth (v_ctxs s) j) /\
  (forall j c c', znth (v_ctxs s) j = Some (Some c) -> znth (v_ctxs s') j = Some (Some c') -> c_obj c' = c_obj c).

(** A context that is running or waiting for one it resumed. *)
Definition active (s : vm) (i : Z) : Prop := exists l, chain (v_ctxs s) (v_cur s) l /\ In i l.

(** [goes s l s']: iterating the VM leads from [s] to [s'] while no error is
    pending (and the collector's pass counter is not exhausted); [l] lists the
    states in which an iteration was started, in order. *)
Inductive goes (hostmark : Z -> Z -> option Z -> list value) (host : Z -> list value -> M value)
  : vm -> list vm -> vm -> Prop :=
| go_nil s : goes hostmark host s [] s
| go_cons s s1 l s' : has_errors s = false -> v_gcpass s < INVALID -> iterate hostmark host s = Ok (tt, s1) ->
    goes hostmark host s1 l s' -> goes hostmark host s (s :: l) s'.

(** Context [i] runs at no point of the execution. *)
Definition sleeps (i : Z) (l : list vm) (s' : vm) : Prop := Forall (fun t => v_cur t <> i) l /\ v_cur s' <> i.

(** The next iteration fetches the instruction [op], does the periodic work of
    nkiVmIterate (counters, perhaps a garbage collection), and is about to
    execute [op] in the state [t]. *)
Definition at_instruction (hostmark : Z -> Z -> option Z -> list value) (s : vm) (op : Z) (t : vm) : Prop :=
  exists w, fetch s = Ok (w, s) /\ op = Z.land w 63 /\ tick hostmark s = Ok (true, t).
