(** * SaveModel: saving and loading a virtual machine (/repo/src/nksave.c)

    nkiVmSerialize goes through the same sequence of steps whether it writes or
    reads; here each step appears twice, [save_x] giving the bytes written and
    [load_x] consuming bytes.  The host's writer callback is modelled as a
    faithful byte stream: what is written is read back in order, and a read of
    more than is left fails (NKVMSerializationWriter returns false) and leaves
    nothing.  Integers are little-endian.  Allocations succeed except where the
    requested count does not fit (nkiMallocArray), which leads to the
    catastrophic exit [LCat]. *)
From Verif Require Export RegModel VmModel.

(** ** Streams *)

(** What a reading step leads to: it returned true, it returned false, or
    nkiMallocArray gave up and the VM's owner gets control back. *)
Inductive lout (A : Type) : Type :=
| LDone (a : A) (rest : bytes) (s : vm)
| LFail (rest : bytes) (s : vm)
| LCat.
Arguments LDone {A} a rest s.
Arguments LFail {A} rest s.
Arguments LCat {A}.

Definition L (A : Type) : Type := bytes -> vm -> res (lout A).

Definition lret {A} (a : A) : L A := fun b s => Ok (LDone a b s).
(** NKI_WRAPSERIALIZE.  /repo/src/nksave.c:48-53. *)
Definition lbind {A B} (m : L A) (f : A -> L B) : L B := fun b s =>
  match m b s with
  | Ok (LDone a b' s') => f a b' s'
  | Ok (LFail b' s') => Ok (LFail b' s')
  | Ok LCat => Ok LCat
  | Ub u => Ub u
  end.
Definition lfail {A} : L A := fun b s => Ok (LFail b s).
Definition lcat {A} : L A := fun _ _ => Ok LCat.
Definition lvm {A} (m : M A) : L A := fun b s =>
  match m s with Ok (a, s') => Ok (LDone a b s') | Ub u => Ub u end.
Notation "x <! a ;; b" := (lbind a (fun x => b)) (at level 61, a at next level, right associativity).
Notation "a ;+ b" := (lbind a (fun _ => b)) (at level 61, right associativity).
Definition lget {A} (f : vm -> A) : L A := lvm (gets f).
Definition lmod (f : vm -> vm) : L unit := lvm (modify f).
Definition llift {A} (r : res A) : L A := lvm (lift r).
(** nkiAddError and return nkfalse. *)
Definition lerror {A} (t : bytes) : L A := lvm (add_error t) ;+ lfail.

(** Reading [n] bytes: NKI_SERIALIZE_DATA.  /repo/src/nksave.c:55-56. *)
Definition take (n : Z) : L bytes := fun b s =>
  if n <=? zlen b then Ok (LDone (firstn (Z.to_nat n) b) (skipn (Z.to_nat n) b) s)
  else Ok (LFail [] s).

(** 32-bit words, least significant byte first. *)
Definition word (w : Z) : bytes := [w mod 256; w / 256 mod 256; w / 65536 mod 256; w / 16777216 mod 256].
Definition unword (b : bytes) : Z :=
  match b with
  | [b0; b1; b2; b3] => b0 + 256 * b1 + 65536 * b2 + 16777216 * b3
  | _ => 0
  end.
(** NKI_SERIALIZE_BASIC of a 32-bit and of an 8-bit type.
    /repo/src/nksave.c:58-62. *)
Definition r32 : L Z := b <! take 4 ;; lret (unword b).
Definition r8 : L Z := b <! take 1 ;; lret (match b with [c] => c | _ => 0 end).
(** struct NKValue: the type and the payload. *)
Definition save_value (v : value) : bytes := word (v_type v) ++ word (v_data v).
Definition rvalue : L value := t <! r32 ;; d <! r32 ;; lret (mkV t d).

(** [n] times the same step. *)
Fixpoint times {A} (n : nat) (m : L A) : L (list A) :=
  match n with
  | O => lret []
  | S k => a <! m ;; r <! times k m ;; lret (a :: r)
  end.
(** A step for each number from [i] on. *)
Fixpoint each (n : nat) (i : Z) (m : Z -> L unit) : L unit :=
  match n with O => lret tt | S k => m i ;+ each k (i + 1) m end.

(** nkiMallocArray, nkiReallocArray: whether the count is acceptable.
    /repo/src/nkmem.c:291-314. *)
Definition alloc_array (size count : Z) : L unit :=
  if INVALID / size <=? count then lcat else lret tt.

(** nkiIsPow2.  /repo/src/nksave.c:279-285. *)
Definition is_pow2 (x : Z) : bool := (x =? 0) || (Z.land x (x - 1) =? 0).

(** ** Strings *)

(** What a C string is of a buffer: the bytes before the first zero. *)
Fixpoint cstr (b : bytes) : bytes :=
  match b with [] => [] | c :: r => if c =? 0 then [] else c :: cstr r end.

(** nkiSerializeString_save.  /repo/src/nksave.c:65-86. *)
Definition save_string (t : bytes) : bytes := word (zlen t) ++ t.
(** nkiSerializeString_load.  /repo/src/nksave.c:116-142. *)
Definition load_string : L bytes :=
  n <! r32 ;;
  if INVALID <=? n then lerror (bs "String too long to deserialize.")
  else b <! take n ;; lret (cstr b).
(** nkiSerializeString_loadInPlace.  /repo/src/nksave.c:88-114. *)
Definition load_string_in (max : Z) : L bytes :=
  n <! r32 ;;
  if max <=? n then lerror (bs "String too long to deserialize.")
  else b <! take n ;; lret (cstr b).

(** ** Instructions, errors, static space *)

(** The search for the last instruction.  /repo/src/nksave.c:599-604. *)
Fixpoint last_used (l : list Z) (n : nat) : nat :=
  match n with
  | O => O
  | S k => match nth_error l n with Some 0 => last_used l k | _ => n end
  end.

(** nkiSerializeInstructions.  /repo/src/nksave.c:596-657. *)
Definition save_instructions (s : vm) : bytes :=
  let k := last_used (v_code s) (Z.to_nat (v_cmask s)) in
  word (Z.of_nat k) ++ word (v_cmask s) ++ concat (map word (firstn (S k) (v_code s))).
Definition load_instructions : L unit :=
  k <! r32 ;;
  m <! r32 ;;
  lmod (set_cmask m) ;+
  if m =? INVALID then lerror (bs "Instruction address mask is too large.")
  else if negb (is_pow2 (m + 1)) then lerror (bs "Instruction address mask is not a power of two minus one.")
  else if m <? k then lerror (bs "Too many instructions for given instruction address mask.")
  else
    alloc_array 4 (m + 1) ;+
    lmod (set_code (repeat 0 (Z.to_nat (m + 1)))) ;+
    ws <! times (S (Z.to_nat k)) r32 ;;
    lmod (set_code (ws ++ repeat 0 (Z.to_nat (m - k)))).

(** nkiSerializeErrorState: reading replaces the list unless there is nothing
    to read.  /repo/src/nksave.c:153-190. *)
Definition save_errors (s : vm) : bytes :=
  word (zlen (v_errs s)) ++ concat (map save_string (v_errs s)).
Definition load_errors : L unit :=
  n <! r32 ;;
  l <! times (Z.to_nat n) load_string ;;
  match l with [] => lret tt | _ :: _ => lmod (set_errs l) end.

(** nkiSerializeStatics.  /repo/src/nksave.c:659-693. *)
Definition save_statics (s : vm) : bytes :=
  word (v_smask s) ++ concat (map save_value (v_static s)).
Definition load_statics : L unit :=
  m <! r32 ;;
  if negb (is_pow2 (u32 (m + 1))) then lerror (bs "Static space address mask is not a power of two minus one.")
  else if INVALID <=? m then lerror (bs "Static space address mask is too large.")
  else
    lmod (set_smask m) ;+
    alloc_array 8 (m + 1) ;+
    l <! times (Z.to_nat (m + 1)) rvalue ;;
    lmod (set_static l).

(** ** Execution contexts *)

Definition mod_ctx (i : Z) (f : ctx -> ctx) : M unit := fun s =>
  match znth (v_ctxs s) i with
  | Some (Some c) => Ok (tt, set_ctxs (zupd (v_ctxs s) i (Some (f c))) s)
  | _ => Ub UbNull
  end.

(** nkiSerializeStack.  /repo/src/nksave.c:695-763. *)
Definition save_stack (k : stack) : bytes :=
  word (k_size k) ++ word (k_cap k) ++ concat (map save_value (firstn (Z.to_nat (k_size k)) (k_vals k))).
Definition load_stack (i : Z) : L unit :=
  n <! r32 ;;
  c <! r32 ;;
  if negb (is_pow2 c) then lerror (bs "Stack capacity is not a power of two.")
  else
    m <! lget v_maxstack ;;
    if m <? c then lerror (bs "Stack capacity is too large for limit.")
    else if c <? 1 then lerror (bs "Stack capacity is zero.")
    else
      alloc_array 8 c ;+
      lvm (mod_ctx i (set_c_stack (mkK (repeat vzero (Z.to_nat c)) n c (c - 1)))) ;+
      if c <? n then lfail
      else
        l <! times (Z.to_nat n) rvalue ;;
        lvm (mod_ctx i (set_c_stack (mkK (l ++ repeat vzero (Z.to_nat (c - n))) n c (c - 1)))).

(** nkiSerializeExecutionContext.  /repo/src/nksave.c:1410-1443. *)
Definition save_context (co : bool) (c : ctx) : bytes :=
  word (c_ip c) ++ save_stack (c_stack c) ++ (if co then word (c_state c) else []).
Definition load_context (i : Z) (co : bool) : L unit :=
  p <! r32 ;;
  lvm (mod_ctx i (set_c_ip p)) ;+
  load_stack i ;+
  if co then t <! r32 ;; lvm (mod_ctx i (set_c_state t)) else lret tt.

(** ** The string table *)

(** sizeof(struct NKVMString) on a 64-bit machine.  /repo/src/nkstring.h:50-63. *)
Definition STR_STRUCT : Z := 32.

Definition set_str_slot (i : Z) (e : nkstr) : L unit :=
  s <! lget (fun s => s) ;;
  l <! llift (wr (t_slots (v_strs s)) i (Some e)) ;;
  lmod (set_strs (mkT l (t_holes (v_strs s)))).

Definition save_string_entry (i : Z) (x : option nkstr) : bytes :=
  match x with
  | None => []
  | Some e => word i ++ save_string (s_str e) ++ word (s_gc e) ++ [if s_keep e then 1 else 0]
  end.
(** One entry.  /repo/src/nksave.c:509-571. *)
Definition load_string_entry : L unit :=
  i <! r32 ;;
  s <! lget (fun s => s) ;;
  if t_cap (v_strs s) <=? i then lerror (bs "String index exceeds string table capacity.")
  else
    t <! load_string ;;
    if INVALID - (STR_STRUCT + 1) <=? zlen t then
      lerror (bs "A string is longer than the addressable space to load it into.")
    else
      old <! llift (rd (t_slots (v_strs s)) i) ;;
      match old with
      | Some _ => lerror (bs "Two strings occupy the same slot in the string table.")
      | None =>
        set_str_slot i (mkS 0 0 false 0 t) ;+
        g <! r32 ;;
        k <! r8 ;;
        set_str_slot i (mkS i g (negb (k =? 0)) (str_hash t) t) ;+
        s1 <! lget (fun s => s) ;;
        let b := Z.land (str_hash t) (STR_BUCKETS - 1) in
        c <! llift (rd (v_byhash s1) b) ;;
        h <! llift (wr (v_byhash s1) b (i :: c)) ;;
        lmod (set_byhash h)
      end.

(** The number of entries of a table. *)
Definition occupied {A} (l : list (option A)) : Z :=
  zlen (filter (fun x => match x with Some _ => true | None => false end) l).
(** Something for every slot of a table, with its index. *)
Fixpoint over {A B} (i : Z) (l : list A) (f : Z -> A -> list B) : list B :=
  match l with [] => [] | a :: r => f i a ++ over (i + 1) r f end.

(** nkiSerializeStringTable.  Holes are linked front to back, each before the
    ones already there.  /repo/src/nksave.c:421-594. *)
Definition save_strings (s : vm) : bytes :=
  word (t_cap (v_strs s)) ++ word (occupied (t_slots (v_strs s))) ++ over 0 (t_slots (v_strs s)) save_string_entry.
Definition load_strings : L unit :=
  c <! r32 ;;
  lmod (fun s => set_byhash (repeat [] (Z.to_nat STR_BUCKETS)) (set_strs (mkT [] []) s)) ;+
  if INVALID / 8 <=? c then lerror (bs "String table too large.")
  else
    alloc_array 8 c ;+
    lmod (set_strs (mkT (repeat None (Z.to_nat c)) [])) ;+
    if negb (is_pow2 c) then lerror (bs "String table capacity is not a power of two.")
    else
      n <! r32 ;;
      times (Z.to_nat n) load_string_entry ;+
      lmod (fun s => set_strs (mkT (t_slots (v_strs s)) (rev (empty_from 0 (t_slots (v_strs s))))) s).

(** ** The collector's state, functions *)

(** nkiSerializeGcState.  Writing also clips the interval of the VM being
    saved, which is not modelled.  /repo/src/nksave.c:765-788. *)
Definition save_gc (s : vm) : bytes :=
  word (v_gcpass s) ++ word (v_gcint s) ++ word (v_gccount s) ++ word (v_newint s) ++ word (v_newcount s).
Definition load_gc : L unit :=
  p <! r32 ;; lmod (set_gcpass p) ;+
  i <! r32 ;; lmod (set_gcint (if 65536 <? i then 65536 else i)) ;+
  c <! r32 ;; lmod (set_gccount c) ;+
  n <! r32 ;; lmod (set_newint n) ;+
  m <! r32 ;; lmod (set_newcount m).

(** The search for the host function a name belongs to: every function looked
    at loses its script-side identifier, the one found gets the one read.
    /repo/src/nksave.c:825-842. *)
Fixpoint match_name (l : list extfunc) (name : bytes) (id pos : Z) : list extfunc * Z :=
  match l with
  | [] => ([], INVALID)
  | x :: r =>
    if bytes_eqb name (x_name x) then (mkXF (x_name x) (x_cb x) id (x_argc x) (x_types x) :: r, pos)
    else let '(r', p) := match_name r name id (pos + 1) in
         (mkXF (x_name x) (x_cb x) INVALID (x_argc x) (x_types x) :: r', p)
  end.
Definition load_extfunc : L Z :=
  id <! r32 ;;
  name <! load_string ;;
  l <! lget v_extfuncs ;;
  let '(l', p) := match_name l name id 0 in
  lmod (set_extfuncs l') ;+ lret p.
(** One entry of the function table.  /repo/src/nksave.c:877-906. *)
Definition put_function (i : Z) (f : func) : L unit :=
  t <! lget v_funcs ;;
  t' <! llift (wr t i f) ;;
  lmod (set_funcs t').
Definition load_function (map : list Z) (i : Z) : L unit :=
  a <! r32 ;; f <! r32 ;; e <! r32 ;;
  if e =? INVALID then put_function i (mkF a f e)
  else if e <? zlen map then
    e' <! llift (rd map e) ;;
    put_function i (mkF a f e') ;+
    if e' =? INVALID then lerror (bs "Cannot find new mapping for external function during deserialization.") else lret tt
  else put_function i (mkF a f e) ;+ lerror (bs "External function ID is outside external function count.").

(** nkiSerializeFunctionTable and nkiSerializeFunctionTable_inner.
    nkiMallocArray gives NULL for nothing.  /repo/src/nksave.c:790-949. *)
Definition save_functions (s : vm) : bytes :=
  word (zlen (v_extfuncs s)) ++ concat (map (fun x => word (x_func x) ++ save_string (x_name x)) (v_extfuncs s)) ++
  word (zlen (v_funcs s)) ++ concat (map (fun f => word (f_argc f) ++ word (f_first f) ++ word (f_ext f)) (v_funcs s)).
Definition load_functions : L unit :=
  n <! r32 ;;
  alloc_array 4 n ;+
  map <! times (Z.to_nat n) load_extfunc ;;
  m <! r32 ;;
  alloc_array 12 m ;+
  if m =? 0 then lfail
  else
    lmod (set_funcs (repeat (mkF 0 0 0) (Z.to_nat m))) ;+
    each (Z.to_nat m) 0 (load_function map).

(** ** Objects *)

(** nkiSerializeObject.  /repo/src/nksave.c:215-277. *)
Definition save_object (o : nkobj) : bytes :=
  word (o_size o) ++ word (o_handles o) ++ word (o_gc o) ++ word (o_ext o) ++
  concat (map (fun kv => save_value (fst kv) ++ save_value (snd kv)) (concat (o_buckets o))).
(** One element.  /repo/src/nksave.c:258-270. *)
Definition load_element (i : Z) : L unit :=
  k <! rvalue ;;
  p <! lvm (find_or_add_entry i k false) ;;
  match p with
  | None => lret tt
  | Some q => v <! rvalue ;; lvm (el_set i q v)
  end.
Definition mod_obj (i : Z) (f : nkobj -> nkobj) : M unit := o <- rd_obj i ;; wr_obj i (f o).
Definition load_object (i : Z) : L unit :=
  n <! r32 ;; lvm (mod_obj i (set_o_size n)) ;+
  h <! r32 ;; lvm (mod_obj i (set_o_handles h)) ;+
  (if h =? 0 then lret tt else lmod (fun s => set_hlist (i :: v_hlist s) s)) ;+
  g <! r32 ;; lvm (mod_obj i (set_o_gc g)) ;+
  t <! r32 ;; lvm (mod_obj i (set_o_ext t)) ;+
  lvm (mod_obj i (set_o_size 0)) ;+
  times (Z.to_nat n) (load_element i) ;+
  lret tt.

(** One object with its index.  /repo/src/nksave.c:353-397. *)
Definition save_object_entry (i : Z) (x : option nkobj) : bytes :=
  match x with None => [] | Some o => word (o_idx o) ++ save_object o end.
Definition load_object_entry : L unit :=
  i <! r32 ;;
  s <! lget (fun s => s) ;;
  if t_cap (v_objs s) <=? i then lerror (bs "Object index exceeds object table capacity.")
  else
    old <! llift (rd (t_slots (v_objs s)) i) ;;
    match old with
    | Some _ => lerror (bs "Tried to load two object into the same location.")
    | None =>
      l <! llift (wr (t_slots (v_objs s)) i (Some (new_obj i))) ;;
      lmod (set_objs (mkT l (t_holes (v_objs s)))) ;+
      load_object i
    end.

(** nkiSerializeObjectTable.  The assertion about object indices is part of
    [saveable] in SaveSpec.v.  /repo/src/nksave.c:287-419. *)
Definition save_objects (s : vm) : bytes :=
  word (t_cap (v_objs s)) ++ word (occupied (t_slots (v_objs s))) ++ over 0 (t_slots (v_objs s)) save_object_entry.
Definition load_objects : L unit :=
  c <! r32 ;;
  if negb (is_pow2 c) then lerror (bs "Object table capacity is not a power of two.")
  else
    alloc_array 8 c ;+
    lmod (set_objs (mkT (repeat None (Z.to_nat c)) [])) ;+
    n <! r32 ;;
    if c <? n then lerror (bs "Object count exceeds object table capacity.")
    else
      times (Z.to_nat n) load_object_entry ;+
      lmod (fun s => set_objs (mkT (t_slots (v_objs s)) (rev (empty_from 0 (t_slots (v_objs s))))) s).

(** ** Globals, types, subsystems *)

(** nkiSerializeGlobalsList.  After a failure half-way the list is left empty
    here, with NULL names in the code.  /repo/src/nksave.c:951-990. *)
Definition save_globals (s : vm) : bytes :=
  word (zlen (v_globals s)) ++ concat (map (fun g => save_string (snd g) ++ word (fst g)) (v_globals s)).
Definition load_globals : L unit :=
  lmod (set_globals []) ;+
  n <! r32 ;;
  alloc_array 16 n ;+
  l <! times (Z.to_nat n) (t <! load_string ;; p <! r32 ;; lret (p, t)) ;;
  lmod (set_globals l).

(** The first registered type of a name; the number of types if none.
    /repo/src/nksave.c:1089-1102. *)
Fixpoint find_type (l : list exttype) (name : bytes) (pos : Z) : Z :=
  match l with
  | [] => pos
  | t :: r => if bytes_eqb (et_name t) name then pos else find_type r name (pos + 1)
  end.
Definition longest (l : list exttype) : Z := fold_right (fun t n => Z.max (zlen (et_name t)) n) 0 l.

(** nkiSerializeExternalTypes.  /repo/src/nksave.c:974-1139. *)
Definition save_types (s : vm) : bytes :=
  word (zlen (v_exttypes s)) ++ concat (map (fun t => save_string (et_name t)) (v_exttypes s)).
Definition load_type (i : Z) : L unit :=
  l <! lget v_exttypes ;;
  name <! load_string_in (longest l + 1) ;;
  t <! llift (rd l i) ;;
  if negb (bytes_eqb name (et_name t)) then lerror (bs "Type name mismatch inside binary.")
  else if find_type l name 0 =? zlen l then
    lerror (bs "Could not find a matching type for deserialized external data type.")
  else if negb (find_type l name 0 =? i) then llift (Ub UbAssert)
  else lret tt.
Definition check_type (n i : Z) : L unit :=
  s <! lget (fun s => s) ;;
  match get_obj s i with
  | None => lret tt
  | Some o => if (o_ext o =? INVALID) || (o_ext o <? n) then lret tt else lfail
  end.
Definition load_types : L unit :=
  n <! r32 ;;
  l <! lget v_exttypes ;;
  if negb (n =? zlen l) then lerror (bs "External type count in binary does not match VM.")
  else
    (if (INVALID / 4 <=? n) || (INVALID - 4 * n <=? longest l + 1) then lfail else lret tt) ;+
    each (Z.to_nat n) 0 load_type ;+
    s <! lget (fun s => s) ;;
    each (Z.to_nat (t_cap (v_objs s))) 0 (check_type n).

Section Save.
(** The host's serialization callbacks.  For an object: the bytes it writes,
    given type, object and data; and what it reads: the new data and how many
    bytes of the stream it used.  For a subsystem: the bytes written, and how
    many it reads.  Callbacks that do more than that (call back into the VM) are
    not modelled. *)
Variable host_save : Z -> Z -> option Z -> bytes.
Variable host_load : Z -> Z -> bytes -> option Z * nat.
Variable sub_save : bytes -> bytes.
Variable sub_load : bytes -> bytes -> nat.

(** nkiSerializeExternalSubsystemData.  /repo/src/nksave.c:1141-1202. *)
Definition save_subsystems (s : vm) : bytes :=
  word (zlen (concat (v_subsys s))) ++
  concat (map (fun x => save_string (sub_name x) ++ (if sub_ser x then sub_save (sub_name x) else [])) (concat (v_subsys s))).
Definition load_subsystem : L unit :=
  name <! load_string ;;
  s <! lget (fun s => s) ;;
  l <! llift (rd (v_subsys s) (sub_bucket name)) ;;
  match find_sub l name with
  | None => lerror (bs "External subsystem for serialized external subsystem data cannot be found.")
  | Some x => if sub_ser x then (fun b s => Ok (LDone tt (skipn (sub_load name b) b) s)) else lret tt
  end.
Definition load_subsystems : L unit :=
  n <! r32 ;; times (Z.to_nat n) load_subsystem ;+ lret tt.

(** ** External objects *)

(** nkiCoroutineLibrary_coroutineSerializeData for writing and for reading.
    /repo/src/nkcorout.c:89-137. *)
Definition save_coroutine (s : vm) (d : option Z) : res bytes :=
  match d with
  | Some i => match znth (v_ctxs s) i with Some (Some c) => Ok (save_context true c) | _ => Ub UbNull end
  | None => Ub UbNull
  end.
Definition load_coroutine (i : Z) : L unit :=
  s <! lget (fun s => s) ;;
  o <! lvm (rd_obj i) ;;
  c <! (match o_data o with
        | Some c => lret c
        | None =>
          lmod (fun s => set_ctxs (v_ctxs s ++ [Some ctx_init]) s) ;+
          lvm (mod_obj i (fun o => set_o_ext (v_corotype s) (set_o_data (Some (zlen (v_ctxs s))) o))) ;+
          lret (zlen (v_ctxs s))
        end) ;;
  (fun b s =>
     match load_context c true b s with
     | Ok (LFail b' s') => (lvm (add_error (bs "Coroutine serialization failed."))) b' s'
     | r => r
     end) ;+
  lvm (mod_ctx c (set_c_obj (vobj i))).

(** nkiSerializeExternalObjects.  /repo/src/nksave.c:1204-1241. *)
Definition save_external (s : vm) (i : Z) : res bytes :=
  match get_obj s i with
  | None => Ok []
  | Some o =>
    if o_ext o =? INVALID then Ok []
    else match znth (v_exttypes s) (o_ext o) with
         | None => Ok []
         | Some et =>
           if negb (et_ser et) then Ok []
           else if o_ext o =? v_corotype s then save_coroutine s (o_data o)
           else Ok (host_save (o_ext o) i (o_data o))
         end
  end.
Definition load_external (i : Z) : L unit :=
  s <! lget (fun s => s) ;;
  match get_obj s i with
  | None => lret tt
  | Some o =>
    if o_ext o =? INVALID then lret tt
    else match znth (v_exttypes s) (o_ext o) with
         | None => lvm (add_error (bs "External type value out of range."))
         | Some et =>
           if negb (et_ser et) then lret tt
           else if o_ext o =? v_corotype s then load_coroutine i
           else
             d <! (fun b s => let '(d, n) := host_load (o_ext o) i b in Ok (LDone d (skipn n b) s)) ;;
             lvm (mod_obj i (set_o_data d))
         end
  end.
Fixpoint save_externals (s : vm) (l : list Z) : res bytes :=
  match l with
  | [] => Ok []
  | i :: r => do b <- save_external s i; do c <- save_externals s r; Ok (b ++ c)
  end.
Definition load_externals : L unit :=
  s <! lget (fun s => s) ;;
  each (Z.to_nat (t_cap (v_objs s))) 0 load_external.

(** ** Source positions *)

(** nkiSerializeSourceFileList.  /repo/src/nksave.c:1243-1274. *)
Definition save_files (s : vm) : bytes :=
  word (zlen (v_files s)) ++ concat (map save_string (v_files s)).
Definition load_files : L unit :=
  n <! r32 ;;
  lmod (set_files []) ;+
  alloc_array 8 n ;+
  l <! times (Z.to_nat n) load_string ;;
  lmod (set_files l).
(** nkiSerializePositionMarkerList.  /repo/src/nksave.c:1276-1316. *)
Definition save_marker (m : marker) : bytes :=
  word (mk_instr m) ++ word (mk_file m) ++ word (mk_line m) ++ word (mk_actual m).
Definition rmarker : L marker :=
  i <! r32 ;; f <! r32 ;; l <! r32 ;; a <! r32 ;; lret (mkMk i f l a).
Definition save_markers (s : vm) : bytes :=
  word (zlen (v_markers s)) ++ concat (map save_marker (v_markers s)).
Definition load_markers : L unit :=
  n <! r32 ;;
  lmod (set_markers []) ;+
  alloc_array 16 n ;+
  l <! times (Z.to_nat n) rmarker ;;
  lmod (set_markers l).

(** ** Active coroutines *)

(** nkiSerializeActiveCoroutines.  [fuel] bounds the walk along the parents.
    /repo/src/nksave.c:1318-1408. *)
Fixpoint save_chain (fuel : nat) (s : vm) (i : Z) : res bytes :=
  match fuel with
  | O => Ub UbFuel
  | S f =>
    match znth (v_ctxs s) i with
    | Some (Some c) =>
      match c_parent c with
      | None => Ok (save_value (c_obj c))
      | Some p => do b <- save_chain f s p; Ok (save_value (c_obj c) ++ b)
      end
    | _ => Ub UbNull
    end
  end.
(** The context a value names.  /repo/src/nksave.c:1353-1366. *)
Definition chain_context (v : value) (s : vm) : option Z :=
  if v_type v =? T_NIL then Some 0
  else match obj_of_value s v with
       | None => None
       | Some i =>
         match get_obj s i with
         | Some o => if o_ext o =? v_corotype s then match o_data o with Some c => Some c | None => Some (-1) end else None
         | None => None
         end
       end.
(** The loop; [cur] is the first context found, [last] the end of the chain.
    Each turn reads eight bytes, so there are enough turns. *)
Fixpoint load_chain (fuel : nat) (cur last : option Z) : L unit :=
  match fuel with
  | O => llift (Ub UbFuel)
  | S f =>
    v <! rvalue ;;
    s <! lget (fun s => s) ;;
    match chain_context v s with
    | None => lerror (bs "Invalid object in coroutine chain.")
    | Some x =>
      let cur' := match cur with None => x | Some y => y end in
      c <! lvm (get_ctx x) ;;
      (if c_state c =? CO_RUNNING then lret tt
       else
         lvm (add_error (bs "Dormant coroutine recorded in active coroutine chain.")) ;+
         lvm (mod_ctx x (set_c_state CO_RUNNING))) ;+
      (match last with
       | None => lret tt
       | Some e =>
         ec <! lvm (get_ctx e) ;;
         match c_parent ec with
         | Some _ => lerror (bs "Corrupt coroutine chain.")
         | None =>
           if e =? 0 then lerror (bs "Corrupt coroutine chain.")
           else lvm (mod_ctx e (set_c_parent (Some x)))
         end
       end) ;+
      if v_type v =? T_NIL then lmod (set_cur cur') else load_chain f (Some cur') (Some x)
    end
  end.
Definition load_active : L unit := fun b s => load_chain (S (length b)) None None b s.

(** ** The whole *)

(** The format marker and the version.  /repo/src/nksave.c:1455-1478. *)
Definition MAGIC : bytes := [0; 78; 75; 86; 77].
Definition VERSION : Z := 5.

(** nkiVmSerialize for writing.  /repo/src/nksave.c:1453-1550. *)
Definition save (s : vm) : res bytes :=
  match znth (v_ctxs s) 0 with
  | Some (Some root) =>
    do x <- save_externals s (zseq 0 (Z.to_nat (t_cap (v_objs s))));
    do a <- save_chain (S (length (v_ctxs s))) s (v_cur s);
    Ok (MAGIC ++ word VERSION ++ save_instructions s ++ save_errors s ++ save_statics s ++
        save_context false root ++ save_strings s ++ save_gc s ++ save_functions s ++
        save_objects s ++ save_globals s ++ save_types s ++ save_subsystems s ++
        x ++ save_files s ++ save_markers s ++ a)
  | _ => Ub UbNull
  end.

(** nkiVmSerialize for reading.  /repo/src/nksave.c:1453-1550. *)
Definition load : L unit :=
  h <! take 5 ;;
  if negb (bytes_eqb h MAGIC) then lerror (bs "Wrong binary format.")
  else
    v <! r32 ;;
    if negb (v =? VERSION) then lerror (bs "Wrong binary VM version.")
    else
      load_instructions ;+
      load_errors ;+
      load_statics ;+
      load_context 0 false ;+
      load_strings ;+
      load_gc ;+
      load_functions ;+
      load_objects ;+
      load_globals ;+
      load_types ;+
      load_subsystems ;+
      load_externals ;+
      load_files ;+
      load_markers ;+
      load_active.

End Save.
