(** * ObjsModel: objects (/repo/src/nkobjs.c) *)
From Verif Require Export ValueModel.

Definition OBJ_BUCKETS : Z := 16.

(** nkiVmObjectTableGetEntryById.  /repo/src/nkobjs.c:82-91. *)
Definition get_obj (s : vm) (i : Z) : option nkobj := tab_get (v_objs s) i.

(** Dereferencing / updating the object behind a known-good pointer. *)
Definition rd_obj (i : Z) : M nkobj := fun s =>
  match get_obj s i with Some o => Ok (o, s) | None => Ub UbNull end.
Definition wr_obj (i : Z) (o : nkobj) : M unit := fun s =>
  match get_obj s i with
  | Some _ => Ok (tt, set_objs (mkT (zupd (t_slots (v_objs s)) i (Some o)) (t_holes (v_objs s))) s)
  | None => Ub UbNull
  end.

(** nkiVmObjectInit.  /repo/src/nkobjs.c:93-101. *)
Definition new_obj (i : Z) : nkobj :=
  mkO i 0 0 (repeat [] (Z.to_nat OBJ_BUCKETS)) 0 INVALID None.

(** nkiVmObjectTableCreateObject.  /repo/src/nkobjs.c:103-130. *)
Definition create_object : M Z :=
  s <- gets (fun s => s) ;;
  match tab_add (v_objs s) (new_obj 0) with
  | None =>
    add_error (bs "Address space exhaustion when adding item to table.") ;;; ret INVALID
  | Some (i, t) =>
    modify (set_objs t) ;;;
    wr_obj i (new_obj i) ;;;
    modify (fun s => if v_newcount s =? 0 then s else set_newcount (v_newcount s - 1) s) ;;;
    ret i
  end.

(** nkiVmDeinitExecutionContext and nkiFree of a coroutine's context, as done
    by the coroutine type's cleanup callback.  /repo/src/nkcorout.c:77-87. *)
Definition free_ctx (i : Z) : M unit := fun s =>
  match znth (v_ctxs s) i with
  | Some (Some _) => Ok (tt, set_ctxs (zupd (v_ctxs s) i None) s)
  | _ => Ub UbNull
  end.

(** nkiVmObjectTableCleanupObject.  /repo/src/nkobjs.c:132-168.  A host
    cleanup callback is assumed to touch host data only; its invocation is
    recorded in [v_cleanups]. *)
Definition cleanup_object (i : Z) : M unit :=
  s <- gets (fun s => s) ;;
  match get_obj s i with
  | None => ret tt
  | Some o =>
    if o_ext o =? INVALID then ret tt
    else
      match znth (v_exttypes s) (o_ext o) with
      | None => add_error (bs "External type value out of range.")
      | Some et =>
        if et_cleanup et then
          modify (fun s => set_cleanups (v_cleanups s ++ [(o_ext o, i, o_data o)]) s) ;;;
          (if o_ext o =? v_corotype s then
             match o_data o with Some c => free_ctx c | None => ret tt end
           else ret tt)
        else ret tt
      end
  end.

(** nkiVmObjectTableCleanOldObjects, the loop over table indices.
    /repo/src/nkobjs.c:183-199. *)
Fixpoint clean_old_objects_loop (idx : list Z) (pass : Z) : M unit :=
  match idx with
  | [] => ret tt
  | i :: r =>
    s <- gets (fun s => s) ;;
    (match get_obj s i with
     | None => ret tt
     | Some o =>
       if pass =? o_gc o then ret tt
       else
         cleanup_object i ;;;
         s' <- gets (fun s => s) ;;
         t <- lift (tab_erase (v_objs s') i) ;;
         modify (set_objs t)
     end) ;;;
    clean_old_objects_loop r pass
  end.
Definition clean_old_objects (pass : Z) : M unit :=
  s <- gets (fun s => s) ;;
  clean_old_objects_loop (zseq 0 (Z.to_nat (t_cap (v_objs s)))) pass.

(** nkiVmObjectTableCleanAllObjects (teardown).  /repo/src/nkobjs.c:170-181.
    No holes are recorded. *)
Fixpoint clean_all_objects_loop (idx : list Z) : M unit :=
  match idx with
  | [] => ret tt
  | i :: r =>
    cleanup_object i ;;;
    modify (fun s => set_objs (mkT (zupd (t_slots (v_objs s)) i None) (t_holes (v_objs s))) s) ;;;
    clean_all_objects_loop r
  end.
Definition clean_all_objects : M unit :=
  s <- gets (fun s => s) ;;
  clean_all_objects_loop (zseq 0 (Z.to_nat (t_cap (v_objs s)))).

(** The chain search shared by nkiVmObjectClearEntry and
    nkiVmObjectFindOrAddEntry: position of the first element whose key is
    strictly equal.  /repo/src/nkobjs.c:209-215, 237-243. *)
Fixpoint find_key (key : value) (chain : list (value * value)) (pos : Z) : M (option Z) :=
  match chain with
  | [] => ret None
  | (k, _) :: r =>
    c <- value_compare key k true ;;
    if c =? 0 then ret (Some pos) else find_key key r (pos + 1)
  end.

Definition key_bucket (s : vm) (key : value) : Z := Z.land (value_hash s key) (OBJ_BUCKETS - 1).

(** Removing the element at a position of a chain. *)
Fixpoint remove_nth {A} (n : nat) (l : list A) : list A :=
  match l, n with
  | [], _ => []
  | _ :: r, O => r
  | a :: r, S k => a :: remove_nth k r
  end.

(** nkiVmObjectClearEntry.  /repo/src/nkobjs.c:201-225. *)
Definition clear_entry (ob : Z) (key : value) : M unit :=
  s <- gets (fun s => s) ;;
  o <- rd_obj ob ;;
  let b := key_bucket s key in
  chain <- lift (rd (o_buckets o) b) ;;
  found <- find_key key chain 0 ;;
  match found with
  | None => ret tt
  | Some p =>
    if o_size o =? 0 then mub UbAssert
    else wr_obj ob (set_o_size (o_size o - 1)
           (set_o_buckets (zupd (o_buckets o) b (remove_nth (Z.to_nat p) chain)) o))
  end.

(** nkiVmObjectFindOrAddEntry: the position (bucket, index in chain) of the
    element, [None] for NULL.  /repo/src/nkobjs.c:227-270. *)
Definition find_or_add_entry (ob : Z) (key : value) (noadd : bool) : M (option (Z * Z)) :=
  s <- gets (fun s => s) ;;
  o <- rd_obj ob ;;
  let b := key_bucket s key in
  chain <- lift (rd (o_buckets o) b) ;;
  found <- find_key key chain 0 ;;
  match found with
  | Some p => ret (Some (b, p))
  | None =>
    if noadd then ret None
    else
      let o1 := set_o_buckets (zupd (o_buckets o) b ((key, mkV 0 0) :: chain)) o in
      let sz := u32 (o_size o + 1) in
      if (sz =? 0) || (v_maxfields s <? sz) then
        wr_obj ob (set_o_size (u32 (sz - 1)) o1) ;;;
        add_error (bs "Reached object field count limit.") ;;;
        ret None
      else
        wr_obj ob (set_o_size sz o1) ;;; ret (Some (b, 0))
  end.

(** Reading and writing [el->value] through the pointer
    nkiVmObjectFindOrAddEntry returned. *)
Definition el_get (ob : Z) (p : Z * Z) : M value :=
  o <- rd_obj ob ;;
  chain <- lift (rd (o_buckets o) (fst p)) ;;
  kv <- lift (rd chain (snd p)) ;;
  ret (snd kv).
Definition el_set (ob : Z) (p : Z * Z) (v : value) : M unit :=
  o <- rd_obj ob ;;
  chain <- lift (rd (o_buckets o) (fst p)) ;;
  kv <- lift (rd chain (snd p)) ;;
  wr_obj ob (set_o_buckets (zupd (o_buckets o) (fst p) (zupd chain (snd p) (fst kv, v))) o).

(** nkiVmGetObjectFromValue.  /repo/src/nkobjs.c:277-291. *)
Definition obj_of_value (s : vm) (v : value) : option Z :=
  if v_type v =? T_OBJ then
    match get_obj s (v_data v) with Some _ => Some (v_data v) | None => None end
  else None.

(** nkiVmObjectAcquireHandle.  /repo/src/nkobjs.c:293-332. *)
Definition acquire_handle (v : value) : M unit :=
  s <- gets (fun s => s) ;;
  match obj_of_value s v with
  | None => add_error (bs "Bad object ID in nkiVmObjectAcquireHandle.")
  | Some i =>
    o <- rd_obj i ;;
    let n := u32 (o_handles o + 1) in
    if 1 <? n then wr_obj i (set_o_handles n o)
    else if n =? 0 then
      wr_obj i (set_o_handles INVALID o) ;;;
      add_error (bs "Integer overflow in handle count.")
    else if existsb (Z.eqb i) (v_hlist s) then mub UbAssert
    else
      wr_obj i (set_o_handles n o) ;;;
      modify (fun s => set_hlist (i :: v_hlist s) s)
  end.

(** nkiVmObjectReleaseHandle.  /repo/src/nkobjs.c:334-367. *)
Definition release_handle (v : value) : M unit :=
  s <- gets (fun s => s) ;;
  match obj_of_value s v with
  | None => add_error (bs "Bad object ID in nkiVmObjectAcquireHandle.")
  | Some i =>
    o <- rd_obj i ;;
    (if o_handles o =? 0
     then add_error (bs "Tried to release handle for object with no external handles.")
     else ret tt) ;;;
    let n := u32 (o_handles o - 1) in
    wr_obj i (set_o_handles n o) ;;;
    if 0 <? n then ret tt
    else if existsb (Z.eqb i) (v_hlist s) then
      modify (fun s => set_hlist (filter (fun j => negb (j =? i)) (v_hlist s)) s)
    else mub UbAssert
  end.

(** nkiVmObjectGetExternalHandleCount.  /repo/src/nkobjs.c:369-381. *)
Definition get_handle_count (v : value) : M Z :=
  s <- gets (fun s => s) ;;
  match obj_of_value s v with
  | None => add_error (bs "Bad object ID in nkiVmObjectGetExternalHandleCount.") ;;; ret 0
  | Some i => o <- rd_obj i ;; ret (o_handles o)
  end.

(** nkiVmObjectSetExternalType.  /repo/src/nkobjs.c:383-397. *)
Definition set_ext_type (v : value) (ty : Z) : M bool :=
  s <- gets (fun s => s) ;;
  match obj_of_value s v with
  | None => add_error (bs "Bad object ID in nkiVmObjectSetExternalType.") ;;; ret false
  | Some i => o <- rd_obj i ;; wr_obj i (set_o_ext ty o) ;;; ret true
  end.

(** nkiVmObjectClearExternalDataAndType.  /repo/src/nkobjs.c:399-413. *)
Definition clear_ext (v : value) : M bool :=
  s <- gets (fun s => s) ;;
  match obj_of_value s v with
  | None => add_error (bs "Bad object ID in nkiVmObjectClearExternalType.") ;;; ret false
  | Some i => o <- rd_obj i ;; wr_obj i (set_o_data None (set_o_ext INVALID o)) ;;; ret true
  end.

(** nkiVmObjectGetExternalType.  /repo/src/nkobjs.c:415-428. *)
Definition get_ext_type (v : value) : M Z :=
  s <- gets (fun s => s) ;;
  match obj_of_value s v with
  | None => add_error (bs "Bad object ID in nkiVmObjectGetExternalType.") ;;; ret INVALID
  | Some i => o <- rd_obj i ;; ret (o_ext o)
  end.

(** nkiVmObjectSetExternalData.  /repo/src/nkobjs.c:430-444. *)
Definition set_ext_data (v : value) (d : option Z) : M bool :=
  s <- gets (fun s => s) ;;
  match obj_of_value s v with
  | None => add_error (bs "Bad object ID in nkiVmObjectSetExternalData.") ;;; ret false
  | Some i => o <- rd_obj i ;; wr_obj i (set_o_data d o) ;;; ret true
  end.

(** nkiVmObjectGetExternalData.  /repo/src/nkobjs.c:448-458. *)
Definition get_ext_data (v : value) : M (option Z) :=
  s <- gets (fun s => s) ;;
  match obj_of_value s v with
  | None => ret None
  | Some i => o <- rd_obj i ;; ret (o_data o)
  end.

(** nkiVmObjectClearEntry_public.  /repo/src/nkobjs.c:460-472. *)
Definition clear_entry_public (v key : value) : M unit :=
  s <- gets (fun s => s) ;;
  match obj_of_value s v with
  | Some i => clear_entry i key
  | None => add_error (bs "Bad object ID in nkiVmObjectClearEntry.")
  end.

(** nkiVmObjectFindOrAddEntry_public; also returns the object of the element.
    /repo/src/nkobjs.c:474-488. *)
Definition find_or_add_entry_public (v key : value) (noadd : bool) : M (option (Z * (Z * Z))) :=
  s <- gets (fun s => s) ;;
  match obj_of_value s v with
  | Some i =>
    p <- find_or_add_entry i key noadd ;;
    ret (match p with Some q => Some (i, q) | None => None end)
  | None => add_error (bs "Bad object ID in nkiVmObjectFindOrAddEntry.") ;;; ret None
  end.

(** nkiVmObjectGetSize.  /repo/src/nkobjs.c:490-503. *)
Definition get_obj_size (v : value) : M Z :=
  s <- gets (fun s => s) ;;
  match obj_of_value s v with
  | Some i => o <- rd_obj i ;; ret (o_size o)
  | None => add_error (bs "Bad object ID in nkiVmObjectGetSize.") ;;; ret 0
  end.
