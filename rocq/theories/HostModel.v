(** * HostModel: host callbacks

    A host callback is a C function that uses the nkx API.  The VM model takes
    callbacks as an arbitrary state transformer; this file describes the ones
    that only use the API listed here, so that the assumption about callbacks
    in the safety theorem (C18) can be discharged for them.

    Simplification: the callback looks at the error state after each call and
    returns when an error is pending (nkxVmHasErrors, /repo/src/nkx.c:129-132). *)
From Verif Require Export VmModel.

Inductive hostprog : Type :=
| HReturn (v : value)
(* nkxAddError, /repo/src/nkx.c:639-647 *)
| HError (msg : bytes) (k : hostprog)
(* nkxValueSetString, /repo/src/nkx.c:782-788 *)
| HString (txt : bytes) (k : value -> hostprog)
(* nkxCreateObject, /repo/src/nkx.c:796-803 *)
| HObject (k : value -> hostprog)
(* nkxVmObjectFindOrAddEntry with noAdd, then reading through the pointer;
   /repo/src/nkx.c:1079-1091 *)
| HRead (ob key : value) (k : value -> hostprog)
(* nkxVmObjectFindOrAddEntry without noAdd, then storing through the pointer *)
| HWrite (ob key v : value) (k : hostprog)
(* nkxVmObjectClearEntry, /repo/src/nkx.c:1068-1077 *)
| HErase (ob key : value) (k : hostprog)
(* nkxVmObjectAcquireHandle, nkxVmObjectReleaseHandle, /repo/src/nkx.c:402-416 *)
| HAcquire (v : value) (k : hostprog)
| HRelease (v : value) (k : hostprog)
(* nkxVmGarbageCollect, /repo/src/nkx.c:162-169 *)
| HCollect (k : hostprog)
(* nkxVmObjectSetExternalType, nkxVmObjectSetExternalData,
   /repo/src/nkx.c:574-585, 599-610 *)
| HSetType (v : value) (ty : Z) (k : hostprog)
| HSetData (v : value) (d : option Z) (k : hostprog).

Section Host.
Variable hostmark : Z -> Z -> option Z -> list value.

(** Reading a field: nil when absent. *)
Definition host_read (ob key : value) : M value :=
  p <- find_or_add_entry_public ob key true ;;
  match p with
  | Some (i, q) => el_get i q
  | None => ret vnil
  end.

Definition host_write (ob key v : value) : M unit :=
  p <- find_or_add_entry_public ob key false ;;
  match p with
  | Some (i, q) => el_set i q v
  | None => ret tt
  end.

(** Stop as soon as an error is pending. *)
Definition unless_error (k : M value) : M value :=
  s <- self ;; if has_errors s then ret vnil else k.

(** Is the value a coroutine object? *)
Definition is_coroutine (s : vm) (v : value) : bool :=
  match obj_of_value s v with
  | Some i => match get_obj s i with Some o => o_ext o =? v_corotype s | None => false end
  | None => false
  end.

(** Contract of the API that the callback keeps: strings it passes are
    zero-terminated byte strings, it does not release a handle it does not
    hold (see C16_extra_release_refuted), it does not collect when the 32-bit
    pass counter is about to wrap (see C28_pass_wrap_refuted), and it neither
    makes an object a coroutine by giving it that external type nor replaces
    the type or data of a coroutine. *)
Fixpoint run_host (p : hostprog) : M value :=
  match p with
  | HReturn v => ret v
  | HError m k => add_error m ;;; unless_error (run_host k)
  | HString t k =>
    i <- find_or_add_string (filter (fun c => (0 <? c) && (c <? 256)) t) ;;
    unless_error (run_host (k (vstr i)))
  | HObject k => i <- create_object ;; unless_error (run_host (k (vobj i)))
  | HRead ob key k => v <- host_read ob key ;; unless_error (run_host (k v))
  | HWrite ob key v k => host_write ob key v ;;; unless_error (run_host k)
  | HErase ob key k => clear_entry_public ob key ;;; unless_error (run_host k)
  | HAcquire v k => acquire_handle v ;;; unless_error (run_host k)
  | HRelease v k =>
    n <- get_handle_count v ;;
    if n =? 0 then unless_error (run_host k)
    else release_handle v ;;; unless_error (run_host k)
  | HCollect k =>
    s <- self ;;
    if v_gcpass s <? INVALID then garbage_collect hostmark ;;; unless_error (run_host k)
    else unless_error (run_host k)
  | HSetType v ty k =>
    s <- self ;;
    if is_coroutine s v || (ty =? v_corotype s) then unless_error (run_host k)
    else set_ext_type v ty ;;; unless_error (run_host k)
  | HSetData v d k =>
    s <- self ;;
    if is_coroutine s v then unless_error (run_host k)
    else set_ext_data v d ;;; unless_error (run_host k)
  end.
End Host.
