(** * GcSpec: which values a program can still get at

    The specification of the garbage collector (C28, C29, C30): reachability
    in the object graph, stated without reference to marks, passes or work
    lists. *)
From Verif Require Import Base State StackModel.

Section Reach.

(** What the host's mark callback of an external type reports. *)
Variable hostmark : Z -> Z -> option Z -> list value.
Variable s : vm.

(** The values on the live part of a stack. *)
Definition on_stack (k : stack) (v : value) : Prop :=
  exists n, 0 <= n < k_size k /\ znth (k_vals k) n = Some v.

(** [refs o v]: object [o] refers to value [v]. *)
Inductive refs (o : nkobj) : value -> Prop :=
(* as the key or the value of one of its fields *)
| rf_key k w : In (k, w) (concat (o_buckets o)) -> refs o k
| rf_val k w : In (k, w) (concat (o_buckets o)) -> refs o w
(* a coroutine: the coroutine that resumed it, and everything on its stack *)
| rf_parent i c j pc : o_ext o = v_corotype s -> o_data o = Some i ->
    znth (v_ctxs s) i = Some (Some c) -> c_parent c = Some j ->
    znth (v_ctxs s) j = Some (Some pc) -> refs o (c_obj pc)
| rf_stack i c v : o_ext o = v_corotype s -> o_data o = Some i ->
    znth (v_ctxs s) i = Some (Some c) -> on_stack (c_stack c) v -> refs o v
(* external data: what the host says *)
| rf_host et v : o_ext o <> v_corotype s -> o_ext o <> INVALID ->
    znth (v_exttypes s) (o_ext o) = Some et -> et_mark et = true ->
    In v (hostmark (o_ext o) (o_idx o) (o_data o)) -> refs o v.

(** [reach v]: starting from the roots, a chain of references leads to [v]. *)
Inductive reach : value -> Prop :=
(* roots: the main stack, the running coroutine, global variables, and
   objects the host holds handles for *)
| rc_stack c v : znth (v_ctxs s) 0 = Some (Some c) -> on_stack (c_stack c) v -> reach v
| rc_cur c : znth (v_ctxs s) (v_cur s) = Some (Some c) -> reach (c_obj c)
| rc_static v : In v (v_static s) -> reach v
| rc_handle i o : get_obj s i = Some o -> o_handles o <> 0 -> reach (vobj i)
| rc_ref i o v : reach (vobj i) -> get_obj s i = Some o -> refs o v -> reach v.

End Reach.

(** [collected s s']: what one collection does.  Reachable objects and strings
    stay, unchanged except for the collector's own pass stamp; the others go;
    coroutine stacks go with their objects; the host's cleanup callbacks run
    for exactly the objects that go; nothing else changes except that errors
    may be reported. *)
Section Collected.
Variable hostmark : Z -> Z -> option Z -> list value.
Notation reach := (reach hostmark).

(** The string or object a value stands for exists. *)
Definition present (s : vm) (v : value) : Prop :=
  (v_type v = T_STRING -> get_str_entry s (v_data v) <> None) /\
  (v_type v = T_OBJ -> get_obj s (v_data v) <> None).
Definition known_type (s : vm) (o : nkobj) : Prop := o_ext o = INVALID \/ znth (v_exttypes s) (o_ext o) <> None.

Record collected (s s' : vm) : Prop := {
  cl_obj_keep : forall i o, get_obj s i = Some o -> reach s (vobj i) ->
                  exists g, get_obj s' i = Some (set_o_gc g o);
  cl_obj_free : forall i o, get_obj s i = Some o -> ~ reach s (vobj i) -> get_obj s' i = None;
  cl_obj_none : forall i, get_obj s i = None -> get_obj s' i = None;
  cl_str_keep : forall i e, get_str_entry s i = Some e -> reach s (vstr i) \/ s_keep e = true ->
                  exists g, get_str_entry s' i = Some (set_s_gc g e);
  cl_str_free : forall i e, get_str_entry s i = Some e -> ~ reach s (vstr i) -> s_keep e = false ->
                  get_str_entry s' i = None;
  cl_str_none : forall i, get_str_entry s i = None -> get_str_entry s' i = None;
  cl_ctx : forall j, znth (v_ctxs s') j = znth (v_ctxs s) j \/
             (znth (v_ctxs s') j = Some None /\
              exists i o, get_obj s i = Some o /\ ~ reach s (vobj i) /\ o_ext o = v_corotype s /\ o_data o = Some j);
  cl_ctx_free : forall i o j, get_obj s i = Some o -> ~ reach s (vobj i) -> o_ext o = v_corotype s ->
             o_data o = Some j -> znth (v_ctxs s') j = Some None;
  cl_cleanups : exists l, v_cleanups s' = v_cleanups s ++ l /\ NoDup (map (fun x => snd (fst x)) l) /\
             forall ty i d, In (ty, i, d) l <->
               exists o et, get_obj s i = Some o /\ ~ reach s (vobj i) /\ o_ext o = ty /\ o_data o = d /\
                 ty <> INVALID /\ znth (v_exttypes s) ty = Some et /\ et_cleanup et = true;
  cl_frame : exists es p t u h cs ca,
     s' = set_errs (v_errs s ++ es) (set_gcpass p (set_strs t (set_byhash h
            (set_objs u (set_ctxs cs (set_cleanups ca s))))));
  (* errors are reported for references to things that do not exist, and for
     objects of types that do not exist, and for nothing else *)
  cl_quiet : (forall v, reach s v -> present s v) -> (forall i o, get_obj s i = Some o -> known_type s o) ->
     v_errs s' = v_errs s;
  (* of everything that exists it is known whether it is reachable *)
  cl_obj_known : forall i, get_obj s i <> None -> reach s (vobj i) \/ ~ reach s (vobj i);
  cl_str_known : forall i, get_str_entry s i <> None -> reach s (vstr i) \/ ~ reach s (vstr i)
}.
End Collected.
