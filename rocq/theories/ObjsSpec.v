(** * ObjsSpec: histories of operations on objects *)
From Verif Require Import Base State StrModel ObjsModel StrSpec ValueSpec.

(** Two keys are the same key: equal type, and equal payload -- except that
    floats compare by IEEE equality and all nils are alike.  (Strings have
    equal payload exactly when they have equal text: property C08.) *)
Definition key_eq (a b : value) : bool :=
  (v_type a =? v_type b) &&
  (if v_type a =? T_NIL then true
   else if v_type a =? T_FLOAT then f_eq (v_data a) (v_data b)
   else v_data a =? v_data b).

(** Reading a field the way nkiOpcode_objectFieldGet does: the element's
    value, or nil. *)
Definition read_field (ob : Z) (key : value) : M value :=
  p <- find_or_add_entry ob key true ;;
  match p with Some q => el_get ob q | None => ret vnil end.

(** Writing a field the way nkiOpcode_objectFieldSet does: nil deletes. *)
Definition write_field (ob : Z) (key v : value) : M unit :=
  if v_type v =? T_NIL then clear_entry ob key
  else
    p <- find_or_add_entry ob key false ;;
    match p with Some q => el_set ob q v | None => ret tt end.

(** What an outsider knows: the value last written, per object and key. *)
Definition memory := Z -> value -> value.

Definition mem_write (m : memory) (ob : Z) (key v : value) : memory :=
  fun o k => if (o =? ob) && key_eq k key then v else m o k.

(** [obj_history s m]: the VM [s] is reached from one without strings and
    objects by string creations, object creations, field writes (including
    deletions by writing nil) that reported no error, and anything that
    leaves strings and objects alone (stack traffic, changing the field
    limit, recording errors, ...).  [m] records the writes. *)
Inductive obj_history : vm -> memory -> Prop :=
| oh_init s :
    v_strs s = tab_init -> v_byhash s = repeat [] 256 -> v_objs s = tab_init ->
    (exists c, znth (v_ctxs s) (v_cur s) = Some (Some c)) ->
    obj_history s (fun _ _ => vnil)
| oh_string s m t i s' :
    obj_history s m -> all_bytes t -> find_or_add_string t s = Ok (i, s') -> obj_history s' m
| oh_create s m i s' :
    obj_history s m -> create_object s = Ok (i, s') ->
    obj_history s' (fun o k => if o =? i then vnil else m o k)
| oh_write s m ob key v s' :
    obj_history s m -> get_obj s ob <> None -> ordinary s key ->
    write_field ob key v s = Ok (tt, s') -> v_errs s' = v_errs s ->
    obj_history s' (mem_write m ob key (if v_type v =? T_NIL then vnil else v))
| oh_other s m s' :
    obj_history s m ->
    v_strs s' = v_strs s -> v_byhash s' = v_byhash s -> v_objs s' = v_objs s ->
    (exists c, znth (v_ctxs s') (v_cur s') = Some (Some c)) -> obj_history s' m.

(** [keys_of s m ob ks]: [ks] lists, once each, the keys under which the
    object currently has a value. *)
Definition keys_of (s : vm) (m : memory) (ob : Z) (ks : list value) : Prop :=
  Forall (ordinary s) ks /\
  (forall i j a b, znth ks i = Some a -> znth ks j = Some b -> key_eq a b = true -> i = j) /\
  (forall k, ordinary s k -> (m ob k <> vnil <-> exists k', In k' ks /\ key_eq k k' = true)).
