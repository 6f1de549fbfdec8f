(** * HistSpec: the life of objects, their handles and cleanup calls

    What happens to objects in the course of a history, for C16 and C30. *)
From Verif Require Import Base State ObjsModel GcModel TableProofs.

(** Is identifier [i] in use, and how many handles does the host hold? *)
Definition live (s : vm) (i : Z) : Prop := exists o, get_obj s i = Some o.
Definition handles_of (s : vm) (i : Z) : Z :=
  match get_obj s i with Some o => o_handles o | None => 0 end.

(** Does the object's external type have a cleanup callback? *)
Definition has_callback (s : vm) (o : nkobj) : bool :=
  negb (o_ext o =? INVALID) &&
  match znth (v_exttypes s) (o_ext o) with Some et => et_cleanup et | None => false end.

(** The calls of cleanup callbacks made so far for identifier [i], in order.
    Each entry: type, identifier, external data. *)
Definition calls_for (s : vm) (i : Z) : list (Z * Z * option Z) :=
  filter (fun c => snd (fst c) =? i) (v_cleanups s).

(** The calls owed to an object when it is freed: one with its type and data
    if its type has a callback, else none. *)
Definition owed (s : vm) (i : Z) (o : nkobj) : list (Z * Z * option Z) :=
  if has_callback s o then [(o_ext o, i, o_data o)] else [].

(** What can happen to objects. *)
Inductive event :=
| Created (i : Z)
| Acquired (i : Z)
| Released (i : Z)
(* a collection freed these objects, with the calls owed to each *)
| Collected (freed : list (Z * list (Z * Z * option Z))).

(** Nothing happens to the existence and the handles of objects. *)
Record uneventful (s s' : vm) : Prop := {
  un_live : forall i, live s' i <-> live s i;
  un_handles : forall i, handles_of s' i = handles_of s i;
  un_cleanups : v_cleanups s' = v_cleanups s;
  un_types : v_exttypes s' = v_exttypes s;
  (* and the object table stays a table *)
  un_table : tab_wf (v_objs s) -> tab_wf (v_objs s');
  un_list : v_hlist s' = v_hlist s
}.

Section History.
Variable hostmark : Z -> Z -> option Z -> list value.

(** [history s l s']: the events [l], in this order, lead from [s] to [s']. *)
Inductive history (s : vm) : list event -> vm -> Prop :=
| hi_start : history s [] s
| hi_other l s1 s2 : history s l s1 -> uneventful s1 s2 -> history s l s2
| hi_create l s1 i s2 : history s l s1 ->
    create_object s1 = Ok (i, s2) -> live s2 i -> history s (l ++ [Created i]) s2
| hi_acquire l s1 i s2 : history s l s1 ->
    live s1 i -> handles_of s1 i < INVALID ->
    acquire_handle (vobj i) s1 = Ok (tt, s2) -> history s (l ++ [Acquired i]) s2
| hi_release l s1 i s2 : history s l s1 ->
    live s1 i -> handles_of s1 i <> 0 ->
    release_handle (vobj i) s1 = Ok (tt, s2) -> history s (l ++ [Released i]) s2
| hi_collect l s1 fr s2 : history s l s1 ->
    garbage_collect hostmark s1 = Ok (tt, s2) ->
    NoDup (map fst fr) ->
    (forall i c, In (i, c) fr <->
       exists o, get_obj s1 i = Some o /\ owed s1 i o = c /\ ~ live s2 i) ->
    history s (l ++ [Collected fr]) s2.
End History.

(** Counting events. *)
Definition n_created (i : Z) (l : list event) : Z :=
  zlen (filter (fun e => match e with Created j => j =? i | _ => false end) l).
Definition n_acquired (i : Z) (l : list event) : Z :=
  zlen (filter (fun e => match e with Acquired j => j =? i | _ => false end) l).
Definition n_released (i : Z) (l : list event) : Z :=
  zlen (filter (fun e => match e with Released j => j =? i | _ => false end) l).
(* objects with identifier [i] freed; the calls owed to them *)
Definition all_freed (l : list event) : list (Z * list (Z * Z * option Z)) :=
  flat_map (fun e => match e with Collected fr => fr | _ => [] end) l.
Definition n_freed (i : Z) (l : list event) : Z :=
  zlen (filter (fun x => fst x =? i) (all_freed l)).
Definition owed_for (i : Z) (l : list event) : list (Z * Z * option Z) :=
  flat_map snd (filter (fun x => fst x =? i) (all_freed l)).
