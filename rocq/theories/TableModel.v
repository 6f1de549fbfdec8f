(** * TableModel: identifier tables (/repo/src/nktable.c)

    Objects and strings live in tables of pointers indexed by identifier.
    The pointer array is modelled by a list of options ([None] = NULL), the
    linked list of [NKVMTableHole] records by the list of their indices in
    link order.  [table->capacity] is the length of the slot list.  Memory
    allocation is assumed to succeed (see DESIGN.md). *)
From Verif Require Import Base.

Section Table.
Context {A : Type}.

(** struct NKVMTable.  /repo/src/nktable.h:55-67. *)
Record table := mkT {
  t_slots : list (option A);
  t_holes : list Z
}.

Definition t_cap (t : table) : Z := zlen (t_slots t).

(** nkiTableInit.  /repo/src/nktable.c:46-58. *)
Definition tab_init : table := mkT [None] [0].

(** nkiVmObjectTableGetEntryById / nkiVmStringTableGetEntryById, the lookup
    through the table.  /repo/src/nkobjs.c:82-91, /repo/src/nkstring.c:86-94. *)
Definition tab_get (t : table) (i : Z) : option A :=
  if t_cap t <=? i then None
  else match znth (t_slots t) i with Some x => x | None => None end.

(** nkiTableCreateHole.  /repo/src/nktable.c:92-105. *)
Definition tab_create_hole (t : table) (i : Z) : res table :=
  match znth (t_slots t) i with
  | None => Ub UbAssert
  | Some (Some _) => Ub UbAssert
  | Some None => Ok (mkT (t_slots t) (i :: t_holes t))
  end.

(** nkiTableEraseEntry.  /repo/src/nktable.c:107-113. *)
Definition tab_erase (t : table) (i : Z) : res table :=
  match znth (t_slots t) i with
  | None => Ub UbAssert
  | Some None => Ub UbAssert
  | Some (Some _) => tab_create_hole (mkT (zupd (t_slots t) i None) (t_holes t)) i
  end.

(** The indices of the empty slots in increasing order, the list
    nkiTableResetHoles builds by pushing from the highest index down.
    /repo/src/nktable.c:126-131. *)
Fixpoint empty_from (i : Z) (l : list (option A)) : list Z :=
  match l with
  | [] => []
  | None :: r => i :: empty_from (i + 1) r
  | Some _ :: r => empty_from (i + 1) r
  end.

(** nkiTableResetHoles.  /repo/src/nktable.c:115-132. *)
Definition tab_reset_holes (t : table) : table :=
  mkT (t_slots t) (empty_from 0 (t_slots t)).

(** The scan for the highest used index (0 if none).
    /repo/src/nktable.c:141-145. *)
Fixpoint highest_from (i : Z) (l : list (option A)) (best : Z) : Z :=
  match l with
  | [] => best
  | None :: r => highest_from (i + 1) r best
  | Some _ :: r => highest_from (i + 1) r i
  end.

(** while((newCapacity >> 1) > highestObject) newCapacity >>= 1, at most 32
    rounds because newCapacity is a 32-bit number.
    /repo/src/nktable.c:149-151. *)
Fixpoint halve (fuel : nat) (n high : Z) : Z :=
  match fuel with
  | O => n
  | S k => if high <? n / 2 then halve k (n / 2) high else n
  end.

(** nkiTableShrink.  /repo/src/nktable.c:134-167. *)
Definition tab_shrink (t : table) : table :=
  let high := highest_from 0 (t_slots t) 0 in
  let n := halve 32 (t_cap t) high in
  tab_reset_holes (mkT (firstn (Z.to_nat n) (t_slots t)) (t_holes t)).

(** nkiTableAddEntry; [None] is the "Address space exhaustion" exit that
    returns NK_INVALID_VALUE.  /repo/src/nktable.c:169-243. *)
Definition tab_add (t : table) (x : A) : option (Z * table) :=
  match t_holes t with
  | i :: rest => Some (i, mkT (zupd (t_slots t) i (Some x)) rest)
  | [] =>
    let old := t_cap t in
    let new := u32 (old * 2) in
    if new =? 0 then None
    else
      let slots := t_slots t ++ repeat None (Z.to_nat (new - old)) in
      Some (old, mkT (zupd slots old (Some x)) (zseq (old + 1) (Z.to_nat (new - old - 1))))
  end.

End Table.
Arguments table A : clear implicits.
