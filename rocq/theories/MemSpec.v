(** * What the allocator is supposed to do, told from the outside

    A ledger records which blocks the API handed out and did not get back,
    computed only from the calls made and the pointers returned. *)
From Verif Require Import Base MemModel.

(** Outstanding blocks: (pointer, requested size), most recent first. *)
Definition ledger := list (addr * Z).

Fixpoint lremove (L : ledger) (a : addr) : ledger :=
  match L with
  | [] => []
  | (b, s) :: r => if b =? a then r else (b, s) :: lremove r a
  end.

Definition lremove_opt (L : ledger) (p : option addr) : ledger :=
  match p with None => L | Some a => lremove L a end.

Definition ladd (L : ledger) (p : option addr) (s : Z) : ledger :=
  match p with None => L | Some a => (a, s) :: L end.

(** Effect of one call, given what it returned ([Jump]: the call failed and
    the API wrapper returned NULL, nothing changed hands). *)
Definition ledger_step (L : ledger) (o : op) (r : ret) : ledger :=
  match r with
  | Jump => L
  | Ret p =>
      match o with
      | OMalloc s _ => ladd L p s
      | OFree q => lremove_opt L q
      | ORealloc q s _ => lremove_opt (ladd L p s) q
      | OMallocArray s c _ => ladd L p (s * c)
      | OReallocArray q s c _ => lremove_opt (ladd L p (s * c)) q
      | OStrdup (Some s) _ => ladd L p (zlen s + 1)
      | OStrdup None _ => L
      | OSetMax _ => L
      end
  end.

(** The bytes the blocks of a ledger account for: requested size plus one
    header each. *)
Fixpoint total (hdr : Z) (L : ledger) : Z :=
  match L with [] => 0 | (_, s) :: r => s + hdr + total hdr r end.

Definition live (L : ledger) (a : addr) : Prop := exists s, In (a, s) L.

(** A conforming host answers NULL or a block that is not in use, with as
    many bytes as were asked for. *)
Definition host_ok (L : ledger) (size : Z) (o : host) : Prop :=
  match o with
  | None => True
  | Some (a, junk) => ~ live L a /\ zlen junk = size
  end.

Definition ptr_ok (L : ledger) (p : option addr) : Prop :=
  match p with None => True | Some a => live L a end.

(** The caller passes 32-bit numbers and only pointers it owns; array element
    sizes are [sizeof] something, so not zero; strings are shorter than 4GB. *)
Definition valid (L : ledger) (o : op) : Prop :=
  match o with
  | OMalloc s h => is_u32 s /\ host_ok L s h
  | OFree p => ptr_ok L p
  | ORealloc p s h => is_u32 s /\ ptr_ok L p /\ host_ok L s h
  | OMallocArray s c h => is_u32 s /\ is_u32 c /\ s <> 0 /\ host_ok L (s * c) h
  | OReallocArray p s c h =>
      is_u32 s /\ is_u32 c /\ s <> 0 /\ ptr_ok L p /\ host_ok L (s * c) h
  | OStrdup s h =>
      match s with
      | None => True
      | Some s => zlen s + 1 < W32 /\ host_ok L (zlen s + 1) h
      end
  | OSetMax z => is_u32 z
  end.

(** Every state of an allocator that can arise, with its ledger. *)
Inductive history (hdr : Z) : mem -> ledger -> Prop :=
| hist_init max : is_u32 max -> history hdr (mem_init max) []
| hist_step m L o m' r :
    history hdr m L -> valid L o -> step hdr m o = Ok (m', r) ->
    history hdr m' (ledger_step L o r).

(** Histories during which the limit stays fixed at [max]. *)
Inductive history_limit (hdr max : Z) : mem -> ledger -> Prop :=
| histl_init : is_u32 max -> history_limit hdr max (mem_init max) []
| histl_step m L o m' r :
    history_limit hdr max m L -> valid L o ->
    (forall z, o <> OSetMax z) ->
    step hdr m o = Ok (m', r) ->
    history_limit hdr max m' (ledger_step L o r).

(** The contents of a live block. *)
Definition contents (m : mem) (a : addr) : option (list Z) :=
  match m_heap m a with Some h => Some (h_data h) | None => None end.

(** Continuing a history by any number of further calls. *)
Inductive continues (hdr : Z) : mem -> ledger -> mem -> ledger -> Prop :=
| cont_refl m L : continues hdr m L m L
| cont_step m L m1 L1 o m2 r :
    continues hdr m L m1 L1 -> valid L1 o -> step hdr m1 o = Ok (m2, r) ->
    continues hdr m L m2 (ledger_step L1 o r).
