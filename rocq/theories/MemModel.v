(** * The allocator: /repo/src/nkmem.c, and the teardown loop of nkvm.c

    The allocation list is modelled at pointer level: each block has a
    header with a [next] pointer and a "pointer to the pointer that points
    at me" ([prevAllocationPtr]), exactly as in the C code. *)
From Verif Require Import Base.

(** Address of a block (of its header). *)
Definition addr := Z.

(** A [struct NKMemoryHeader **]: either [&vm->allocations] or
    [&header->nextAllocation] for some header.
    /repo/src/nkmem.h:67-78 *)
Inductive ploc : Set :=
| PHead
| PNext (a : addr).

(** /repo/src/nkmem.h:67-78 [struct NKMemoryHeader] plus the [size] user
    bytes that follow it.  The [vm] back pointer and the leak-tracking
    [stackTrace] (compiled out by default) are not modelled. *)
Record header := mkHeader {
  h_size : Z;
  h_next : option addr;
  h_prev : ploc;
  h_data : list Z
}.

(** The allocator's part of [struct NKVM] (/repo/src/nkvm.h): the heap
    (which blocks are live), [allocations], [currentMemoryUsage],
    [peakMemoryUsage], [limits.maxAllocatedMemory] and
    [errorState.allocationFailure].  [m_freed] is a ghost trace of the
    addresses handed back to the host, most recent first. *)
Record mem := mkMem {
  m_heap : addr -> option header;
  m_head : option addr;
  m_usage : Z;
  m_peak : Z;
  m_max : Z;
  m_fail : bool;
  m_freed : list addr
}.

Definition hset (h : addr -> option header) (a : addr) (v : option header) : addr -> option header :=
  fun b => if b =? a then v else h b.

Definition set_heap (m : mem) h := mkMem h (m_head m) (m_usage m) (m_peak m) (m_max m) (m_fail m) (m_freed m).
Definition set_head (m : mem) x := mkMem (m_heap m) x (m_usage m) (m_peak m) (m_max m) (m_fail m) (m_freed m).
Definition set_usage (m : mem) u := mkMem (m_heap m) (m_head m) u (m_peak m) (m_max m) (m_fail m) (m_freed m).
Definition set_peak (m : mem) u := mkMem (m_heap m) (m_head m) (m_usage m) u (m_max m) (m_fail m) (m_freed m).
Definition set_max (m : mem) u := mkMem (m_heap m) (m_head m) (m_usage m) (m_peak m) u (m_fail m) (m_freed m).
Definition set_fail (m : mem) b := mkMem (m_heap m) (m_head m) (m_usage m) (m_peak m) (m_max m) b (m_freed m).
Definition set_freed (m : mem) l := mkMem (m_heap m) (m_head m) (m_usage m) (m_peak m) (m_max m) (m_fail m) l.

Definition with_next (h : header) n := mkHeader (h_size h) n (h_prev h) (h_data h).
Definition with_prev (h : header) p := mkHeader (h_size h) (h_next h) p (h_data h).
Definition with_data (h : header) d := mkHeader (h_size h) (h_next h) (h_prev h) d.

(** How a call ends: it returns a pointer ([None] = NULL) or it leaves by
    [longjmp] (NK_CATASTROPHE, /repo/src/nkfail.h:88-92). *)
Inductive ret : Set :=
| Ret (p : option addr)
| Jump.

(** NK_CATASTROPHE / nkiErrorStateSetAllocationFailFlag:
    /repo/src/nkfail.h:88-92, /repo/src/nkerror.c (sets the flag). *)
Definition catastrophe (m : mem) : res (mem * ret) := Ok (set_fail m true, Jump).

(** [*header->prevAllocationPtr = x] *)
Definition store_ploc (m : mem) (p : ploc) (x : option addr) : res mem :=
  match p with
  | PHead => Ok (set_head m x)
  | PNext a =>
      match m_heap m a with
      | Some h => Ok (set_heap m (hset (m_heap m) a (Some (with_next h x))))
      | None => Ub UbOob
      end
  end.

(** [header->prevAllocationPtr = p] for the header at [a]. *)
Definition store_prev (m : mem) (a : addr) (p : ploc) : res mem :=
  match m_heap m a with
  | Some h => Ok (set_heap m (hset (m_heap m) a (Some (with_prev h p))))
  | None => Ub UbOob
  end.

(** What the host's [mallocReplacement] answers: NULL, or a block together
    with its (arbitrary) initial contents. *)
Definition host := option (addr * list Z).

Section WithHeader.
(** [sizeof(struct NKMemoryHeader)] (32 on LP64 targets). *)
Variable hdr : Z.

(** nkiMalloc_real: /repo/src/nkmem.c:103-226.  The failure-injection test
    mode and leak tracking are compiled out.  [o] is the host's answer. *)
Definition malloc (m : mem) (size : Z) (o : host) : res (mem * ret) :=
  if INVALID - hdr <? size then catastrophe m
  else if size =? 0 then Ok (m, Ret None)
  else
    let chunk := u32 (size + hdr) in
    if (chunk <? size) || (m_max m <? m_usage m) || (m_max m - m_usage m <? chunk)
    then catastrophe m
    else match o with
         | None => catastrophe m
         | Some (a, junk) =>
             let usage := u32 (m_usage m + (size + hdr)) in
             let m := set_usage m usage in
             let m := if m_peak m <? usage then set_peak m usage else m in
             let nh := mkHeader size (m_head m) PHead junk in
             let m := set_heap m (hset (m_heap m) a (Some nh)) in
             do m <- match m_head m with
                     | None => Ok m
                     | Some b => store_prev m b (PNext a)
                     end;
             Ok (set_head m (Some a), Ret (Some a))
         end.

(** nkiFree: /repo/src/nkmem.c:228-254. *)
Definition free (m : mem) (p : option addr) : res mem :=
  match p with
  | None => Ok m
  | Some a =>
      match m_heap m a with
      | None => Ub UbOob
      | Some h =>
          let m := set_usage m (u32 (m_usage m - (h_size h + hdr))) in
          do m <- match h_next h with
                  | None => Ok m
                  | Some b => store_prev m b (h_prev h)
                  end;
          do m <- store_ploc m (h_prev h) (h_next h);
          Ok (set_freed (set_heap m (hset (m_heap m) a None)) (a :: m_freed m))
      end
  end.

(** nkiMemcpy of [n] bytes over the beginning of a block. *)
Definition copy_into (old new : list Z) (n : Z) : list Z :=
  firstn (Z.to_nat n) old ++ skipn (Z.to_nat n) new.

(** nkiRealloc: /repo/src/nkmem.c:256-271. *)
Definition realloc (m : mem) (p : option addr) (size : Z) (o : host) : res (mem * ret) :=
  match p with
  | None => malloc m size o
  | Some a =>
      match m_heap m a with
      | None => Ub UbOob
      | Some h =>
          let n := if size <? h_size h then size else h_size h in
          do (m, r) <- malloc m size o;
          match r with
          | Jump => Ok (m, Jump)
          | Ret None => do m <- free m p; Ok (m, Ret None)
          | Ret (Some b) =>
              match m_heap m a, m_heap m b with
              | Some ha, Some hb =>
                  let m := set_heap m (hset (m_heap m) b
                             (Some (with_data hb (copy_into (h_data ha) (h_data hb) n)))) in
                  do m <- free m p;
                  Ok (m, Ret (Some b))
              | _, _ => Ub UbOob
              end
          end
      end
  end.

(** nkiMallocArray: /repo/src/nkmem.c:291-301. *)
Definition malloc_array (m : mem) (size count : Z) (o : host) : res (mem * ret) :=
  if size =? 0 then Ub UbDivTrap
  else if INVALID / size <=? count then catastrophe m
  else malloc m (u32 (size * count)) o.

(** nkiReallocArray: /repo/src/nkmem.c:304-314. *)
Definition realloc_array (m : mem) (p : option addr) (size count : Z) (o : host)
  : res (mem * ret) :=
  if size =? 0 then Ub UbDivTrap
  else if INVALID / size <=? count then catastrophe m
  else realloc m p (u32 (size * count)) o.

(** nkiStrdup: /repo/src/nkmem.c:273-286.  [s] are the bytes before the
    terminating zero. *)
Definition strdup (m : mem) (s : option bytes) (o : host) : res (mem * ret) :=
  match s with
  | None => Ok (m, Ret None)
  | Some s =>
      let len := u32 (u32 (zlen s) + 1) in
      if len =? 0 then Ok (m, Ret None)
      else
        do (m, r) <- malloc m len o;
        match r with
        | Ret (Some a) =>
            match m_heap m a with
            | Some h =>
                if zlen s <? h_size h
                then Ok (set_heap m (hset (m_heap m) a
                           (Some (with_data h (copy_into (s ++ [0]) (h_data h) (zlen s + 1))))), r)
                else Ub UbOob
            | None => Ub UbOob
            end
        | _ => Ok (m, r)
        end
  end.

(** The teardown loop used after an allocation failure:
    /repo/src/nkvm.c:283-296.  (The C code calls the C library's [free]
    here rather than [vm->freeReplacement]; see DESIGN.md, findings.)
    [fuel] bounds the walk; running out is reported as [UbFuel]. *)
Fixpoint teardown (fuel : nat) (m : mem) : res mem :=
  match m_head m with
  | None => Ok m
  | Some a =>
      match fuel with
      | O => Ub UbFuel
      | S k =>
          match m_heap m a with
          | None => Ub UbOob
          | Some h =>
              let next := h_next h in
              let m := set_freed (set_heap m (hset (m_heap m) a None)) (a :: m_freed m) in
              teardown k (set_head m next)
          end
      end
  end.

(** A freshly created VM's allocator (nkiVmInit, /repo/src/nkvm.c:184-207:
    usage and peak zero, empty list, no failure). *)
Definition mem_init (max : Z) : mem :=
  mkMem (fun _ => None) None 0 0 max false [].

(** One API-level operation of a history, with the host's answer. *)
Inductive op : Type :=
| OMalloc (size : Z) (o : host)
| OFree (p : option addr)
| ORealloc (p : option addr) (size : Z) (o : host)
| OMallocArray (size count : Z) (o : host)
| OReallocArray (p : option addr) (size count : Z) (o : host)
| OStrdup (s : option bytes) (o : host)
| OSetMax (z : Z).

Definition step (m : mem) (o : op) : res (mem * ret) :=
  match o with
  | OMalloc s h => malloc m s h
  | OFree p => do m <- free m p; Ok (m, Ret None)
  | ORealloc p s h => realloc m p s h
  | OMallocArray s c h => malloc_array m s c h
  | OReallocArray p s c h => realloc_array m p s c h
  | OStrdup s h => strdup m s h
  | OSetMax z => Ok (set_max m z, Ret None)
  end.

End WithHeader.
