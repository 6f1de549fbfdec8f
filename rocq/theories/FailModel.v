(** * FailModel: allocation failures and how they unwind (C50)

    What an API function or a host callback does is arbitrary; modelled is
    only what matters for failures: effects on the virtual machine, allocations,
    calls from the host into the API and calls from the virtual machine back
    into the host.  The model covers the macros of /repo/src/nkfail.h, their
    use in /repo/src/nkx.c, the allocator's failure paths
    (/repo/src/nkmem.c:120-147, 208-217, 290-310) and the check after a host
    function (/repo/src/nkopcode.c:742-757). *)

From Coq Require Import ZArith List Bool.
Import ListNotations.
Open Scope Z_scope.

(** Things that can be observed: effects on the virtual machine, things the
    host does by itself, and failures. *)
Inductive event := Vm (e : Z) | Host (e : Z) | Failed.

Record fstate := mkFS {
  flag : bool;            (* vm->errorState.allocationFailure *)
  jmp : option nat;       (* vm->catastrophicFailureJmpBuf: which frame *)
  frames : nat;           (* frames created so far, to tell them apart *)
  grants : list bool;     (* what the allocator will answer; true when used up *)
  trace : list event
}.
Definition set_jmp (j : option nat) (s : fstate) : fstate := mkFS (flag s) j (frames s) (grants s) (trace s).
Definition new_frame (s : fstate) : fstate := mkFS (flag s) (jmp s) (S (frames s)) (grants s) (trace s).
Definition log (e : event) (s : fstate) : fstate := mkFS (flag s) (jmp s) (frames s) (grants s) (trace s ++ [e]).
Definition fail_flag (s : fstate) : fstate := mkFS true (jmp s) (frames s) (grants s) (trace s ++ [Failed]).
Definition drop_grant (s : fstate) : fstate := mkFS (flag s) (jmp s) (frames s) (tl (grants s)) (trace s).

(** Code inside the virtual machine, and host code.  [VCall checked h k]: the
    virtual machine calls host code and goes on with what it returned;
    [checked]: after looking for a failure, as for host functions
    (/repo/src/nkopcode.c:742-757).  The other callbacks are not followed by
    that check, and neither are the calls that code inside the virtual machine
    makes to API functions (/repo/src/nkopcode.c:504, 509, 1285, 1350,
    /repo/src/nkcorout.c:139).
    [HApi body f k]: the host calls an API function whose body is [body] and
    whose failure value is [f].  [HFile k]: nkxCompilerCompileScriptFile
    failing to allocate its buffer, /repo/src/nkx.c:278-283. *)
Inductive vcode :=
| VRet (v : Z)
| VDo (e : Z) (k : vcode)
| VAlloc (k : vcode)
| VForce                                  (* nkxForceCatastrophicFailure, nkx.c:374 *)
| VCall (checked : bool) (h : hcode) (k : Z -> vcode)
with hcode :=
| HRet (v : Z)
| HDo (e : Z) (k : hcode)
| HFile (k : hcode)
| HApi (body : vcode) (f : Z) (k : Z -> hcode).

(** [Went t s]: on the way to frame [t] by longjmp.  [Bad]: longjmp through a
    null pointer. *)
Inductive result := Value (v : Z) (s : fstate) | Went (t : nat) (s : fstate) | Bad.

(** NK_CATASTROPHE.  /repo/src/nkfail.h:94-98 *)
Definition catastrophe (s : fstate) : result :=
  let s := fail_flag s in
  match jmp s with None => Bad | Some t => Went t s end.

(** NK_SET_FAILURE_RECOVERY ... NK_CLEAR_FAILURE_RECOVERY around a body.
    /repo/src/nkfail.h:48-92 *)
Definition guard (body : fstate -> result) (f : Z) (s : fstate) : result :=
  let last := jmp s in
  let me := frames s in
  let s := set_jmp (Some me) (new_frame s) in
  if flag s then Value f (set_jmp last s)
  else
    match body s with
    | Value v s => Value v (set_jmp last s)
    | Went t s => if Nat.eqb t me then Value f (set_jmp last s) else Went t s
    | Bad => Bad
    end.

Fixpoint run_v (p : vcode) (s : fstate) : result :=
  match p with
  | VRet v => Value v s
  | VDo e k => run_v k (log (Vm e) s)
  | VAlloc k => match grants s with false :: _ => catastrophe (drop_grant s) | _ => run_v k (drop_grant s) end
  | VForce => catastrophe s
  | VCall checked h k =>
      match run_h h s with
      | Value v s => if checked && flag s then catastrophe s else run_v (k v) s
      | r => r
      end
  end
with run_h (p : hcode) (s : fstate) : result :=
  match p with
  | HRet v => Value v s
  | HDo e k => run_h k (log (Host e) s)
  | HFile k => run_h k (fail_flag s)
  | HApi body f k =>
      match guard (run_v body) f s with
      | Value v s => run_h (k v) s
      | r => r
      end
  end.

(** One API call by the host. *)
Definition api_call (body : vcode) (f : Z) (s : fstate) : result := guard (run_v body) f s.

(** Every call back into the host is followed by the check. *)
Inductive vchecked : vcode -> Prop :=
| vc_ret v : vchecked (VRet v)
| vc_do e k : vchecked k -> vchecked (VDo e k)
| vc_alloc k : vchecked k -> vchecked (VAlloc k)
| vc_force : vchecked VForce
| vc_call h k : hchecked h -> (forall v, vchecked (k v)) -> vchecked (VCall true h k)
with hchecked : hcode -> Prop :=
| hc_ret v : hchecked (HRet v)
| hc_do e k : hchecked k -> hchecked (HDo e k)
| hc_file k : hchecked k -> hchecked (HFile k)
| hc_api body f k : vchecked body -> (forall v, hchecked (k v)) -> hchecked (HApi body f k).
