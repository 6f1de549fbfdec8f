(** * SessionSpec: what a host that works piece by piece relies on (C66)

    An interactive host compiles a script, makes the program runnable
    (nkxCompilerPartiallyFinalize), runs it, and goes on: it compiles the next
    script with the same compiler and runs that, calls a function that one of
    the scripts defined, asks for a garbage collection, writes to a global
    variable, or declares further variables and functions.  [goes] says, for any number of such steps, what must
    be found after each of them.  The meaning of a script is that of RunSpec
    ([exs]) and FaultSpec ([xfs]), the meaning of values that of RepSpec. *)

From Verif Require Import Base State MonadFacts StrProofs TokenModel CsModel ExprModel CompModel VmModel OpSpec ParseSpec RunSpec FaultSpec RepSpec ReplModel.

Inductive event :=
| Script (text fname : bytes) (fuel : nat)
| Call (fv : value) (args : list value)
| Collect                                   (* nkxVmGarbageCollect *)
| Assign (name : bytes) (x : value)         (* through nkxVmFindGlobalVariable *)
| Declare (name : bytes) (x : value)        (* nkxCompilerCreateGlobalVariable, and its value *)
| Function (name : bytes) (cb : option Z).  (* nkxCompilerCreateCFunctionVariable *)

(** No error, an empty operand stack, the objects of [m], and every global
    found under its name with its value in [m]. *)
Definition shows (t : vm) (E : env) (m : mem) : Prop :=
  v_errs t = [] /\ stack_is t [] /\ exists W, heap_is t W (m_heap m) /\
  forall name i v, lookup name (e_scopes E) = Some (Global i) -> m_global m i = Some v ->
    exists j x, find_global name t = Some j /\ znth (v_static t) j = Some x /\ rep t W v x.

(** The same of a program that has failed. *)
Definition failed_with (t : vm) (E : env) (m : mem) : Prop :=
  has_errors t = true /\ exists W, heap_is t W (m_heap m) /\
  forall name i v, lookup name (e_scopes E) = Some (Global i) -> m_global m i = Some v ->
    exists j x, find_global name t = Some j /\ znth (v_static t) j = Some x /\ rep t W v x.

(** Between statements the compiler counts no values on the operand stack.  (It
    does after a script that uses is_finished: C62.) *)
Definition level (k : comp) : Prop := Forall (fun c => cc_off c = 0) (k_ctx k).

(** A value the host can have: one without objects, or what it finds in a global
    variable. *)
Definition held (t : vm) (E : env) (m : mem) (v : val) (x : value) : Prop :=
  rep t (fun _ => None) v x \/
  exists name i j, lookup name (e_scopes E) = Some (Global i) /\ m_global m i = Some v /\
    find_global name t = Some j /\ znth (v_static t) j = Some x.

Section Goes.
Variable hostmark : Z -> Z -> option Z -> list value.
Variable host : Z -> list value -> M value.
Context {HS : Hosts}.
(** The space there is: values on the operand stack, fields of an object. *)
Variables lim mf : Z.
(** [plenty t]: running the program in [t] does not exhaust what scripts cannot
    see, and the functions of the host do what [HS] says; [plenty_call]: the same
    of a call. *)
Variable plenty : vm -> Prop.
Variable plenty_call : value -> list value -> vm -> Prop.

(** [E]: the names the next script can use; [funs]: the functions defined so
    far, by number; [m]: globals and objects. *)
Fixpoint goes (evs : list event) (k : comp) (E : env) (funs : Z -> option fundef) (m : mem) : Prop :=
  match evs with
  | [] => True
  | Script text fname fuel :: r =>
    forall k1 u k2 toks vm', is_text text -> zlen text < W31 ->
    compile_script fuel text fname k = Ok (true, k1) -> partially_finalize k1 = Ok (u, k2) -> v_errs (k_vm k2) = [] ->
    tokenize text fname (k_vm k) = Ok (Some toks, vm') ->
    (* the script is a sequence of statements, which may use what is there *)
    exists l funs', toks = sstext l /\ swritten l /\ sdefined funs' E l /\
    (forall id fd, funs id = Some fd -> funs' id = Some fd) /\
    (plenty (k_vm k2) ->
      (* it does what it means, and so do the next steps after it *)
      (forall o m', exs funs' lim mf E 0 m l o m' ->
        o = Next /\ exists n t', execute hostmark host n (k_vm k2) = Ok (Some true, t') /\
        shows t' (afters l E) m' /\ goes r (set_k_vm t' k2) (afters l E) funs' m') /\
      (* or fails as it should *)
      (forall m', xfs funs' lim mf E 0 m l m' ->
        exists n t', execute hostmark host n (k_vm k2) = Ok (Some false, t') /\ failed_with t' (afters l E) m' /\
        (* then the host clears the errors, with the place where the next
           instruction went before the script, and goes on: with the globals and
           objects as they were when the script failed, and without the functions
           of the script *)
        (level k2 -> exists k3, clear_repl (k_w k) (set_k_vm t' k2) = Ok (tt, k3) /\
          shows (k_vm k3) (afters l E) m' /\ goes r k3 (afters l E) funs (set_locals [] m'))))
  | Call fv args :: r =>
    forall id fd vs o m' v, fv = mkV T_FUNC id -> is_u32 id -> funs id = Some fd -> zlen (fd_params fd) = zlen vs ->
    Forall2 (held (k_vm k) E m) vs args -> zlen vs + 3 <= lim -> plenty_call fv args (k_vm k) ->
    ex funs lim mf (fun_env fd) 1 (set_locals (map Some vs ++ [None; None]) m) (fd_body fd) o m' ->
    (o = Next /\ v = VInt 0 /\ spare lim (1 + zlen (m_local m')) \/ o = Returned v) ->
    exists n x t', call_function hostmark host n fv args (k_vm k) = Ok (Some (Some x), t') /\
      (exists W, heap_is t' W (m_heap m') /\ rep t' W v x) /\
      shows t' E m' /\ goes r (set_k_vm t' k) E funs (set_locals [] m')
  | Collect :: r =>
    (* fewer than 2^32 - 1 collections so far *)
    v_gcpass (k_vm k) < INVALID ->
    exists t', garbage_collect hostmark (k_vm k) = Ok (tt, t') /\
      (shows (k_vm k) E m -> shows t' E m) /\ goes r (set_k_vm t' k) E funs m
  | Assign name x :: r =>
    forall j v, find_global name (k_vm k) = Some j -> held (k_vm k) E m v x ->
    exists i st, lookup name (e_scopes E) = Some (Global i) /\ wr (v_static (k_vm k)) j x = Ok st /\
      let t' := set_static st (k_vm k) in
      shows t' E (write (Global i) v m) /\ goes r (set_k_vm t' k) E funs (write (Global i) v m)
  | Declare name x :: r =>
    forall p k1 st u k2 v, held (k_vm k) E m v x ->
    create_global name k = Ok (Some p, k1) -> wr (v_static (k_vm k1)) p x = Ok st ->
    partially_finalize (set_k_vm (set_static st (k_vm k1)) k1) = Ok (u, k2) -> v_errs (k_vm k2) = [] ->
    let E' := mkEnv [(name, Global p) :: outermost E] 0 (p + 1) in
    shows (k_vm k2) E' (write (Global p) v m) /\ goes r k2 E' funs (write (Global p) v m)
  | Function name cb :: r =>
    forall u1 k1 u2 k2, create_c_function name cb k = Ok (u1, k1) ->
    partially_finalize k1 = Ok (u2, k2) -> v_errs (k_vm k2) = [] ->
    let p := e_globals E + 1 in
    forall id, znth (v_static (k_vm k1)) p = Some (mkV T_FUNC id) -> is_u32 id ->
      let E' := mkEnv [(name, Global p) :: outermost E] 0 (p + 1) in
      shows (k_vm k2) E' (write (Global p) (VFun id) m) /\ goes r k2 E' funs (write (Global p) (VFun id) m)
  end.
End Goes.
