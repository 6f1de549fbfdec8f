(** * LeaveSpec: what compiling must not touch (C73)

    The compiler works in the machine the program lives in: it writes into the
    same code, function table, string table and global storage.  [w] is where
    the code of the scripts compiled so far ends. *)

From Verif Require Import Base State TableProofs StrModel StrSpec StackModel ExprModel CompModel ReplModel TokenProperties.
From Coq Require Import ZArith List.
Import ListNotations.
Open Scope Z_scope.

(** What a program finds, apart from where it is in its execution: in [s'] as in
    [s]. *)
Record kept (w : Z) (s s' : vm) : Prop := {
  (* variables, strings, functions and code there were are still there *)
  kp_static : forall i v, znth (v_static s) i = Some v -> znth (v_static s') i = Some v;
  kp_strings : forall i t, get_str s i = Some t -> get_str s' i = Some t;
  kp_funcs : forall i f, znth (v_funcs s) i = Some f -> znth (v_funcs s') i = Some f;
  kp_code : forall i, i < w -> znth (v_code s') i = znth (v_code s) i;
  (* as the machine reads it, through a mask that may have changed *)
  kp_fetch : forall i, 0 <= i < w -> znth (v_code s') (Z.land i (v_cmask s')) = znth (v_code s) (Z.land i (v_cmask s));
  (* source positions of earlier code *)
  kp_files : exists f, v_files s' = v_files s ++ f;
  kp_markers : exists m, v_markers s' = v_markers s ++ m;
  (* objects with their handles and host data, host functions and types *)
  kp_objs : v_objs s' = v_objs s;
  kp_handles : v_hlist s' = v_hlist s;
  kp_extfuncs : v_extfuncs s' = v_extfuncs s;
  kp_exttypes : v_exttypes s' = v_exttypes s;
  kp_corotype : v_corotype s' = v_corotype s;
  kp_subsys : v_subsys s' = v_subsys s;
  kp_cleanups : v_cleanups s' = v_cleanups s;
  (* the host's view of global names, limits and the collector's settings *)
  kp_names : v_globals s' = v_globals s;
  kp_maxstack : v_maxstack s' = v_maxstack s;
  kp_maxfields : v_maxfields s' = v_maxfields s;
  kp_left : v_left s' = v_left s;
  kp_gc : (v_gcpass s', v_gcint s', v_gccount s', v_newint s', v_newcount s') = (v_gcpass s, v_gcint s, v_gccount s, v_newint s, v_newcount s)
}.

(** The program does not move either: every execution context (stack,
    instruction pointer, state) is the same, and errors are only added. *)
Record undisturbed (w : Z) (s s' : vm) : Prop := {
  ud_kept : kept w s s';
  ud_ctxs : v_ctxs s' = v_ctxs s;
  ud_cur : v_cur s' = v_cur s;
  ud_errs : exists e, v_errs s' = v_errs s ++ e
}.

(** A compiler between two scripts: the code array is as the machine expects it
    and the next word has a place in it; only the global scope is open and no
    break statement waits in it; the string table is in order. *)
Record idle (k : comp) : Prop := {
  id_pow : pow2 (zlen (v_code (k_vm k)));
  id_mask : v_cmask (k_vm k) = zlen (v_code (k_vm k)) - 1;
  id_w : 0 <= k_w k < zlen (v_code (k_vm k));
  id_scope : exists c, k_ctx k = [c] /\ cc_loop c = false /\ cc_fix c = [];
  id_strs : tab_wf (v_strs (k_vm k));
  id_live : exists c, znth (v_ctxs (k_vm k)) (v_cur (k_vm k)) = Some (Some c)
}.

(** Any number of scripts one after the other, each accepted or not. *)
Inductive compiles : list (bytes * bytes) -> comp -> comp -> Prop :=
| cs_none k : compiles [] k k
| cs_one text fname l fuel b k k1 k2 : script text -> compile_script fuel text fname k = Ok (b, k1) -> compiles l k1 k2 ->
    compiles ((text, fname) :: l) k k2.

(** Making what was compiled so far runnable: the program ends where the next
    script will be written, the host finds the variables of the global scope by
    name, nothing else changes. *)
Record made_runnable (k k2 : comp) : Prop := {
  mr_next : k_w k2 = k_w k;
  mr_end : znth (v_code (k_vm k2)) (Z.land (k_w k) (v_cmask (k_vm k2))) = Some OP_END;
  mr_names : forall c, k_ctx k = [c] -> v_globals (k_vm k2) = map (fun v => (cv_pos v, cv_name v)) (cc_vars c);
  mr_rest : undisturbed (k_w k) (set_globals (v_globals (k_vm k2)) (k_vm k)) (k_vm k2);
  mr_errs : v_errs (k_vm k2) = v_errs (k_vm k);
  mr_idle : idle k2
}.

(** An interactive host: scripts that are compiled, accepted or not, and scripts
    that are dropped by clearing the error state with the place where they
    began; in between, what there is may be made runnable. *)
Inductive turns : comp -> comp -> Prop :=
| tn_none k : turns k k
| tn_compiled text fname fuel b k k1 k2 : script text -> compile_script fuel text fname k = Ok (b, k1) -> turns k1 k2 -> turns k k2
| tn_dropped text fname fuel b k k1 k2 k3 : script text -> compile_script fuel text fname k = Ok (b, k1) ->
    clear_repl (k_w k) k1 = Ok (tt, k2) -> turns k2 k3 -> turns k k3
| tn_runnable u k k1 k2 : zlen (v_code (k_vm k)) <= 2 ^ 30 -> partially_finalize k = Ok (u, k1) -> turns k1 k2 -> turns k k2.

(** As [kept], but the host's view of global names may have been brought up to
    date. *)
Definition kept_but_names (w : Z) (s s' : vm) : Prop := kept w (set_globals (v_globals s') s) s'.

(** What finishing a program leaves: no error, in particular none about scopes
    left open; code below the end as it was; the end of the program behind it,
    with at most the three words before it that drop the values of variables
    declared outside the global storage. *)
Record finished (k k2 : comp) : Prop := {
  fi_errs : v_errs (k_vm k2) = v_errs (k_vm k);
  fi_code : forall i, i < k_w k -> znth (v_code (k_vm k2)) i = znth (v_code (k_vm k)) i;
  fi_names : forall c, k_ctx k = [c] -> v_globals (k_vm k2) = map (fun v => (cv_pos v, cv_name v)) (cc_vars c);
  fi_closed : k_ctx k2 = [];
  fi_last : znth (v_code (k_vm k2)) (k_w k2 - 1) = Some OP_END;
  fi_end : (k_w k2 = k_w k + 1) \/
    exists n, n <> 0 /\ k_w k2 = k_w k + 4 /\ znth (v_code (k_vm k2)) (k_w k) = Some OP_LIT_INT /\ znth (v_code (k_vm k2)) (k_w k + 1) = Some (u32 n) /\ znth (v_code (k_vm k2)) (k_w k + 2) = Some OP_POPN
}.
