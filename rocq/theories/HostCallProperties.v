(** * HostCallProperties: functions of a script called by the host (C62) *)

From Verif Require Import Base BaseFacts State MonadFacts StackModel VmModel OpSpec CallSpec OpProofs CallProofs TokenModel TokenSpec TokenProperties CsModel ExprModel CompModel ParseSpec
  VmSpec VmStep VmProperties RunSpec CodeRel RepSpec MachProofs SimProofs HostCallProofs RunProofs RunProperties.
From Coq Require Import ZArith List Lia Bool.
Import ListNotations.
Open Scope Z_scope.

Section Claims.
Variable hostmark : Z -> Z -> option Z -> list value.
Variable host : Z -> list value -> M value.

(** ** Functions of the script *)

Section Script.
Context {LT : Lits} {HS : Hosts}.

(** The host calls a function [fv] of the script with any arguments, in a
    machine with the memory [m] and anything on its operand stack: if running
    the body of the function is defined, then the call ends without an error
    and returns the function's value, the memory is changed as running the body
    says, and the operand stack, the position in the program, the code, the
    functions, the names of the globals and the limits are what they were; so
    is everything the next call needs ([resting]).  [enough]: as in C40, for the
    states the machine goes through in this call.

    Partial: as C40, no coroutines. *)
Theorem C62_call_partial funs lim mf t W L m ip fv id fd vs xs o m' v :
  resting funs lim mf t W L m -> implements host t -> ip_is t ip ->
  rep t W (VFun id) fv -> funs id = Some fd -> zlen (fd_params fd) = zlen vs -> Forall2 (rep t W) vs xs -> zlen L + zlen vs + 3 <= lim ->
  (forall t1 t', enter host fv xs t = Ok (tt, t1) -> steps hostmark host t1 t' -> enough t') ->
  ex funs lim mf (fun_env fd) (zlen L + 1) (set_locals (map Some vs ++ [None; None]) m) (fd_body fd) o m' ->
  (o = Next /\ v = VInt 0 /\ spare lim (zlen L + 1 + zlen (m_local m')) \/ o = Returned v) ->
  exists n x t' W', call_function hostmark host n fv xs t = Ok (Some (Some x), t') /\
    v_errs t' = [] /\ ip_is t' ip /\ frame t' = frame t /\ rep t' W' v x /\ resting funs lim mf t' W' L m'.
Proof. apply host_call. Qed.
End Script.

(** After a script has been compiled and run as in C40, its functions can be
    called, and the globals are found by name.

    Partial: as C40. *)
Theorem C62_after_script_partial {HS : Hosts} s k E text fname fuel k1 u k2 toks vm' :
  fresh s -> setup s k E -> is_text text -> zlen text < W31 ->
  compile_script fuel text fname k = Ok (true, k1) -> finalize k1 = Ok (u, k2) -> v_errs (k_vm k2) = [] ->
  tokenize text fname (k_vm k) = Ok (Some toks, vm') ->
  exists l funs, toks = sstext l /\ swritten l /\ sdefined funs E l /\
  forall lim mf st g0 o m', lim <= 65536 -> 2 * lim - 2 <= v_maxstack s -> mf < W32 -> mf <= v_maxfields s ->
    zlen st = zlen (v_static (k_vm k2)) -> (forall x, In x st -> exists v, rep (k_vm k2) nothing v x) ->
    globs (set_static st (k_vm k2)) nothing g0 ->
    (forall t, steps hostmark host (set_static st (k_vm k2)) t -> enough t) ->
    implements (LT := kept_of (k_vm k2)) host (set_static st (k_vm k2)) ->
    exs funs lim mf E 0 (mkMem g0 [] []) l o m' ->
    exists n t' W, execute hostmark host n (set_static st (k_vm k2)) = Ok (Some true, t') /\
      implements (LT := kept_of (k_vm k2)) host t' /\ resting (LT := kept_of (k_vm k2)) funs lim mf t' W [] m' /\
      forall t2 W2 L m2, frame t2 = frame t' -> resting (LT := kept_of (k_vm k2)) funs lim mf t2 W2 L m2 ->
        heap_is t2 W2 (m_heap m2) /\
        forall name i v, lookup name (e_scopes (afters l E)) = Some (Global i) -> m_global m2 i = Some v -> global_is t2 W2 name v.
Proof.
  intros F Su St Zt Hc Hf N Tk. destruct (setup_up _ _ _ F Su) as [R Ma (sc & Es & Ag)].
  destruct (run_script hostmark host _ _ _ _ _ _ _ _ _ _ Hc Hf N R Ma Es Ag (text_script _ St) Zt (fresh_wf _ F) (f_objs _ F) (f_cur _ F) (f_stack _ F) (f_ip _ F) (f_left _ F)) as (toks' & vm1 & Tk' & X).
  assert (live_ctx (k_vm k) (v_cur (k_vm k))) as Lc.
  { destruct (f_stack _ F) as (c & A & _). exists c. rewrite (machine_ctxs _ _ Ma), (machine_cur _ _ Ma). exact A. }
  pose proof (tokens_text _ _ _ _ _ Lc St Tk) as Tt.
  rewrite Tk in Tk'. injection Tk' as <- <-. destruct (X Tt) as (l & funs & A & B & C & Fg & Eg & Y). exists l, funs. split; [exact A|]. split; [exact B|]. split; [exact C|].
  intros lim mf st g0 o m' L1 L2 L3 L4 Zs Vs Gl Rm Im Ex. destruct (proj2 (Y lim mf st g0 L1 L2 L3 L4 Zs Vs Gl Rm Im) o m' Ex) as (-> & n & t' & Ru & Er & Ot & Sk' & W & Hw & Gm & Rt & _).
  exists n, t', W. split; [exact Ru|]. split; [eapply implements_frame; [exact Ot|exact Im]|]. split; [exact Rt|].
  intros t2 W2 L m2 F2 [_ _ _ _ _ (mm & ls & D & G & _)]. split; [exact (world_heap _ _ _ _ _ D)|].
  intros name i v Lk Gi. destruct (G _ _ Gi) as (Ri & x & Zx & Rx). exists i, x. split; [|auto]. rewrite Ot in F2.
  specialize (Fg name). rewrite Lk in Fg. unfold find_global in *. rewrite <- Fg. pose proof (f_equal v_globals F2) as Q1. pose proof (f_equal v_smask F2) as Q2. unfold frame in Q1, Q2. vsin Q1. vsin Q2. rewrite Q1, Q2. reflexivity.
Qed.

(** ** Other functions *)

Lemma call_pushes t l fv xs : stack_is t l -> CallSpec.fits t (l ++ call_frame fv xs) ->
  exists s4, moved t (l ++ call_frame fv xs) (INVALID - 1) s4 /\
    forall U (K : M U), (push fv ;;; push_all xs ;;; push_int (zlen xs) ;;; set_ip (INVALID - 1) ;;; K) t = K s4.
Proof.
  intros St F. pose proof (rs_start _ _ St) as R.
  assert (forall z, zlen z <= zlen (call_frame fv xs) -> CallSpec.fits t (l ++ z)) as Fz.
  { intros z Lz. revert F. unfold CallSpec.fits. rewrite !zlen_app. lia. }
  unfold call_frame in Fz. pose proof (zlen_nonneg xs) as Nx.
  destruct (push_fits t l fv _ t R) as (s1 & P1 & R1). { apply Fz. zl. lia. }
  destruct (push_all_fits t xs _ _ _ R1) as (s2 & P2 & n2 & R2). { rewrite <- app_assoc. apply Fz. cbn [app]. zl. lia. }
  destruct (push_fits t _ (vint (zlen xs)) _ s2 R2) as (s3 & P3 & R3). { rewrite <- !app_assoc. apply Fz. cbn [app]. lia. }
  assert ((((l ++ [fv]) ++ xs) ++ [vint (zlen xs)]) = l ++ call_frame fv xs) as Q by (unfold call_frame; rewrite <- !app_assoc; reflexivity). rewrite Q in R3.
  destruct (set_ip_run _ _ _ _ (INVALID - 1) R3) as (s4 & P4 & M4). exists s4. split; [exact M4|]. intros U K.
  rewrite (bind_run _ _ _ _ _ P1), (bind_run _ _ _ _ _ P2). unfold push_int. rewrite (bind_run _ _ _ _ _ P3), (bind_run _ _ _ _ _ P4). reflexivity.
Qed.

Lemma restacked_moved t l t' l' ip' t'' : restacked t l t' -> moved t' l' ip' t'' -> moved t l' ip' t''.
Proof.
  intros (c & k & Hc & Wk & Ck & ->) (c' & k' & Hc' & Wk' & Ck' & ->). pose proof (znth_some_range _ _ _ Hc) as Rg.
  vsin Hc'. rewrite znth_zupd_same in Hc' by exact Rg. injection Hc' as <-. exists c, k'. repeat (split; [assumption|]).
  vs. rewrite zupd_zupd. reflexivity.
Qed.

(** A host function the host calls this way gets the arguments; what it returns
    is returned, and the operand stack and the position in the program are what
    they were. *)
Theorem C62_host_function t l ip fv xs cb :
  stack_is t l -> ip_is t ip -> good_native t fv xs cb -> CallSpec.fits t (l ++ call_frame fv xs) ->
  exists t1, moved t (l ++ call_frame fv xs) (INVALID - 1) t1 /\
  forall r t2, host cb xs t1 = Ok (r, t2) -> stack_is t2 (l ++ call_frame fv xs) -> ip_is t2 (INVALID - 1) -> v_errs t2 = [] ->
    exists t', (forall n, call_function hostmark host n fv xs t = Ok (Some (Some r), t')) /\ moved t2 l ip t'.
Proof.
  intros St Ip Gn F. destruct (call_pushes t l fv xs St F) as (t1 & M1 & P). destruct (moved_stack _ _ _ _ M1) as [S1 I1]. pose proof (rs_start _ _ S1) as R1.
  exists t1. split; [exact M1|]. intros r t2 Ho S2 I2 N.
  assert (good_native t1 fv xs cb) as Gn1. { destruct M1 as (? & ? & _ & _ & _ & ->). exact Gn. }
  destruct (native_run host t1 l fv xs _ _ fv cb r t2 R1 Gn1 Ho S2) as (t3 & E3 & Rs).
  assert (v_type fv = T_FUNC) as Tf by (destruct Gn as (f & xf & [H _] & _); exact H).
  assert (op_call host t1 = Ok (tt, t3)) as P5.
  { rewrite (call_start host _ _ _ _ _ _ R1). rewrite (bind_run _ _ _ _ _ (resolve_end (Some fv) fv 10 _ _ (or_introl eq_refl) ltac:(rewrite Tf; discriminate))). exact E3. }
  assert (stack_is t3 (l ++ [r]) /\ ip_is t3 (INVALID - 1) /\ v_errs t3 = []) as (S3 & I3 & N3).
  { destruct Rs as (c & k & Hc & Wk & Ck & ->). pose proof (znth_some_range _ _ _ Hc) as Rg. destruct I2 as (c2 & Hc2 & Ic). rewrite Hc in Hc2. injection Hc2 as <-.
    split; [|split; [|exact N]]; eexists; vs; (split; [apply znth_zupd_same; exact Rg|]); auto. }
  destruct (set_ip_run _ _ _ _ (u32 (INVALID - 1 + 1)) (rs_start _ _ S3)) as (t4 & P7 & M4). destruct (moved_stack _ _ _ _ M4) as [S4 I4].
  destruct (pop_rs _ _ _ _ _ (rs_start _ _ S4)) as (t5 & P8 & R5). destruct (set_ip_run _ _ _ _ ip R5) as (t6 & P9 & M6).
  exists t6. split; [|exact (restacked_moved _ _ _ _ _ _ Rs (moved_moved _ _ _ _ _ _ _ M4 M6))].
  intro n. unfold call_function. rewrite Tf. change (T_FUNC =? T_FUNC) with true. cbn [negb]. cbv iota.
  rewrite (bind_run _ _ _ _ _ (cur_get_ip _ _ Ip)), P, (bind_run _ _ _ _ _ P5). unfold mbind at 1, self, gets. unfold has_errors. rewrite N3. cbv iota.
  rewrite (bind_run _ _ _ _ _ (cur_get_ip _ _ I3)), (bind_run _ _ _ _ _ P7).
  assert (call_loop hostmark host n t4 = Ok (true, t4)) as Lo.
  { destruct n; cbn [call_loop]; rewrite (bind_run _ _ _ _ _ (cur_get_ip _ _ I4)); reflexivity. }
  rewrite (bind_run _ _ _ _ _ Lo). cbv iota. rewrite (bind_run _ _ _ _ _ P8), (bind_run _ _ _ _ _ P9). reflexivity.
Qed.

(** A call that the machine rejects - of something that is not a function, of a
    function that does not exist, with a wrong number of arguments, or with
    arguments that are not of the types declared - reports an error, whatever
    the host functions are, and returns nothing.  (The arguments stay on the
    operand stack, and the position in the program is lost.) *)
Theorem C62_rejected t l fv xs : vm_ok t -> v_errs t = [] -> stack_is t l -> bad_call t fv xs -> CallSpec.fits t (l ++ call_frame fv xs) ->
  exists t', (forall n, call_function hostmark host n fv xs t = Ok (Some None, t')) /\
    (failed t l t' \/ exists t1, moved t (l ++ call_frame fv xs) (INVALID - 1) t1 /\ failed t1 (l ++ call_frame fv xs) t').
Proof.
  intros (b & Wf) N St B F. unfold call_function. destruct (Z.eqb_spec (v_type fv) T_FUNC) as [Tf|Nf]; cbn [negb]; cbv iota.
  - destruct St as (c & Hc & Wk & Ck). destruct (call_pushes t l fv xs (ex_intro _ c (conj Hc (conj Wk Ck))) F) as (t1 & M1 & P). destruct (moved_stack _ _ _ _ M1) as [S1 I1].
    pose proof (rs_start _ _ S1) as R1.
    assert (bad_call t1 fv xs) as B1. { destruct M1 as (? & ? & _ & _ & _ & ->). destruct B; [eapply bc_type|eapply bc_unknown|eapply bc_count|eapply bc_unregistered|eapply bc_null|eapply bc_native_count|eapply bc_native_type]; eauto. }
    destruct (bad_run t1 l fv xs _ _ fv R1 B1) as (t2 & E & Fd). { destruct M1 as (? & ? & _ & _ & _ & ->). exact (w_extfuncs _ _ _ Wf). }
    exists t2. split; [|right; eauto]. intro n. rewrite (bind_run _ _ _ _ _ (cur_get_ip _ (c_ip c) (ex_intro _ c (conj Hc eq_refl)))), P.
    assert (op_call host t1 = Ok (tt, t2)) as P5.
    { rewrite (call_start host _ _ _ _ _ _ R1). rewrite (bind_run _ _ _ _ _ (resolve_end (Some fv) fv 10 _ _ (or_introl eq_refl) ltac:(rewrite Tf; discriminate))). apply E. }
    rewrite (bind_run _ _ _ _ _ P5). unfold mbind at 1, self, gets.
    assert (has_errors t2 = true) as He. { destruct Fd as (e & c2 & k2 & _ & _ & _ & ->). unfold has_errors. vs. destruct (v_errs t1); reflexivity. }
    rewrite He. reflexivity.
  - destruct (rs_error _ _ _ _ (bs "Tried to call a non-function with nkiVmCallFunction.") (rs_start _ _ St)) as (t' & E & Fd).
    exists t'. split; [|left; exact Fd]. intro n. rewrite (bind_run _ _ _ _ _ E). reflexivity.
Qed.
End Claims.

Print Assumptions C62_call_partial.
Print Assumptions C62_after_script_partial.
Print Assumptions C62_host_function.
Print Assumptions C62_rejected.

(** ** Cases *)

(** [var c = 10; function add(n) { c = c + n; return c; }], run; then the host
    calls [add(5)] and [add(7)]. *)
Definition hc_text : bytes := bs "var c = 10; function add(n) { c = c + n; return c; }".
Definition hc_k1 : comp := match compile_script 1000 hc_text (bs "f") (comp_init vm_init) with Ok (_, k) => k | Ub _ => comp_init vm_init end.
Definition hc_k2 : comp := match finalize hc_k1 with Ok (_, k) => k | Ub _ => comp_init vm_init end.
Definition none : Z -> list value -> M value := fun _ _ => mub UbNull.
Definition hc_end : vm := match execute nomark none 2000 (k_vm hc_k2) with Ok (_, t) => t | Ub _ => vm_init end.
Definition after_call (fv : value) (xs : list value) (t : vm) : vm := match call_function nomark none 100 fv xs t with Ok (_, t') => t' | Ub _ => vm_init end.
Example C62_machine :
  let add := mkV T_FUNC 0 in
  let t1 := after_call add [vint 5] hc_end in let t2 := after_call add [vint 7] t1 in
  find_global (bs "add") hc_end = Some 1 /\ znth (v_static hc_end) 1 = Some add /\
  call_function nomark none 100 add [vint 5] hc_end = Ok (Some (Some (vint 15)), t1) /\ znth (v_static t1) 0 = Some (vint 15) /\
  call_function nomark none 100 add [vint 7] t1 = Ok (Some (Some (vint 22)), t2) /\ znth (v_static t2) 0 = Some (vint 22) /\ v_errs t2 = [].
Proof. vm_compute. repeat split. Qed.

(** With two arguments the call is rejected. *)
Example C62_rejected_case : v_errs hc_end = [] /\ bad_call hc_end (mkV T_FUNC 0) [vint 5; vint 6] /\
  CallSpec.fits hc_end ([] ++ call_frame (mkV T_FUNC 0) [vint 5; vint 6]) /\ has_errors (after_call (mkV T_FUNC 0) [vint 5; vint 6] hc_end) = true.
Proof.
  split; [vm_compute; reflexivity|]. split; [|split; [vm_compute; split; congruence|vm_compute; reflexivity]].
  eapply bc_count; [split; [reflexivity|vm_compute; reflexivity]|]. vm_compute. intros [H|H]; discriminate.
Qed.

(** The host function [dbl] of C40_host_function, called by the host. *)
Example C62_host_function_case :
  ip_is (k_vm hf_k2) 0 /\ good_native (k_vm hf_k2) (mkV T_FUNC 0) [vint 21] 7 /\ CallSpec.fits (k_vm hf_k2) ([] ++ call_frame (mkV T_FUNC 0) [vint 21]) /\
  match call_function nomark hf_host 0 (mkV T_FUNC 0) [vint 21] (k_vm hf_k2) with Ok (r, _) => r = Some (Some (vint 42)) | Ub _ => False end.
Proof.
  split; [eexists; split; vm_compute; reflexivity|]. split; [|split; [vm_compute; split; congruence|vm_compute; reflexivity]].
  eexists _, _. split; [split; [reflexivity|vm_compute; reflexivity]|]. split; [left; reflexivity|]. split; [discriminate|].
  split; [vm_compute; reflexivity|]. split; [reflexivity|]. split; [left; reflexivity|]. intro X. exfalso. apply X. reflexivity.
Qed.
