(** * ReplProperties: an interactive session survives errors (C72) *)

From Verif Require Import Base BaseFacts State MonadFacts TokenModel CsModel StackModel VmModel OpSpec OpProofs CallSpec VmSpec VmInv CoroProofs CoroProperties SaveModel SaveProperties.
From Verif Require Import ExprModel CompModel KFacts RunSpec RepSpec RunProperties VmProperties SessionSpec SessionProperties.
From Verif Require Import ReplModel ReplSpec ReplProofs.
From Coq Require Import ZArith List Lia Bool.
Import ListNotations.
Open Scope Z_scope.

Lemma clear_starts w k l : chain (v_ctxs (k_vm k)) (v_cur (k_vm k)) l -> 0 <= w < zlen (v_code (k_vm k)) ->
  exists k', clear_repl w k = Ok (tt, k') /\ starts_over w k k'.
Proof.
  intros Ch R. destruct (clear_run k w l Ch R) as (cs & E & Zc & H0 & Hd & Ho).
  eexists. split; [exact E|].
  assert (forall i, active (k_vm k) i -> In i l) as A1.
  { intros i (l' & Ch' & I). replace l with l'; [exact I|]. clear - Ch Ch'. revert l' Ch'. induction Ch as [c A B|i c p l N A B C IH Ni]; intros l' Ch'.
    - inversion Ch'; subst; [reflexivity|congruence].
    - inversion Ch'; subst; [congruence|]. f_equal. apply IH. congruence. }
  assert (forall i, In i l -> active (k_vm k) i) as A2 by (intros i I; exists l; auto).
  constructor; ks; vs; auto.
  - exists (set_c_ip w ctx_init). split; [exact H0|]. split; [exact StackProofs.stack_init_wf|reflexivity].
  - exists (set_c_ip w ctx_init). split; [exact H0|reflexivity].
  - apply znth_zupd_same. exact R.
  - intros i A N. exists ctx_init. split; [apply Hd; auto|]. repeat split.
  - apply zlen_zupd.
  - intros i N. apply znth_zupd_other. congruence.
Qed.
(** C72: for every machine, wherever the error occurred - in the main program, in
    a function, in a coroutine resumed by others - clearing with a place in the
    code is defined, makes the main program start over there, kills the
    coroutines that were active, and changes nothing else. *)
Theorem C72_clear w k : vm_ok (k_vm k) -> 0 <= w < zlen (v_code (k_vm k)) ->
  exists k', clear_repl w k = Ok (tt, k') /\ starts_over w k k'.
Proof. intros [b Wf] R. destruct (w_chain _ _ _ Wf) as (l & Ch & _). exact (clear_starts w k l Ch R). Qed.
Print Assumptions C72_clear.

(** A coroutine that was active when the error occurred cannot be resumed: the
    attempt is an error of its own, whatever else is on the stack. *)
Theorem C72_dead host w k k' co i st v t : vm_ok (k_vm k) -> 0 <= w < zlen (v_code (k_vm k)) ->
  clear_repl w k = Ok (tt, k') -> active (k_vm k) i -> coroutine (k_vm k) co i ->
  restacked (k_vm k') (st ++ [co; v]) t ->
  exists t', opcode host O_RESUME t = Ok (tt, t') /\ failed t st t' /\ v_cur t' = 0.
Proof.
  change (opcode host O_RESUME) with op_resume. intros V R E A Co Rs. destruct (C72_clear w k V R) as (k1 & E1 & S). rewrite E in E1. injection E1 as <-.
  destruct (coroutine_live _ _ _ V Co) as (N0 & _). destruct (so_dead _ _ _ S _ A N0) as (c & Hc & _ & _ & Sc). pose proof (so_cur _ _ _ S) as Cu. pose proof (so_rest_vm _ _ _ S) as Er.
  destruct Rs as (d & q & Hd & Wq & Cq & Et). rewrite Cu in Hd, Et.
  assert (stack_is t (st ++ [co; v])) as St.
  { exists (set_c_stack q d). rewrite Et. vs. rewrite Cu. split; [apply znth_zupd_same; eapply znth_some_range; exact Hd|]. split; [exact Wq|exact Cq]. }
  assert (coroutine t co i) as Co'.
  { destruct Co as (T & o & G & X & D). split; [exact T|]. exists o. rewrite Et. unfold get_obj in *. vs. rewrite Er. vs. auto. }
  assert (znth (v_ctxs t) i = Some (Some c)) as Hi by (rewrite Et; vs; rewrite znth_zupd_other by congruence; exact Hc).
  destruct (resume_enter t st co v i c St Co' Hi) as (t2 & Rt & Eq). rewrite Eq, Sc. change (CO_INVALID =? CO_INVALID) with true. cbv iota.
  destruct (rs_error _ _ _ _ (bs "Tried to resume an invalid coroutine.") Rt) as (s' & E2 & F). exists s'. split; [exact E2|]. split; [exact F|].
  destruct F as (e & c1 & k1 & H1 & W1 & C1 & ->). vs. rewrite Et. exact Cu.
Qed.
Print Assumptions C72_dead.

(** ** Cases *)

(** One turn of an interactive host: compile, run, and clear after an error.
    /repo/src/interp/main.c:364-402. *)
Definition cleared (w : Z) (k : comp) : comp := match clear_repl w k with Ok (_, k') => k' | Ub _ => k end.
Definition tried (text : bytes) (k : comp) : comp :=
  let k1 := compiled text k in
  if has_errors (k_vm k1) then k1 else let k2 := runnable k1 in set_k_vm (ran (k_vm k2)) k2.
Definition turn (text : bytes) (k : comp) : comp :=
  let k2 := tried text k in if has_errors (k_vm k2) then cleared (k_w k) k2 else k2.
Fixpoint turns (n : nat) (text : bytes) (k : comp) : comp := match n with O => k | S m => turns m text (turn text k) end.
Definition fails (text : bytes) (k : comp) : bool := has_errors (k_vm (tried text k)).

(** A division by zero: what was done before it stays done, and the next scripts
    do what they should. *)
Definition rp_1 : comp := turn (bs "var a = 1; function twice(n) { return n * 2; }") se_k0.
Definition rp_2 : comp := turn (bs "a = 2; var b = a / 0; a = 3;") rp_1.
Definition rp_3 : comp := turn (bs "var c = twice(a + 3);") rp_2.
Example C72_after_error :
  (fails (bs "var a = 1; function twice(n) { return n * 2; }") se_k0, fails (bs "a = 2; var b = a / 0; a = 3;") rp_1, fails (bs "var c = twice(a + 3);") rp_2,
   the (bs "a") rp_2, the (bs "c") rp_3, map cc_off (k_ctx rp_2)) = (false, true, false, vint 2, vint 10, [0]).
Proof. vm_compute. reflexivity. Qed.

(** A failing compilation. *)
Definition rp_4 : comp := turn (bs "var d = 4; d = ;") rp_3.
Definition rp_5 : comp := turn (bs "var e = a + c;") rp_4.
Example C72_after_rejection : (fails (bs "var d = 4; d = ;") rp_3, fails (bs "var e = a + c;") rp_4, the (bs "e") rp_5) = (true, false, vint 12).
Proof. vm_compute. reflexivity. Qed.

(** An error in a coroutine, two deep: both coroutines were active. *)
Definition rp_text6 : bytes := bs "function g() { var z = 1 / 0; } function h() { resume(p); } p = coroutine(g); q = coroutine(h); resume(q);".
Definition rp_5b : comp := turn (bs "var p; var q;") rp_5.
Definition rp_6t : comp := tried rp_text6 rp_5b.
Definition rp_6 : comp := turn rp_text6 rp_5b.
Example C72_in_coroutine :
  (has_errors (k_vm rp_6t), v_cur (k_vm rp_6t), map (fun o => match o with Some c => c_parent c | None => None end) (v_ctxs (k_vm rp_6t)),
   v_cur (k_vm rp_6), fails (bs "resume(q);") rp_6, fails (bs "var r = 1;") rp_6) = (true, 1, [None; Some 2; Some 0], 0, true, false).
Proof. vm_compute. reflexivity. Qed.
(** The hypotheses of the theorems, in a machine in which a coroutine runs. *)
Lemma so_maxstack w k k' : starts_over w k k' -> v_maxstack (k_vm k') = v_maxstack (k_vm k).
Proof. intro S. pose proof (f_equal v_maxstack (so_rest_vm _ _ _ S)) as M. vsin M. exact M. Qed.
Definition rp_co : comp := comp_init (co_at co_code 9).
Example C72_case : vm_ok (k_vm rp_co) /\ 0 <= 5 < zlen (v_code (k_vm rp_co)) /\ active (k_vm rp_co) 1 /\ coroutine (k_vm rp_co) (vobj 0) 1 /\
  (forall k', clear_repl 5 rp_co = Ok (tt, k') -> exists t, restacked (k_vm k') ([] ++ [vobj 0; vnil]) t).
Proof.
  assert (vm_ok (k_vm rp_co)) as V by exact (co_ok co_code 9 co_pow). assert (0 <= 5 < zlen (v_code (k_vm rp_co))) as R by (vm_compute; split; [discriminate|reflexivity]).
  split; [exact V|]. split; [exact R|]. split; [|split].
  - exists [1; 0]. split; [|left; reflexivity]. eapply (ch_cons _ 1 _ 0); [discriminate|vm_compute; reflexivity|vm_compute; reflexivity| |intros [Q|[]]; discriminate].
    eapply ch_root; vm_compute; reflexivity.
  - split; [reflexivity|]. eexists. vm_compute. repeat split.
  - intros k' E. destruct (C72_clear 5 rp_co V R) as (k1 & E1 & S). rewrite E in E1. injection E1 as <-. destruct (so_stack _ _ _ S) as (c & H & W & C).
    assert (v_maxstack (k_vm k') = v_maxstack (k_vm rp_co)) as M by exact (so_maxstack _ _ _ S).
    assert (1024 <= v_maxstack (k_vm rp_co)) as Q by (vm_compute; discriminate). rewrite <- M in Q. clear M E V R.
    assert (forall l, zlen l <= 2 -> CallSpec.fits (k_vm k') l) as Fi by (clear - Q; intros l Zl; unfold CallSpec.fits; lia).
    destruct (CallProofs.push_fits _ [] (vobj 0) 0 (k_vm k') (rs_start _ _ (so_stack _ _ _ S)) (Fi [vobj 0] ltac:(vm_compute; discriminate))) as (t1 & _ & R1).
    destruct (CallProofs.push_fits _ _ vnil _ _ R1 (Fi [vobj 0; vnil] ltac:(vm_compute; discriminate))) as (t2 & _ & R2). exists t2. eapply rs_restacked; exact R2.
Qed.

(** ** What does not survive *)

(** The functions of a script that fails are not undone and not kept: their names
    stay, but their code is overwritten by the next script.  Here [f] should
    return 5; the call neither returns that nor fails. *)
Definition rp_7 : comp := turn (bs "var a = 1; function f() { return 5; } var b = 1 / 0;") se_k0.
Definition rp_8 : comp := turn (bs "var c = a + 1; var d = 7; a = a + d; d = 8; c = c * 2;") rp_7.
Theorem C72_functions_refuted :
  ~ (forall text1 text2 k, fails text1 k = true -> let k' := turn text2 (turn text1 k) in
       find_global (bs "f") (k_vm k') <> None -> v_type (the (bs "f") k') = T_FUNC -> fails (bs "var y = f();") k' = true \/ the (bs "y") (turn (bs "var y = f();") k') = vint 5).
Proof.
  intro H. specialize (H (bs "var a = 1; function f() { return 5; } var b = 1 / 0;") (bs "var c = a + 1; var d = 7; a = a + d; d = 8; c = c * 2;") se_k0 ltac:(vm_compute; reflexivity)). cbv zeta in H.
  destruct H as [H|H]; [vm_compute; discriminate|vm_compute; reflexivity|vm_compute in H; discriminate|vm_compute in H; discriminate].
Qed.
Print Assumptions C72_functions_refuted.

(** Clearing does not reset the compiler's count of nested constructs, which a
    failing script leaves too high: after enough of them every script fails. *)
Theorem C72_wears_out_refuted :
  ~ (forall n bad good k, fails bad k = true -> fails good k = false -> fails good (turns n bad k) = false).
Proof. intro H. specialize (H 300%nat (bs "{ var a = ; }") (bs "var x = 1;") se_k0 ltac:(vm_compute; reflexivity) ltac:(vm_compute; reflexivity)). vm_compute in H. discriminate. Qed.
Print Assumptions C72_wears_out_refuted.

(** The main program is left marked as an invalid coroutine: a machine whose
    errors have been cleared refuses what it would have loaded before. *)
Definition loads (b : bytes) (k : comp) : bool := match load no_load no_subload b (k_vm k) with Ok (LDone _ _ t) => negb (has_errors t) | _ => false end.
Definition image (k : comp) : bytes := match save no_save no_sub (k_vm k) with Ok b => b | Ub _ => [] end.
Theorem C72_loads_refuted :
  ~ (forall b w k k', v_errs (k_vm k) = [] -> clear_repl w k = Ok (tt, k') -> loads b k = true -> loads b k' = true).
Proof.
  intro H. specialize (H (image (turn (bs "function f() { return 5; }") se_k0)) 0 se_k0 (cleared 0 se_k0) eq_refl).
  assert (loads (image (turn (bs "function f() { return 5; }") se_k0)) (cleared 0 se_k0) = true) as X.
  { apply H; [|vm_compute; reflexivity]. unfold cleared. destruct (C72_clear 0 se_k0) as (k' & E & _); [exact VmStep.vm_init_ok|vm_compute; split; [discriminate|reflexivity]|]. rewrite E. reflexivity. }
  vm_compute in X. discriminate.
Qed.
Print Assumptions C72_loads_refuted.
