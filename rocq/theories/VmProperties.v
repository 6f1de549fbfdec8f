(** * VmProperties: memory safety of the interpreter (C18)

    The model stops with an undefined-behaviour outcome [Ub u] wherever the C
    code would index outside an array, follow a null or stale pointer, fail an
    assertion, divide by zero, read an uninitialised variable, overflow a
    signed integer or convert an out-of-range float.  [arith u] singles out
    the last two. *)
From Verif Require Import Base VmSpec VmStep HostModel HostProofs.

(** Executions of the interpreter loop: any number of iterations, each
    started without a pending error (as nkiVmExecuteProgram does) and before
    the 32-bit collection counter is exhausted. *)
Inductive runs (hostmark : Z -> Z -> option Z -> list value) (host : Z -> list value -> M value) : vm -> vm -> Prop :=
| runs_refl s : runs hostmark host s s
| runs_step s s1 s2 : runs hostmark host s s1 -> has_errors s1 = false -> v_gcpass s1 < INVALID ->
    iterate hostmark host s1 = Ok (tt, s2) -> runs hostmark host s s2.

(** A host whose functions talk to the VM only through the modelled API. *)
Definition api_host (hostmark : Z -> Z -> option Z -> list value) (prog : Z -> list value -> hostprog)
  : Z -> list value -> M value := fun cb args => run_host hostmark (prog cb args).

Lemma api_host_ok hostmark prog cb args : hoare (A true 0 [] []) (api_host hostmark prog cb args) (fun _ => okx 0).
Proof. apply run_host_safe. Qed.

(** Loading a program: any words, padded to a power of two as the compiler
    and the binary loader do. *)
Definition load_code (code : list Z) (s : vm) : vm := set_code code (set_cmask (zlen code - 1) s).

(** One instruction, whatever it is, whatever the host functions do. *)
Theorem C18_step_safe hostmark prog s :
  vm_ok s -> has_errors s = false -> v_gcpass s < INVALID ->
  match iterate hostmark (api_host hostmark prog) s with
  | Ok (_, s') => vm_ok s'
  | Ub u => u = UbSignedOverflow \/ u = UbFloatCast
  end.
Proof.
  intros H E G. pose proof (iterate_safe hostmark _ (api_host_ok hostmark prog) s H E G) as I.
  destruct (iterate hostmark (api_host hostmark prog) s) as [[x s']|u]; auto.
Qed.

(** Any number of instructions. *)
Theorem C18_run_safe hostmark prog s s' :
  vm_ok s -> runs hostmark (api_host hostmark prog) s s' ->
  vm_ok s' /\
  (has_errors s' = false -> v_gcpass s' < INVALID ->
   forall u, iterate hostmark (api_host hostmark prog) s' = Ub u -> u = UbSignedOverflow \/ u = UbFloatCast).
Proof.
  intros H R. assert (vm_ok s') as H'.
  { induction R; auto. specialize (IHR H). pose proof (C18_step_safe hostmark prog s1 IHR H0 H1) as I. rewrite H2 in I. auto. }
  split; auto. intros E G u Eu. pose proof (C18_step_safe hostmark prog s' H' E G) as I. rewrite Eu in I. auto.
Qed.

(** Any program: put arbitrary words in the code area of a well-formed VM.
    In particular (with [vm_init_ok]) of a freshly created one. *)
Theorem C18_any_program hostmark prog code s s' :
  vm_ok s -> pow2 (zlen code) ->
  runs hostmark (api_host hostmark prog) (load_code code s) s' ->
  vm_ok s' /\
  (has_errors s' = false -> v_gcpass s' < INVALID ->
   forall u, iterate hostmark (api_host hostmark prog) s' = Ub u -> u = UbSignedOverflow \/ u = UbFloatCast).
Proof.
  intros (b & W) P R. eapply C18_run_safe; [|exact R]. exists b. destruct W. split; auto. cbn. split; [lia|auto].
Qed.

Print Assumptions C18_step_safe.
Print Assumptions C18_run_safe.
Print Assumptions C18_any_program.

(** Non-vacuity: push two literals, divide, hit an unknown instruction word,
    call a non-function. *)
Definition nomark : Z -> Z -> option Z -> list value := fun _ _ _ => [].
Definition ex_prog : Z -> list value -> hostprog := fun _ _ => HObject (fun o => HAcquire o (HReturn o)).

(** Executing [n] iterations, checking the conditions of [runs] on the way. *)
Fixpoint run_n (hm : Z -> Z -> option Z -> list value) (h : Z -> list value -> M value) (n : nat) (s : vm) : option vm :=
  match n with
  | O => Some s
  | S k =>
    if has_errors s || negb (v_gcpass s <? INVALID) then None
    else match iterate hm h s with Ok (_, s') => run_n hm h k s' | Ub _ => None end
  end.

Lemma runs_trans hm h s s1 s2 : runs hm h s s1 -> runs hm h s1 s2 -> runs hm h s s2.
Proof. intros R1 R2. induction R2 as [|s1 t1 t2 R2 IH E G I]; auto. exact (runs_step _ _ _ _ _ (IH R1) E G I). Qed.

Lemma run_n_runs hm h n : forall s s', run_n hm h n s = Some s' -> runs hm h s s'.
Proof.
  induction n as [|n IH]; cbn [run_n]; intros s s' H.
  - injection H as <-. constructor.
  - destruct (has_errors s) eqn:E; [discriminate|]. destruct (Z.ltb_spec (v_gcpass s) INVALID); [|discriminate]. cbn in H.
    destruct (iterate hm h s) as [[[] s1]|u] eqn:I; [|discriminate]. eapply runs_trans; [|apply IH; exact H].
    eapply runs_step; [constructor|auto..].
Qed.

(** Hostile code: create an object, read the stack far out of range, jump
    back beyond the start of the code, and call the number 5. *)
Definition ex_code : list Z := [32; 7; 1000000; 13; 7; 5; 18; 63].
Example C18_example : exists s', runs nomark (api_host nomark ex_prog) (load_code ex_code vm_init) s' /\
  has_errors s' = true /\ vm_ok s'.
Proof.
  destruct (run_n nomark (api_host nomark ex_prog) 5 (load_code ex_code vm_init)) as [s'|] eqn:E; [|vm_compute in E; discriminate].
  exists s'. pose proof (run_n_runs _ _ _ _ _ E) as R. split; auto. split.
  - vm_compute in E. injection E as <-. reflexivity.
  - eapply C18_any_program; [apply vm_init_ok| |exact R]. exists 3. split; [lia|reflexivity].
Qed.
(* signed overflow is really reachable: 2147483647 + 1 *)
Example C18_overflow_reachable : exists s', runs nomark (api_host nomark ex_prog) (load_code [7; 2147483647; 7; 1; 1; 0; 0; 0] vm_init) s' /\
  iterate nomark (api_host nomark ex_prog) s' = Ub UbSignedOverflow.
Proof.
  destruct (run_n nomark (api_host nomark ex_prog) 2 (load_code [7; 2147483647; 7; 1; 1; 0; 0; 0] vm_init)) as [s'|] eqn:E; [|vm_compute in E; discriminate].
  exists s'. split; [eapply run_n_runs; exact E|]. vm_compute in E. injection E as <-. vm_compute. reflexivity.
Qed.
