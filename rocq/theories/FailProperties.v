(** * FailProperties: C50, once something failed nothing happens any more

    "Modelled" bodies are arbitrary: the theorems quantify over everything an
    API function may do, over every host program, every nesting of API calls in
    callbacks, and every pattern of allocation failures. *)

From Coq Require Import ZArith List Bool.
From Verif Require Import FailModel FailSpec FailProofs.
Import ListNotations.
Open Scope Z_scope.

(** After a failure, every guarded API call returns its failure value and does
    nothing, whatever its body is, and whatever callbacks that body makes. *)
Theorem C50_inert : forall body f s,
  flag s = true ->
  exists s', api_call body f s = Value f s' /\
    trace s' = trace s /\ flag s' = true /\ jmp s' = jmp s /\ grants s' = grants s.
Proof.
  intros body f s F. unfold api_call, guard. cbn. rewrite F.
  eexists. split; [reflexivity|]. cbn. auto.
Qed.
Print Assumptions C50_inert.

(** A call during which something failed returns its failure value; and an API
    call always returns to its caller, with the caller's handler in place. *)
Theorem C50_reports_partial : forall body f s,
  vchecked body -> between s ->
  exists v s', api_call body f s = Value v s' /\ between s' /\ (flag s' = true -> v = f).
Proof.
  intros body f s C (J & F & Q).
  destruct (call_post body f s C (conj F Q)) as (v & s' & E & (F' & Q') & J' & V).
  - intros t Ht. congruence.
  - exists v, s'. repeat split; auto; try apply F'. congruence.
Qed.
Print Assumptions C50_reports_partial.

(** Whatever a host program does, with calls to the API nested in callbacks to
    any depth: it runs to its end (no jump to a handler that is not there), and
    after the first failure nothing happens to the virtual machine. *)
Theorem C50_stops_partial : forall program s,
  hchecked program -> between s ->
  exists v s', run_h program s = Value v s' /\ between s'.
Proof.
  intros p s C (J & F & Q).
  pose proof (proj2 runs p C s (conj F Q)) as X.
  assert (R : framed s) by (intros t Ht; congruence). specialize (X R).
  destruct (run_h p s) as [v s'| |]; cbn in X; try contradiction.
  destruct X as ((F' & Q') & J' & _). exists v, s'.
  repeat split; auto; try apply F'. congruence.
Qed.
Print Assumptions C50_stops_partial.

(** Without the check after a callback the claim is false.  The first program:
    the host's cleanup callback for an object, called by the garbage collector
    (/repo/src/nkobjs.c:155), calls an API function that runs out of memory;
    collection goes on and the call reports success.  The second: the machine
    itself calls a guarded API function (/repo/src/nkopcode.c:504) that runs
    out of memory, and carries on. *)
Definition fresh (g : list bool) : fstate := mkFS false None 0 g [].
Definition fails : vcode := VAlloc (VDo 7 (VRet 1)).

Theorem C50_cleanup_refuted : exists body f s,
  between s /\
  match api_call body f s with
  | Value v s' => flag s' = true /\ v <> f /\ ~ quiet (trace s')
  | _ => False
  end.
Proof.
  exists (VDo 1 (VCall false (HApi fails 0 HRet) (fun _ => VDo 2 (VRet 1)))), 0, (fresh [false]).
  split.
  - split; [reflexivity|]. split; [split; [discriminate|intros []]|].
    intros b a e E. destruct b; discriminate.
  - vm_compute. split; [reflexivity|]. split; [discriminate|].
    intros Q. apply (Q [Vm 1] [Vm 2] 2); [reflexivity|]. left. reflexivity.
Qed.
Print Assumptions C50_cleanup_refuted.

(** A host function calls back into the API three deep; the innermost call
    fails; the outermost returns its failure value, and a later call is inert. *)
Definition deep : vcode :=
  VDo 1 (VCall true (HApi (VCall true (HDo 5 (HApi fails (-3) (fun v => HDo v (HRet 0))))
                                 (fun _ => VDo 2 (VRet 2)))
                          (-2) (fun v => HDo v (HRet 0)))
               (fun _ => VDo 3 (VRet 3))).
Definition deep_host : hcode :=
  HApi deep (-1) (fun v => HDo v (HApi (VDo 9 (VRet 9)) (-9) (fun w => HDo w (HRet 0)))).

Example C50_deep_checked : hchecked deep_host /\ between (fresh [false]) /\ between (fresh []).
Proof.
  split.
  - unfold deep_host, deep, fails. repeat (constructor || intro).
  - split; (split; [reflexivity|]; split; [split; [discriminate|intros []]|];
      intros b a e E; destruct b; discriminate).
Qed.

Example C50_deep_fails :
  match run_h deep_host (fresh [false]) with
  | Value _ s => trace s = [Vm 1; Host 5; Failed; Host (-3); Failed; Host (-2); Failed; Host (-1); Host (-9)]
  | _ => False
  end.
Proof. vm_compute. reflexivity. Qed.

Example C50_deep_succeeds :
  match run_h deep_host (fresh []) with
  | Value _ s => trace s = [Vm 1; Host 5; Vm 7; Host 1; Vm 2; Host 2; Vm 3; Host 3; Vm 9; Host 9] /\ flag s = false
  | _ => False
  end.
Proof. vm_compute. auto. Qed.
