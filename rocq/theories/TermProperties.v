(** * TermProperties: compiling any script terminates (C60)

    The compiler model carries a counter that bounds how deep its mutually
    recursive functions may go; running out of it is the outcome [Ub UbFuel].
    The C functions have no such counter.  Here: it never runs out once it
    exceeds eight times the length of the script, and then its value makes no
    difference, so the counter is only a way to write the functions down. *)

From Verif Require Import Base BaseFacts State MonadFacts TokenModel TokenSpec TokenProofs TokenProperties
  VmModel CsModel ExprModel CompModel KFacts ParseProofs TermProofs.
From Coq Require Import ZArith List Lia.
Import ListNotations.
Open Scope Z_scope.

(** ** A script has at most as many tokens as characters *)

Lemma raw_nonempty p rest : piece_at p rest -> (1 <= length (raw p))%nat.
Proof.
  inversion 1; subst; cbn [raw length app bs]; try lia.
  assert (N : Forall (fun q : Z * bytes => (1 <= length (snd q))%nat) operators).
  { repeat constructor. }
  rewrite Forall_forall in N. apply (N _ H0).
Qed.
Lemma tokens_len ps : lexes ps -> (length (tokens_of ps) <= length (raws ps))%nat.
Proof.
  induction ps as [ | p ps IH]; intros L; [cbn; lia | ]. destruct L as [H L]. specialize (IH L).
  apply raw_nonempty in H. cbn [raws]. rewrite app_length. destruct p; cbn [tokens_of length]; lia.
Qed.
Lemma joined_len l : (length (joined l) <= length l)%nat.
Proof.
  induction l as [ | [ty t] l IH]; [cbn; lia | ]. cbn [joined]. destruct (joined l) as [ | [ty2 t2] q]; [cbn; lia | ].
  destruct ((ty =? TK_STRING) && (ty2 =? TK_STRING)); cbn [length] in *; lia.
Qed.
Lemma token_count s fname vm toks vm' : live_ctx vm (v_cur vm) -> script s ->
  tokenize s fname vm = Ok (Some toks, vm') -> (length toks <= length s)%nat.
Proof.
  intros L Z E. destruct (C33_partition s fname vm toks vm' L Z E) as (ps & <- & HL & HM).
  assert (Q := f_equal (@length _) HM). rewrite map_length in Q. rewrite Q.
  etransitivity; [apply joined_len | apply tokens_len; exact HL].
Qed.

(** ** The theorems *)

Definition enough (text : bytes) (fuel : nat) : Prop := (8 * length text + 7 <= fuel)%nat.

(** Whatever the script, compiling it ends: with acceptance, rejection, or
    one of the other outcomes, but never for lack of steps. *)
Theorem C60_terminates text fname fuel k :
  live_ctx (k_vm k) (v_cur (k_vm k)) -> script text -> enough text fuel ->
  compile_script fuel text fname k <> Ub UbFuel.
Proof.
  unfold enough. intros L Z F. unfold compile_script, enter.
  destruct (push_recursion k) as [[b k1] | u] eqn:E.
  2:{ unfold kbind. rewrite E. intros H. injection H as ->. exact (proj1 (q_push_rec k) E). }
  rewrite (kbind_run _ _ _ _ _ E). destruct b; cbn [negb]; [ | discriminate].
  assert (V : k_vm k1 = k_vm k).
  { rewrite (push_rec_inv _ _ _ E eq_refl). reflexivity. }
  assert (K : forall m (f : option (list token) -> K bool) k2, 
    nfr (m (k_vm k2)) -> (forall o v, m (k_vm k2) = Ok (o, v) -> f o (set_k_vm v k2) <> Ub UbFuel) -> 
    kbind (kvm m) f k2 <> Ub UbFuel).
  { intros m f k2 N G. unfold kbind, kvm. unfold nfr in N. destruct (m (k_vm k2)) as [[o v] | u]; [apply G; reflexivity | congruence]. }
  apply K; [unfold nfr; rewrite V; apply C33_terminates; assumption | ].
  intros o v T. destruct o as [toks | ]; [ | apply (proj1 (q_give_up false _))].
  rewrite V in T. assert (C := token_count _ _ _ _ _ L Z T).
  match goal with |- kbind (kmod ?f) ?g ?a <> _ => change (g tt (f a) <> Ub UbFuel) end. cbv beta.
  clear K E T V. set (k2 := set_k_toks toks _).
  assert (N : length (k_toks k2) = length toks) by reflexivity. clearbody k2.
  match goal with |- ?m k2 <> _ => assert (Q : fin (length toks) m (fun _ _ => True)) end;
    [ | exact (proj1 (Q k2 N))].
  apply f_qbind; [apply q_gets | intros a]. apply f_qbind; [ | intros []].
  { destruct toks; apply q_mod; reflexivity. }
  assert (EB := compiler_ends fuel).
  eapply f_bind with (Q := fun _ _ => True).
  { unfold block. apply f_enter; [ | exact I]. cbn [negb].
    eapply f_weak; [apply (e_block _ _ EB); lia | intros; exact I]. }
  intros b n _ k3 _.
  assert (G : forall a, (kmod (set_k_toks []) ;~ kmod (set_k_pos 0 INVALID a) ;~ pop_recursion ;~ kret b) k3 <> Ub UbFuel).
  { intros a0. unfold kbind, kmod. intros H.
    destruct (pop_recursion _) as [[? ?] | u] eqn:X; [discriminate | ].
    injection H as ->. exact (proj1 (q_pop_rec _) X). }
  split; [apply G | intros; exact I].
Qed.
Print Assumptions C60_terminates.

Lemma same_block n m : (n <= m)%nat -> same (block (compiler n) true) (block (compiler m) true).
Proof. intros L. apply s_block'. apply compiler_same. exact L. Qed.

Lemma same_script n m text fname : (n <= m)%nat -> same (compile_script n text fname) (compile_script m text fname).
Proof.
  intros L. unfold compile_script. apply s_enter. apply s_bind; [apply s_refl | intros [toks | ]]; [ | apply s_refl].
  do 3 (apply s_bind; [apply s_refl | intros ?]). apply s_bind; [apply same_block; exact L | intros; apply s_refl].
Qed.

(** The number of steps allowed makes no difference once it is enough. *)
Theorem C60_same text fname n m k :
  live_ctx (k_vm k) (v_cur (k_vm k)) -> script text -> enough text n -> enough text m ->
  compile_script n text fname k = compile_script m text fname k.
Proof.
  intros L Z N M. destruct (Nat.le_ge_cases n m) as [H | H].
  - destruct (same_script n m text fname H k) as [E | E]; [ | symmetry; exact E].
    contradiction (C60_terminates text fname n k L Z N E).
  - destruct (same_script m n text fname H k) as [E | E]; [ | exact E].
    contradiction (C60_terminates text fname m k L Z M E).
Qed.
Print Assumptions C60_same.

(** A script whose parsing nests, in a fresh compiler: it meets the
    hypotheses and is accepted; with one closing parenthesis missing it is
    rejected. *)
Definition ex_text : bytes :=
  bs "function f(a) { if(a < 2) { return 1; } return a * f(a - 1); } var x = f(3) + (1 - (2 * 3));".
Definition ex_bad : bytes := bs "var x = (1 - (2 * 3);".

Example C60_ex : live_ctx (k_vm (comp_init vm_init)) (v_cur (k_vm (comp_init vm_init))) /\
  script ex_text /\ script ex_bad /\
  (match compile_script (8 * length ex_text + 7) ex_text (bs "f") (comp_init vm_init) with
   | Ok (true, _) => true | _ => false end = true) /\
  (match compile_script (8 * length ex_bad + 7) ex_bad (bs "f") (comp_init vm_init) with
   | Ok (false, k) => match v_errs (k_vm k) with [] => false | _ => true end | _ => false end = true).
Proof.
  repeat split; try (vm_compute; reflexivity).
  - eexists. vm_compute. reflexivity.
  - repeat constructor; discriminate.
  - repeat constructor; discriminate.
Qed.
