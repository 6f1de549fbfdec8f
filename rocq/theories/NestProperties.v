(** * NestProperties: what uses up the recursion limit (C39) *)

From Verif Require Import Base BaseFacts State MonadFacts TokenModel TokenSpec TokenProofs TokenProperties VmModel CsModel ExprModel CompModel KFacts
  ParseSpec ParseProofs EmitProofs DidProofs StmtProofs NestSpec NestProofs.
From Verif Require RunProofs RunProperties.
From Coq Require Import ZArith List Lia.
Import ListNotations.
Open Scope Z_scope.

Lemma indexes_adj l : indexes l -> adj l /\ hok l.
Proof. intros [A B]. split; [exact B|exact A]. Qed.

(** A statement that compiles without errors leaves the recursion count where
    it was, except that each declaration and each return statement in it may
    add one.  Missing: functions without a name, and brackets that index
    nothing a name could stand for; and the other direction, that what is
    rejected for the limit is nested deeply. *)
Theorem C39_statement_partial fuel k k' :
  r_stmt (compiler fuel) k = Ok (true, k') -> v_errs (k_vm k') = [] ->
  noanon (k_toks k) -> indexes (k_toks k) ->
  exists read, k_toks k = read ++ k_toks k' /\ k_rec k <= k_rec k' <= k_rec k + leaks read.
Proof.
  intros H N A I. destruct (indexes_adj _ I) as [J K]. destruct (proj2 (proj1 (@compiler_bal (RunProofs.kept_of (k_vm k')) fuel)) _ _ H (RunProofs.kept_noerr _ N) (conj A J) (fun _ => K)) as [(p & T & R) _].
  exists p. split; [exact T|lia].
Qed.

(** The same for a whole script.  So a script without declarations and returns,
    however long, leaves the compiler able to nest as deeply as before. *)
Theorem C39_script_partial fuel text fname k k' toks s :
  compile_script fuel text fname k = Ok (true, k') -> v_errs (k_vm k') = [] ->
  tokenize text fname (k_vm k) = Ok (Some toks, s) -> noanon toks -> indexes toks ->
  k_rec k <= k_rec k' <= k_rec k + leaks toks.
Proof.
  intros H N Tk A I. pose proof (RunProofs.kept_noerr _ N) as N'. destruct (indexes_adj _ I) as [J K]. unfold compile_script in H. apply enter_inv in H; [|discriminate]. kb H. apply kvm_inv in E. destruct E as (s0 & Et & ->). ksin Et.
  change (k_vm (set_k_rec (k_rec k + 1) k)) with (k_vm k) in Et. rewrite Tk in Et. injection Et as <- <-.
  kb H. injection E as _ <-. kb H. injection E as <- <-. kb H. kb H. kb H. injection E1 as <- <-. kb H. injection E1 as _ <-. kb H. injection E1 as _ <-.
  kb H. apply pop_rec_inv in E1. injection H as -> <-. subst.
  match type of E with _ = Ok (_, ?j) => assert (k_toks j = toks /\ k_rec j = k_rec k + 1) as [T R] by (destruct toks; injection E as _ <-; split; reflexivity) end.
  match type of N' with @noerr ?L _ => pose proof (@b_block L _ (proj1 (proj2 (proj2 (@compiler_bal L fuel)))) true) as B end.
  destruct (proj2 B _ _ E0 N') as [(p & T2 & R2) _]; [split; rewrite T; assumption|intros _; unfold stt; rewrite T; exact K|].
  ks. rewrite T in T2. rewrite T2, leaks_app. pose proof (leaks_nonneg (k_toks k1)). lia.
Qed.

(** A host that keeps one compiler and gives it script after script. *)
Inductive series : comp -> list (list token) -> comp -> Prop :=
| s_none k : series k [] k
| s_more k fuel text fname toks s k1 l k2 :
    tokenize text fname (k_vm k) = Ok (Some toks, s) -> noanon toks -> indexes toks ->
    compile_script fuel text fname k = Ok (true, k1) -> v_errs (k_vm k1) = [] ->
    series k1 l k2 -> series k (toks :: l) k2.

Theorem C39_series_partial k l k' : series k l k' -> k_rec k <= k_rec k' <= k_rec k + leaks (concat l).
Proof.
  induction 1 as [k|k fuel text fname toks s k1 l k2 T A I C N S IH]; [cbn; lia|].
  pose proof (C39_script_partial _ _ _ _ _ _ _ C N T A I). cbn [concat]. rewrite leaks_app. lia.
Qed.

(** ** Cases *)

Definition times (n : nat) (s : bytes) : bytes := concat (repeat s n).
(** Whether a script compiles, and the errors. *)
Definition verdict (s : bytes) : option (bool * list bytes) :=
  match compile_script 5000 s [] (comp_init vm_init) with
  | Ok (b, k1) => Some (b, v_errs (k_vm k1))
  | Ub _ => None
  end.

(** The number of statements is not limited ... *)
Example C39_many : verdict (bs "var a;" ++ times 300 (bs "{a=1;}")) = Some (true, []).
Proof. vm_compute. reflexivity. Qed.
(** ... but the number of declarations is, although none of these is inside
    another. *)
Theorem C39_declarations_refuted :
  verdict (times 100 (bs "{var a;}")) = Some (true, []) /\
  exists e, verdict (times 300 (bs "{var a;}")) = Some (false, [e]).
Proof. split; [vm_compute; reflexivity|]. eexists. vm_compute. reflexivity. Qed.
(** Neither is a long sum nested, but it is rejected. *)
Theorem C39_sum_refuted :
  verdict (bs "var a; a = 1" ++ times 100 (bs "+1") ++ bs ";") = Some (true, []) /\
  exists e, verdict (bs "var a; a = 1" ++ times 300 (bs "+1") ++ bs ";") = Some (false, e).
Proof. split; [vm_compute; reflexivity|]. eexists. vm_compute. reflexivity. Qed.
(** The reason for asking that brackets index something. *)
Theorem C39_brackets_refuted :
  verdict (times 50 (bs "[=1;")) = Some (true, []) /\
  exists e, verdict (times 300 (bs "[=1;")) = Some (false, e).
Proof. split; [vm_compute; reflexivity|]. eexists. vm_compute. reflexivity. Qed.

(** A script that meets the conditions above. *)
Definition nest_text : bytes := bs "var a = 1; function f(x) { if (x) { return a[x]; } a = f(x - 1); } { a[1][2] = 3; while (a) a--; }".
Definition nest_toks : list token := match tokenize nest_text [] vm_init with Ok (Some l, _) => l | _ => [] end.
Fixpoint pairs (l : list token) : bool :=
  match l with
  | a :: (b :: _) as r => (if tk_type b =? TK_BRACKET_OPEN then existsb (Z.eqb (tk_type a)) [TK_IDENTIFIER; TK_STRING; TK_BRACKET_CLOSE] else true) && pairs r
  | _ => true
  end.
Lemma pairs_ok p a b q : pairs (p ++ a :: b :: q) = true -> tk_type b = TK_BRACKET_OPEN -> In (tk_type a) [TK_IDENTIFIER; TK_STRING; TK_BRACKET_CLOSE].
Proof.
  intros H T. induction p as [|c p IH].
  - cbn [app pairs] in H. rewrite T, Z.eqb_refl in H. apply andb_prop in H. destruct H as [H _]. apply existsb_exists in H. destruct H as (x & I & E). apply Z.eqb_eq in E. rewrite E. exact I.
  - apply IH. destruct p; cbn [app pairs] in H |- *; apply andb_prop in H; apply H.
Qed.
Example C39_case : exists k' s,
  compile_script 1000 nest_text [] (comp_init vm_init) = Ok (true, k') /\ v_errs (k_vm k') = [] /\
  tokenize nest_text [] (k_vm (comp_init vm_init)) = Ok (Some nest_toks, s) /\ noanon nest_toks /\ indexes nest_toks /\ leaks nest_toks = 2 /\ k_rec k' = 2.
Proof.
  do 2 eexists. split; [vm_compute; reflexivity|]. split; [reflexivity|]. split; [vm_compute; reflexivity|]. split.
  { apply RunProperties.named_noanon; vm_compute; reflexivity. }
  split. { split; [vm_compute; discriminate|]. intros p a b q E. apply (pairs_ok p a b q). rewrite <- E. vm_compute. reflexivity. }
  split; vm_compute; reflexivity.
Qed.

Print Assumptions C39_statement_partial.
Print Assumptions C39_script_partial.
Print Assumptions C39_series_partial.
Print Assumptions C39_declarations_refuted.
Print Assumptions C39_sum_refuted.
Print Assumptions C39_brackets_refuted.
