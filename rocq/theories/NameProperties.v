(** * NameProperties: names in scripts (C41) *)

From Verif Require Import Base BaseFacts State MonadFacts TokenModel TokenSpec TokenProperties OpSpec VmModel CsModel ExprModel CompModel KFacts ParseSpec StrProofs
  VmProperties RunSpec CodeRel EmitProofs DidProofs StmtProofs RunProofs RunProperties NameSpec NameProofs.
From Coq Require Import ZArith List Lia.
Import ListNotations.
Open Scope Z_scope.

(** A script that compiles without errors only mentions variables that have
    been declared, by the host or before in the text, in a scope around the
    place where they are mentioned; in a function, by itself or globally. *)
Theorem C41_declared s k E text fname fuel k1 toks vm' :
  fresh s -> setup s k E -> is_text text -> zlen text < W31 ->
  compile_script fuel text fname k = Ok (true, k1) -> v_errs (k_vm k1) = [] ->
  tokenize text fname (k_vm k) = Ok (Some toks, vm') ->
  exists l, toks = sstext l /\ swritten l /\ sresolved (map (map fst) (e_scopes E)) l.
Proof.
  intros F Su St Zt Hc N Tk. destruct (setup_up _ _ _ F Su) as [R Ma _].
  assert (live_ctx (k_vm k) (v_cur (k_vm k))) as Lc by (destruct (f_stack _ F) as (c & A & _); exists c; rewrite (machine_ctxs _ _ Ma), (machine_cur _ _ Ma); exact A).
  destruct (@script_inv (kept_of (k_vm k1)) _ _ _ _ _ _ Hc (kept_noerr _ N) R Lc (text_script _ St) Zt) as (_ & toks' & vm1 & Et & X).
  pose proof (tokens_text _ _ _ _ _ Lc St Tk) as Tt. rewrite Tk in Et. injection Et as <- <-.
  destruct (X Tt) as (l & F' & E1 & c' & s' & Tl & Wr & Df & Nd & K1 & C1 & Es1 & S1 & Sm & Ns & Mk).
  exists l. split; [exact Tl|]. split; [exact Wr|]. destruct (Mk (kmem k1) (mkAround (k_nstat k1) (assoc F'))) as [Sc Fn]; [reflexivity|cbn; lia|exact (assoc_table _ Nd)|].
  refine (proj1 (proj2 (code_names _ _ (assoc F') _)) E l (Df _ (assoc_table _ Nd)) _ _ E _ _ _ Sc Wr eq_refl).
  intros id fd A. destruct (Fn _ _ (assoc_in _ _ _ A)) as (f & _ & _ & _ & _ & Fc). eauto.
Qed.

Example C41_declared_case :
  fresh vm_init /\ setup vm_init (comp_init vm_init) ex_E /\ is_text ex_text /\ zlen ex_text < W31 /\
  compile_script 1000 ex_text (bs "f") (comp_init vm_init) = Ok (true, ex_k1) /\ v_errs (k_vm ex_k1) = [] /\
  tokenize ex_text (bs "f") (k_vm (comp_init vm_init)) = Ok (Some ex_toks, ex_vm).
Proof.
  destruct C40_case as (A & B & C & D & F & _ & _ & G & _). repeat (split; [assumption|]). split; [vm_compute; reflexivity|]. assumption.
Qed.

(** Whether a script compiles, and how many errors there are. *)
Definition compiles (s : bytes) : option (bool * Z) :=
  match compile_script 1000 s (bs "f") (comp_init vm_init) with
  | Ok (b, k1) => Some (b, zlen (v_errs (k_vm k1)))
  | Ub _ => None
  end.
(** The locals of the function around a function, and those of a closed block,
    are not found. *)
Example C41_outer_function : compiles (bs "function f(a) { function g(b) { return a; } }") = Some (true, 1).
Proof. vm_compute. reflexivity. Qed.
Example C41_outer_block : compiles (bs "{ var a = 1; function g(b) { return a; } }") = Some (true, 1).
Proof. vm_compute. reflexivity. Qed.
Example C41_closed_block : compiles (bs "{ var a = 1; } a;") = Some (true, 1).
Proof. vm_compute. reflexivity. Qed.
Example C41_expression : compiles (bs "var h = 1; { var a = 1; h = function(b) { return a; }; }") = Some (false, 1).
Proof. vm_compute. reflexivity. Qed.
Example C41_expression_own : compiles (bs "var c = 1; { c = function(b) { return b + c; }; }") = Some (true, 0).
Proof. vm_compute. reflexivity. Qed.
Example C41_own : compiles (bs "var c = 1; function g(b) { return b + c; }") = Some (true, 0).
Proof. vm_compute. reflexivity. Qed.

Print Assumptions C41_declared.
