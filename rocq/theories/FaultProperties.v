(** * FaultProperties: what is left when a script fails (C65) *)

From Verif Require Import Base BaseFacts State MonadFacts TableModel TableProofs StrModel StrSpec StrProofs ObjsModel ObjsSpec ObjsProofs ValueModel TokenModel TokenSpec TokenProofs TokenProperties OpSpec StackModel VmModel RegModel
  VmSpec CsModel ExprModel CompModel KFacts ParseSpec ParseProofs TermProperties ParseProperties RunSpec RepSpec HeapProofs CodeRel ExecProofs EmitProofs DidProofs StmtProofs MachProofs UseProofs SimProofs FaultSpec RunProofs RunProperties.
From Verif Require Import VmProperties.
From Verif Require FaultProofs.
From Coq Require Import ZArith List Lia Bool.
Import ListNotations.
Open Scope Z_scope.

Section Claims.
Variable hostmark : Z -> Z -> option Z -> list value.
Variable host : Z -> list value -> M value.
Context {HS : Hosts}.

(** A run has one outcome, however much fuel the model is given. *)
Lemma execute_one n : forall s r t m r' t', execute hostmark host n s = Ok (Some r, t) -> execute hostmark host m s = Ok (Some r', t') -> r' = r /\ t' = t.
Proof.
  induction n as [|n IH]; intros s r t m r' t' X Y; destruct m as [|m]; cbn [execute] in X, Y;
    apply bind_inv in X; destruct X as (w & s1 & Fe & X); rewrite (bind_run _ _ _ _ _ Fe) in Y;
    destruct (w =? VmModel.OP_END); try (injection X as <- <-; injection Y as <- <-; auto; fail); try discriminate.
  apply bind_inv in X. destruct X as (v & s2 & It & X). rewrite (bind_run _ _ _ _ _ It) in Y.
  unfold mbind at 1, self, gets in X. unfold mbind at 1, self, gets in Y.
  destruct (has_errors s2); [injection X as <- <-; injection Y as <- <-; auto|]. exact (IH _ _ _ _ _ _ X Y).
Qed.

(** As in C40: compile a script without errors in a fresh virtual machine,
    after the host has declared whatever it likes.  The script is a sequence of
    statements [l].  If running [l] fails according to the rules of FaultSpec,
    [m'] being the memory when it does, then executing the program stops with
    an error.  Everything the script did before is there and nothing that comes
    after: every global contains what it contains in [m'], and so do the fields
    of every object that can be reached.  The program itself, its functions and
    the names of its globals are as they were ([frame]), so the host can still
    look at them.  And no other outcome is possible: the same program cannot
    end normally, whatever fuel the model is given.

    Partial: of the ways to fail, those of FaultSpec: the operators (division
    and remainder by zero, operands of the wrong types), fields of something
    that is no object, [len] of something that is no object, calls of something
    that is no function and calls with a wrong number of arguments, functions
    as conditions, counting something that is no number ([x++], [o.f--]), host
    functions that report an error, anywhere in expressions, conditions, loops,
    blocks, functions and methods.  Not: a failure inside the object or the key
    of [a[b]++], using the value of [x++] when [x] is a string, wrong arguments
    to a host function, stack overflow, too many fields, too many
    instructions. *)
Theorem C65_scripts_partial s k E text fname fuel k1 u k2 toks vm' :
  fresh s -> setup s k E -> is_text text -> zlen text < W31 ->
  compile_script fuel text fname k = Ok (true, k1) -> finalize k1 = Ok (u, k2) -> v_errs (k_vm k2) = [] ->
  tokenize text fname (k_vm k) = Ok (Some toks, vm') ->
  exists l funs, toks = sstext l /\ swritten l /\ sdefined funs E l /\
  forall lim mf st g0 m', lim <= 65536 -> 2 * lim - 2 <= v_maxstack s -> mf < W32 -> mf <= v_maxfields s ->
    zlen st = zlen (v_static (k_vm k2)) -> (forall x, In x st -> exists v, rep (k_vm k2) nothing v x) ->
    globs (set_static st (k_vm k2)) nothing g0 ->
    (forall t, steps hostmark host (set_static st (k_vm k2)) t -> enough t) ->
    implements (LT := kept_of (k_vm k2)) host (set_static st (k_vm k2)) ->
    xfs funs lim mf E 0 (mkMem g0 [] []) l m' ->
    exists n t', execute hostmark host n (set_static st (k_vm k2)) = Ok (Some false, t') /\
      v_errs t' <> [] /\ frame t' = set_errs (v_errs t') (frame (k_vm k2)) /\
      (exists W, heap_is t' W (m_heap m') /\
       forall name i v, lookup name (e_scopes (afters l E)) = Some (Global i) -> m_global m' i = Some v ->
         global_is t' W name v) /\
      (forall n2 t2, execute hostmark host n2 (set_static st (k_vm k2)) <> Ok (Some true, t2)).
Proof.
  intros F Su St Zt Hc Hf N Tk. destruct (setup_up _ _ _ F Su) as [R Ma (sc & Es & Ag)].
  destruct (run_script hostmark host _ _ _ _ _ _ _ _ _ _ Hc Hf N R Ma Es Ag (text_script _ St) Zt (fresh_wf _ F) (f_objs _ F) (f_cur _ F) (f_stack _ F) (f_ip _ F) (f_left _ F)) as (toks' & vm1 & Tk' & X).
  assert (live_ctx (k_vm k) (v_cur (k_vm k))) as Lc.
  { destruct (f_stack _ F) as (c & A & _). exists c. rewrite (machine_ctxs _ _ Ma), (machine_cur _ _ Ma). exact A. }
  pose proof (tokens_text _ _ _ _ _ Lc St Tk) as Tt.
  rewrite Tk in Tk'. injection Tk' as <- <-. destruct (X Tt) as (l & funs & A & B & C & Fg & Eg & Y). exists l, funs. split; [exact A|]. split; [exact B|]. split; [exact C|].
  intros lim mf st g0 m' L1 L2 L3 L4 Zs Vs Gl Rm Im Ex. destruct (proj1 (Y lim mf st g0 L1 L2 L3 L4 Zs Vs Gl Rm Im) m' Ex) as (n & t' & Ru & Er & Ot & W & Hw & Gm).
  exists n, t'. split; [exact Ru|]. split; [unfold has_errors in Er; destruct (v_errs t'); [discriminate|discriminate]|]. split; [exact Ot|]. split.
  - exists W. split; [exact Hw|]. intros name i v Lk Gi. destruct (Gm _ _ Gi) as (Ri & x & Zx & Rx). exists i, x. split; [|auto].
    specialize (Fg name). rewrite Lk in Fg. unfold find_global in *. rewrite <- Fg. pose proof (f_equal v_globals Ot) as Q1. pose proof (f_equal v_smask Ot) as Q2. unfold frame in Q1, Q2. vsin Q1. vsin Q2. rewrite Q1, Q2. reflexivity.
  - intros n2 t2 R2. destruct (execute_one _ _ _ _ _ _ _ Ru R2). discriminate.
Qed.

(** The rules of C40 and those of C65 never speak about the same script: when
    running it fails, running it is not defined, and the other way round. *)
Theorem C65_not_both s k E text fname fuel k1 u k2 toks vm' :
  fresh s -> setup s k E -> is_text text -> zlen text < W31 ->
  compile_script fuel text fname k = Ok (true, k1) -> finalize k1 = Ok (u, k2) -> v_errs (k_vm k2) = [] ->
  tokenize text fname (k_vm k) = Ok (Some toks, vm') ->
  exists l funs, toks = sstext l /\ swritten l /\ sdefined funs E l /\
  forall lim mf st g0, lim <= 65536 -> 2 * lim - 2 <= v_maxstack s -> mf < W32 -> mf <= v_maxfields s ->
    zlen st = zlen (v_static (k_vm k2)) -> (forall x, In x st -> exists v, rep (k_vm k2) nothing v x) ->
    globs (set_static st (k_vm k2)) nothing g0 ->
    (forall t, steps hostmark host (set_static st (k_vm k2)) t -> enough t) ->
    implements (LT := kept_of (k_vm k2)) host (set_static st (k_vm k2)) ->
    forall o m' m'', exs funs lim mf E 0 (mkMem g0 [] []) l o m' -> ~ xfs funs lim mf E 0 (mkMem g0 [] []) l m''.
Proof.
  intros F Su St Zt Hc Hf N Tk. destruct (setup_up _ _ _ F Su) as [R Ma (sc & Es & Ag)].
  destruct (run_script hostmark host _ _ _ _ _ _ _ _ _ _ Hc Hf N R Ma Es Ag (text_script _ St) Zt (fresh_wf _ F) (f_objs _ F) (f_cur _ F) (f_stack _ F) (f_ip _ F) (f_left _ F)) as (toks' & vm1 & Tk' & X).
  assert (live_ctx (k_vm k) (v_cur (k_vm k))) as Lc.
  { destruct (f_stack _ F) as (c & A & _). exists c. rewrite (machine_ctxs _ _ Ma), (machine_cur _ _ Ma). exact A. }
  pose proof (tokens_text _ _ _ _ _ Lc St Tk) as Tt.
  rewrite Tk in Tk'. injection Tk' as <- <-. destruct (X Tt) as (l & funs & A & B & C & Fg & Eg & Y). exists l, funs. split; [exact A|]. split; [exact B|]. split; [exact C|].
  intros lim mf st g0 L1 L2 L3 L4 Zs Vs Gl Rm Im o m' m'' Ex Xf. destruct (Y lim mf st g0 L1 L2 L3 L4 Zs Vs Gl Rm Im) as [Y1 Y2].
  destruct (Y1 _ Xf) as (n & t & Ru & _). destruct (Y2 _ _ Ex) as (_ & n2 & t2 & R2 & _). destruct (execute_one _ _ _ _ _ _ _ Ru R2). discriminate.
Qed.
End Claims.

Print Assumptions C65_scripts_partial.
Print Assumptions C65_not_both.

(** ** Cases *)

(** The third call divides by zero, three blocks deep.  The object and the
    globals are those of that moment. *)
Definition fa_text : bytes := bs "var x = 1; function f(n) { x = x + 1; return 10 / n; } var i = 3; var r = 0; var o = object(); while(i) { i = i - 1; o.a = f(i); r = 7; } x = 100;".
Definition fa_body : stmt :=
  SBlock co (Then (SExpr (EInfix (var (bs "x")) (tk TK_ASSIGNMENT (bs "=")) (EInfix (var (bs "x")) (tk TK_PLUS (bs "+")) (num (bs "1")))) semi)
    (Then (SReturn (tk TK_RETURN (bs "return")) (EInfix (num (bs "10")) (tk TK_DIVIDE (bs "/")) (var (bs "n"))) semi) Done)) cc.
Definition fa_var (n : bytes) (e : expr) : stmt := SInit (tk TK_VAR (bs "var")) (nm n) (tk TK_ASSIGNMENT (bs "=")) e semi.
Definition fa_set (n : bytes) (e : expr) : stmt := SExpr (EInfix (var n) (tk TK_ASSIGNMENT (bs "=")) e) semi.
Definition fa_l : stmts :=
  Then (fa_var (bs "x") (num (bs "1")))
  (Then (SFunc 0 (tk TK_FUNCTION (bs "function")) (nm (bs "f")) po (PLast (nm (bs "n"))) pc fa_body)
  (Then (fa_var (bs "i") (num (bs "3")))
  (Then (fa_var (bs "r") (num (bs "0")))
  (Then (fa_var (bs "o") (ECall (fse (bs "object")) po NoArgs pc))
  (Then (SWhile (tk TK_WHILE (bs "while")) po (var (bs "i")) pc
    (SBlock co (Then (fa_set (bs "i") (EInfix (var (bs "i")) (tk TK_MINUS (bs "-")) (num (bs "1"))))
      (Then (SExpr (EInfix (EField (var (bs "o")) (tk TK_DOT (bs ".")) (nm (bs "a"))) (tk TK_ASSIGNMENT (bs "=")) (ECall (var (bs "f")) po (LastArg (var (bs "i"))) pc)) semi)
      (Then (fa_set (bs "r") (num (bs "7"))) Done))) cc))
  (Then (fa_set (bs "x") (num (bs "100"))) Done)))))).
Definition fa_fd : fundef := mkFun [bs "n"] fa_body [(bs "f", Global 1); (bs "x", Global 0)] 2.
Definition fa_funs (i : Z) : option fundef := if i =? 0 then Some fa_fd else None.
Definition fa_k1 : comp := match compile_script 1000 fa_text (bs "f") (comp_init vm_init) with Ok (_, k) => k | Ub _ => comp_init vm_init end.
Definition fa_k2 : comp := match finalize fa_k1 with Ok (_, k) => k | Ub _ => comp_init vm_init end.
Definition fa_toks : list token := match tokenize fa_text (bs "f") (k_vm (comp_init vm_init)) with Ok (Some t, _) => t | _ => [] end.
Definition fa_vm : vm := match tokenize fa_text (bs "f") (k_vm (comp_init vm_init)) with Ok (_, s) => s | _ => vm_init end.
Lemma fa_written : swritten fa_l.
Proof. cbn [fa_l fa_body fa_var fa_set swritten written grouped args_grouped pwritten num var fse]. grp. Qed.
Lemma fa_defined : sdefined fa_funs ex_E fa_l.
Proof.
  unfold fa_l, fa_var, fa_set. apply df_then; [def|]. apply df_then; [eapply df_func; [reflexivity|reflexivity|unfold fa_body; def]|]. def.
Qed.
#[local] Instance fa_hosts : Hosts := {| hosts := fun _ _ _ _ _ => False; host_fails := fun _ _ _ _ => False |}.
Ltac divs r := lazymatch goal with |- binop _ _ _ ?v => first [is_evar v; unify v r|idtac] end;
  eapply bo_div; [vm_compute; reflexivity|vm_compute; congruence|exists 0; vm_compute; repeat split; congruence|vm_compute; split; congruence].
Ltac RunProperties.bo ::= lazymatch goal with
  | |- binop _ _ _ _ => first [eapply bo_add; [vm_compute; reflexivity|vm_compute; split; congruence] | eapply bo_sub; [vm_compute; reflexivity|vm_compute; split; congruence]
      | divs (VInt 5) | divs (VInt 10) ]
  end.
Ltac fail_at := lazymatch goal with |- ef _ _ _ _ _ _ (tree ?e) _ => let n := eval vm_compute in (tree e) in change (tree e) with n end.
(** [o.a = f(i);] *)
Ltac set_a := eapply ex_expr;
  lazymatch goal with |- ev _ _ _ _ _ _ (tree ?e) _ _ => let n := eval vm_compute in (tree e) in change (tree e) with n end;
  eapply ev_set; [reflexivity|reflexivity|eapply ev_call; [reflexivity|run|run|sp|vm_compute; reflexivity|vm_compute; reflexivity|cbn [fd_body fa_fd]; unfold fa_body; run|first [left; split; [reflexivity|split; [reflexivity|sp]]|right; reflexivity]]
    |run|run|vm_compute; reflexivity|exact I|right; left; vm_compute; reflexivity].
Ltac redy := split; [sp|nolits].
Lemma fa_fails : exists m', xfs fa_funs 100 50 ex_E 0 (mkMem (fun _ => None) [] []) fa_l m' /\ m_global m' 0 = Some (VInt 4) /\
  m_global m' 2 = Some (VInt 0) /\ m_global m' 3 = Some (VInt 7) /\ m_heap m' = [[(VStr (bs "a"), VInt 10)]].
Proof.
  eexists. split.
  - unfold fa_l, fa_var, fa_set. do 5 (eapply xfs_rest; [run|]). apply xfs_first. apply xf_while.
    do 2 (eapply lf_again; [run|sp|vm_compute; reflexivity|discriminate|eapply ex_block; eapply exs_then; [run|]; eapply exs_then; [set_a|run]|]).
    eapply lf_body; [run|sp|vm_compute; reflexivity|discriminate|]. eapply xf_block. eapply xfs_rest; [run|]. apply xfs_first. apply xf_expr; [redy|].
    fail_at. apply ef_set_value; [reflexivity|reflexivity|]. eapply ef_body; [reflexivity|run|run|sp|vm_compute; reflexivity|reflexivity|].
    cbn [fd_body fa_fd]. unfold fa_body. eapply xf_block. eapply xfs_rest; [run|]. apply xfs_first. apply xf_return; [redy|].
    fail_at. eapply ef_binary; [run|run|eapply bf_div; [vm_compute; reflexivity|left; reflexivity]|nn].
  - repeat split; vm_compute; reflexivity.
Qed.
(** As [lasting], for a run that ends with an error. *)
Fixpoint lasts hostmark host (n : nat) (t : vm) : bool :=
  enoughb t && match fetch t with
  | Ok (w, _) => if w =? VmModel.OP_END then true else
      match n with O => false | S n => match iterate hostmark host t with Ok (_, t1) => has_errors t1 || lasts hostmark host n t1 | Ub _ => true end end
  | Ub _ => true
  end.
Lemma lasts_enough hostmark host t t' : steps hostmark host t t' -> forall n, lasts hostmark host n t = true -> enough t'.
Proof.
  induction 1 as [t|t w t1 t2 Fe Ne It He Fr Ni St IH]; intros n L.
  - destruct n; cbn [lasts] in L; apply andb_prop in L; apply enoughb_enough, L.
  - destruct n; cbn [lasts] in L; apply andb_prop in L; destruct L as [_ L]; rewrite Fe in L; (destruct (Z.eqb_spec w VmModel.OP_END); [contradiction|]); [discriminate|].
    rewrite It, He in L. eapply IH; eauto.
Qed.
Example C65_case :
  fresh vm_init /\ setup vm_init (comp_init vm_init) ex_E /\ is_text fa_text /\ zlen fa_text < W31 /\
  compile_script 1000 fa_text (bs "f") (comp_init vm_init) = Ok (true, fa_k1) /\ finalize fa_k1 = Ok (tt, fa_k2) /\ v_errs (k_vm fa_k2) = [] /\
  tokenize fa_text (bs "f") (k_vm (comp_init vm_init)) = Ok (Some fa_toks, fa_vm) /\
  fa_toks = sstext fa_l /\ swritten fa_l /\ sdefined fa_funs ex_E fa_l /\
  100 <= 65536 /\ 2 * 100 - 2 <= v_maxstack vm_init /\ 50 < W32 /\ 50 <= v_maxfields vm_init /\
  (forall x, In x (v_static (k_vm fa_k2)) -> exists v, rep (k_vm fa_k2) nothing v x) /\
  globs (set_static (v_static (k_vm fa_k2)) (k_vm fa_k2)) nothing (fun _ => None) /\
  (forall t, steps nomark (fun _ _ => mub UbNull) (set_static (v_static (k_vm fa_k2)) (k_vm fa_k2)) t -> enough t) /\
  lookup (bs "x") (e_scopes (afters fa_l ex_E)) = Some (Global 0) /\ lookup (bs "r") (e_scopes (afters fa_l ex_E)) = Some (Global 3) /\
  exists m', xfs fa_funs 100 50 ex_E 0 (mkMem (fun _ => None) [] []) fa_l m' /\ m_global m' 0 = Some (VInt 4) /\
    m_global m' 2 = Some (VInt 0) /\ m_global m' 3 = Some (VInt 7) /\ m_heap m' = [[(VStr (bs "a"), VInt 10)]].
Proof.
  split; [exact C40_fresh|]. split; [constructor|]. split; [apply textb_text; vm_compute; reflexivity|].
  do 5 (split; [vm_compute; reflexivity|]).
  split; [vm_compute; reflexivity|]. split; [exact fa_written|]. split; [exact fa_defined|]. split; [lia|]. split; [vm_compute; congruence|].
  split; [reflexivity|]. split; [vm_compute; congruence|].
  split. { intros x I. exists (VInt 0). assert (forallb (fun x => (v_type x =? T_INT) && (v_data x =? 0)) (v_static (k_vm fa_k2)) = true) as Q by (vm_compute; reflexivity).
    rewrite forallb_forall in Q. specialize (Q x I). destruct x as [ty d]. cbn [v_type v_data] in Q. apply andb_prop in Q. destruct Q as [Q1 Q2]. apply Z.eqb_eq in Q1, Q2. subst. split; [reflexivity|unfold is_s32; vm_compute; split; congruence]. }
  split; [intros i v Q; discriminate|]. split; [intros t St; eapply lasts_enough with (n := 2000%nat); [exact St|vm_compute; reflexivity]|].
  split; [vm_compute; reflexivity|]. split; [vm_compute; reflexivity|]. exact fa_fails.
Qed.
(** The machine agrees: one error, and the values of that moment. *)
Definition fa_end : vm := match execute nomark (fun _ _ => mub UbNull) 2000 (k_vm fa_k2) with Ok (_, t) => t | Ub _ => vm_init end.
Example C65_machine : execute nomark (fun _ _ => mub UbNull) 2000 (k_vm fa_k2) = Ok (Some false, fa_end) /\ zlen (v_errs fa_end) = 1 /\
  znth (v_static fa_end) 0 = Some (vint 4) /\ znth (v_static fa_end) 2 = Some (vint 0) /\ znth (v_static fa_end) 3 = Some (vint 7).
Proof. vm_compute. auto. Qed.

(** Calls of what cannot be called, and fields of what has none:
    [var x = 1; x = 2; x(3); x = 4;], [var x = 1; x.a = 2;] and
    [function f(a) { } f(1, 2);]. *)
Definition fb_l : stmts :=
  Then (fa_var (bs "x") (num (bs "1"))) (Then (fa_set (bs "x") (num (bs "2")))
  (Then (SExpr (ECall (var (bs "x")) po (LastArg (num (bs "3"))) pc) semi) (Then (fa_set (bs "x") (num (bs "4"))) Done))).
Definition fc_l : stmts :=
  Then (fa_var (bs "x") (num (bs "1")))
  (Then (SExpr (EInfix (EField (var (bs "x")) (tk TK_DOT (bs ".")) (nm (bs "a"))) (tk TK_ASSIGNMENT (bs "=")) (num (bs "2"))) semi) Done).
Definition fd_body0 : stmt := SBlock co Done cc.
Definition fd_l : stmts :=
  Then (SFunc 0 (tk TK_FUNCTION (bs "function")) (nm (bs "f")) po (PLast (nm (bs "a"))) pc fd_body0)
  (Then (SExpr (ECall (var (bs "f")) po (Arg (num (bs "1")) (tk TK_COMMA (bs ",")) (LastArg (num (bs "2")))) pc) semi) Done).
Definition fd_funs (i : Z) : option fundef := if i =? 0 then Some (mkFun [bs "a"] fd_body0 [(bs "f", Global 0)] 1) else None.
Example C65_other_cases :
  (exists m', xfs (fun _ => None) 100 50 ex_E 0 (mkMem (fun _ => None) [] []) fb_l m' /\ m_global m' 0 = Some (VInt 2)) /\
  (exists m', xfs (fun _ => None) 100 50 ex_E 0 (mkMem (fun _ => None) [] []) fc_l m' /\ m_global m' 0 = Some (VInt 1)) /\
  (exists m', xfs fd_funs 100 50 ex_E 0 (mkMem (fun _ => None) [] []) fd_l m' /\ m_global m' 0 = Some (VFun 0)).
Proof.
  split; [|split].
  - eexists. split.
    + unfold fb_l, fa_var, fa_set. do 2 (eapply xfs_rest; [run|]). apply xfs_first. apply xf_expr; [redy|]. fail_at.
      eapply ef_call; [reflexivity|run|run|sp|exact I].
    + vm_compute. reflexivity.
  - eexists. split.
    + unfold fc_l, fa_var. eapply xfs_rest; [run|]. apply xfs_first. apply xf_expr; [redy|]. fail_at.
      eapply ef_set; [reflexivity|reflexivity|run|run|run|reflexivity].
    + vm_compute. reflexivity.
  - eexists. split.
    + unfold fd_l. eapply xfs_rest; [run|]. apply xfs_first. apply xf_expr; [redy|]. fail_at.
      eapply ef_call; [reflexivity|run|run|sp|]. eexists. split; [reflexivity|]. split; [discriminate|reflexivity].
    + vm_compute. reflexivity.
Qed.

(** Functions as conditions and as operands, and counting what is no number:
    [function f() { } var x = 1; while(f) { x = 2; }],
    [function f() { } var x = 1; x = x + f;],
    [function f() { } var x = 1; if(x && f) { x = 2; }] and
    [var x = nil; x++;]. *)
Definition fe_f : stmt := SFunc 0 (tk TK_FUNCTION (bs "function")) (nm (bs "f")) po PNone pc fd_body0.
Definition fe_funs (i : Z) : option fundef := if i =? 0 then Some (mkFun [] fd_body0 [(bs "f", Global 0)] 1) else None.
Definition fe_x : stmt := fa_var (bs "x") (num (bs "1")).
Definition fe_l1 : stmts :=
  Then fe_f (Then fe_x (Then (SWhile (tk TK_WHILE (bs "while")) po (var (bs "f")) pc (SBlock co (Then (fa_set (bs "x") (num (bs "2"))) Done) cc)) Done)).
Definition fe_l2 : stmts :=
  Then fe_f (Then fe_x (Then (fa_set (bs "x") (EInfix (var (bs "x")) (tk TK_PLUS (bs "+")) (var (bs "f")))) Done)).
Definition fe_l3 : stmts :=
  Then fe_f (Then fe_x (Then (SIf (tk TK_IF (bs "if")) po (EInfix (var (bs "x")) (tk TK_AND (bs "&&")) (var (bs "f"))) pc
    (SBlock co (Then (fa_set (bs "x") (num (bs "2"))) Done) cc)) Done)).
Definition fe_l4 : stmts :=
  Then (fa_var (bs "x") (EAtom (tk TK_NIL (bs "nil")))) (Then (SExpr (EIncDec (var (bs "x")) (tk TK_INCREMENT (bs "++"))) semi) Done).
Example C65_no_numbers :
  (exists m', xfs fe_funs 100 50 ex_E 0 (mkMem (fun _ => None) [] []) fe_l1 m' /\ m_global m' 1 = Some (VInt 1)) /\
  (exists m', xfs fe_funs 100 50 ex_E 0 (mkMem (fun _ => None) [] []) fe_l2 m' /\ m_global m' 1 = Some (VInt 1)) /\
  (exists m', xfs fe_funs 100 50 ex_E 0 (mkMem (fun _ => None) [] []) fe_l3 m' /\ m_global m' 1 = Some (VInt 1)) /\
  (exists m', xfs fe_funs 100 50 ex_E 0 (mkMem (fun _ => None) [] []) fe_l4 m' /\ m_global m' 0 = Some VNil).
Proof.
  unfold fe_l1, fe_l2, fe_l3, fe_l4, fe_f, fe_x, fa_var, fa_set. repeat split.
  - eexists. split.
    + do 2 (eapply xfs_rest; [run|]). apply xfs_first. apply xf_while. eapply lf_unknown; [run|sp|reflexivity].
    + vm_compute. reflexivity.
  - eexists. split.
    + do 2 (eapply xfs_rest; [run|]). apply xfs_first. apply xf_expr; [redy|]. fail_at.
      apply ef_assign; [reflexivity|reflexivity|]. eapply ef_binary; [run|run|apply bf_partner; [cbn; auto|reflexivity]|nn].
    + vm_compute. reflexivity.
  - eexists. split.
    + do 2 (eapply xfs_rest; [run|]). apply xfs_first. apply xf_test; [redy|]. fail_at.
      eapply ef_binary; [run|run|apply bf_logic; [cbn; auto|right; eexists; reflexivity|left; reflexivity|reflexivity]|nn].
    + vm_compute. reflexivity.
  - eexists. split.
    + eapply xfs_rest; [run|]. apply xfs_first. apply xf_expr; [redy|]. fail_at.
      eapply ef_count; [reflexivity|sp|vm_compute; reflexivity|vm_compute; reflexivity|]. left. split; [right; reflexivity|]. apply bf_add; [reflexivity|discriminate].
    + vm_compute. reflexivity.
Qed.

(** A host function that reports an error for numbers below zero and doubles
    the others: [var y = dbl(5); y = dbl(0 - y); y = 3;]. *)
Definition hg_text : bytes := bs "var y = dbl(5); y = dbl(0 - y); y = 3;".
Definition hg_l : stmts :=
  Then (fa_var (bs "y") (hf_call (num (bs "5"))))
  (Then (fa_set (bs "y") (hf_call (EInfix (num (bs "0")) (tk TK_MINUS (bs "-")) (var (bs "y")))))
  (Then (fa_set (bs "y") (num (bs "3"))) Done)).
Definition hg_k1 : comp := match compile_script 1000 hg_text (bs "f") hf_k with Ok (_, k) => k | Ub _ => comp_init vm_init end.
Definition hg_k2 : comp := match finalize hg_k1 with Ok (_, k) => k | Ub _ => comp_init vm_init end.
Definition hg_toks : list token := match tokenize hg_text (bs "f") (k_vm hf_k) with Ok (Some t, _) => t | _ => [] end.
Definition hg_vm : vm := match tokenize hg_text (bs "f") (k_vm hf_k) with Ok (_, s) => s | _ => vm_init end.
Definition hg_host (cb : Z) (xs : list value) : M value :=
  match xs with
  | [x] => if v_int x <? 0 then mbind (add_error (bs "Too small.")) (fun _ => ret vnil) else ret (vint (2 * v_data x))
  | _ => ret vnil
  end.
Definition hg_hosts : Hosts := {|
  hosts := fun id vs m v m' => id = 0 /\ m' = m /\ exists n, vs = [VInt n] /\ v = VInt (2 * n) /\ 0 <= n < 1073741824;
  host_fails := fun id vs m m' => id = 0 /\ m' = m /\ exists n, vs = [VInt n] /\ n < 0 |}.
Lemma hg_written : swritten hg_l.
Proof. unfold hg_l, hf_call, fa_var, fa_set. cbn [swritten written grouped args_grouped pwritten num var]. grp. Qed.
Lemma hg_defined : sdefined (fun _ => None) hf_E hg_l.
Proof. unfold hg_l, fa_var, fa_set. def. Qed.
Lemma hg_native t xs : frame t = frame (set_static (v_static (k_vm hg_k2)) (k_vm hg_k2)) -> CallSpec.good_native t (mkV T_FUNC 0) xs 7.
Proof.
  intro Fr. pose proof (f_equal v_funcs Fr) as Q1. pose proof (f_equal v_extfuncs Fr) as Q2. unfold frame in Q1, Q2. vsin Q1. vsin Q2.
  eexists _, _. unfold CallSpec.function_is. rewrite Q1, Q2. split; [split; [reflexivity|vm_compute; reflexivity]|]. split; [left; reflexivity|]. split; [discriminate|].
  split; [vm_compute; reflexivity|]. split; [reflexivity|]. split; [left; reflexivity|]. intro X. exfalso. apply X. reflexivity.
Qed.
Lemma hg_implements : implements (LT := kept_of (k_vm hg_k2)) (HS := hg_hosts) hg_host (set_static (v_static (k_vm hg_k2)) (k_vm hg_k2)).
Proof.
  split.
  - intros id vs m v m' (-> & -> & n & -> & -> & P & B). exists 7. intros t W mm st xs Fr Wf _ _ D G _ R. split; [apply hg_native; exact Fr|].
    inversion R as [|? x ? q Rn R2]; subst. inversion R2; subst. destruct Rn as [-> Rn]. exists (vint (2 * n)), t, W, mm.
    split. { unfold hg_host. rewrite v_int_vint by exact Rn. replace (n <? 0) with false by (symmetry; apply Z.ltb_ge; exact P). unfold ret. cbn [v_data vint]. unfold vint. do 3 f_equal.
      unfold u32. rewrite Z.mul_mod_idemp_r by discriminate. reflexivity. }
    repeat (split; [assumption || reflexivity|]). split; [split; [reflexivity|unfold is_s32, W31; lia]|auto].
  - intros id vs m m' (-> & -> & n & -> & P). exists 7. intros t W mm st xs Fr Wf _ _ D G St R. split; [apply hg_native; exact Fr|].
    inversion R as [|? x ? q Rn R2]; subst. inversion R2; subst. destruct Rn as [-> Rn].
    assert (live_ctx t (v_cur t)) as Lc by (destruct St as (c & A & _); exists c; exact A).
    destruct (add_error_ok t (bs "Too small.") Lc) as (e & Ee). eexists vnil, _, W, mm.
    split. { unfold hg_host. rewrite v_int_vint by exact Rn. replace (n <? 0) with true by (symmetry; apply Z.ltb_lt; exact P). rewrite (bind_run _ _ _ _ _ Ee). reflexivity. }
    split; [vs; destruct (v_errs t); discriminate|]. split; [reflexivity|]. split; [apply FaultProofs.errs_wf; exact Wf|]. split; [reflexivity|].
    assert (forall v x, rep t W v x -> rep (set_errs (v_errs t ++ [e]) t) W v x) as Rm by (intros v x; apply rep_mono; auto).
    split; [apply (world_same _ t); auto; intros x I; apply (wd_static _ _ _ _ _ D x I)|].
    intros i v Gv. destruct (G i v Gv) as (A & x & B & Cv). split; [exact A|]. exists x. split; [exact B|auto].
Qed.
Lemma hg_fails : exists m', xfs (HS := hg_hosts) (fun _ => None) 100 50 hf_E 0 (mkMem hf_globals [] []) hg_l m' /\ m_global m' 2 = Some (VInt 10).
Proof.
  eexists. split.
  - unfold hg_l, fa_var, fa_set. eapply xfs_rest; [run|]. apply xfs_first. apply xf_expr; [redy|]. fail_at.
    apply ef_assign; [reflexivity|reflexivity|]. eapply ef_host; [reflexivity|run|run|sp|]. split; [reflexivity|]. split; [reflexivity|]. exists (-10). split; [reflexivity|lia].
  - vm_compute. reflexivity.
Qed.
Example C65_host_error :
  setup vm_init hf_k hf_E /\ is_text hg_text /\ zlen hg_text < W31 /\
  compile_script 1000 hg_text (bs "f") hf_k = Ok (true, hg_k1) /\ finalize hg_k1 = Ok (tt, hg_k2) /\ v_errs (k_vm hg_k2) = [] /\
  tokenize hg_text (bs "f") (k_vm hf_k) = Ok (Some hg_toks, hg_vm) /\
  hg_toks = sstext hg_l /\ swritten hg_l /\ sdefined (fun _ => None) hf_E hg_l /\
  (forall x, In x (v_static (k_vm hg_k2)) -> exists v, rep (k_vm hg_k2) nothing v x) /\
  globs (set_static (v_static (k_vm hg_k2)) (k_vm hg_k2)) nothing hf_globals /\
  (forall t, steps nomark hg_host (set_static (v_static (k_vm hg_k2)) (k_vm hg_k2)) t -> enough t) /\
  implements (LT := kept_of (k_vm hg_k2)) (HS := hg_hosts) hg_host (set_static (v_static (k_vm hg_k2)) (k_vm hg_k2)) /\
  exists m', xfs (HS := hg_hosts) (fun _ => None) 100 50 hf_E 0 (mkMem hf_globals [] []) hg_l m' /\ m_global m' 2 = Some (VInt 10).
Proof.
  split; [exact (proj1 C40_host_function)|].
  split; [apply textb_text; vm_compute; reflexivity|]. do 6 (split; [vm_compute; reflexivity|]). split; [exact hg_written|]. split; [exact hg_defined|].
  split. { match goal with |- forall x, In x ?st -> _ => let c := eval vm_compute in st in replace st with c by (vm_compute; reflexivity) end.
    intros x Hx. repeat (destruct Hx as [<-|Hx]; [first [exists (VInt 0); split; [reflexivity|vm_compute; split; congruence]|exists (VFun 0); split; [reflexivity|vm_compute; split; congruence]]|]). destruct Hx. }
  split. { intros i v Q. unfold hf_globals in Q. destruct (Z.eqb_spec i 1) as [->|]; [|discriminate]. injection Q as <-. split; [vm_compute; split; congruence|].
    eexists. split; [vm_compute; reflexivity|]. split; [reflexivity|vm_compute; split; congruence]. }
  split; [intros t St; eapply lasts_enough with (n := 2000%nat); [exact St|vm_compute; reflexivity]|].
  split; [exact hg_implements|]. exact hg_fails.
Qed.
(** The machine agrees. *)
Definition hg_end : vm := match execute nomark hg_host 2000 (k_vm hg_k2) with Ok (_, t) => t | Ub _ => vm_init end.
Example C65_host_error_machine : zlen (v_errs hg_end) = 1 /\ znth (v_static hg_end) 2 = Some (vint 10).
Proof. vm_compute. auto. Qed.
