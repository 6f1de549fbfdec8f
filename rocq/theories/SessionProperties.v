(** * SessionProperties: scripts compiled and run piece by piece (C66) *)

From Verif Require Import Base BaseFacts State MonadFacts TableModel TableProofs StrModel StrSpec StrProofs ObjsModel ObjsSpec ObjsProofs ValueModel TokenModel TokenSpec TokenProofs TokenProperties OpSpec StackModel VmModel RegModel
  VmSpec CsModel ExprModel CompModel KFacts ParseSpec ParseProofs TermProperties ParseProperties RunSpec RepSpec HeapProofs CodeRel ExecProofs EmitProofs DidProofs StmtProofs MachProofs UseProofs SimProofs FaultSpec RunProofs RunProperties.
From Verif Require Import VmProperties.
From Verif Require GcModel.
From Verif Require Import SessionSpec SessionProofs DeclareProofs.
From Coq Require Import ZArith List Lia Bool.
Import ListNotations.
Open Scope Z_scope.

Section Claims.
Variable hostmark : Z -> Z -> option Z -> list value.
Variable host : Z -> list value -> M value.
Context {HS : Hosts}.
Variables lim mf : Z.

(** As in C40: the program does not run out of string or object identifiers,
    there are fewer than 2^32 - 1 collections, and the functions of the host do
    what they are said to do. *)
Definition plenty (t : vm) : Prop :=
  (forall t', steps hostmark host t t' -> enough t') /\ implements (LT := kept_of t) host t.
Definition plenty_call (fv : value) (args : list value) (t : vm) : Prop :=
  (forall t1 t', HostCallProofs.enter host fv args t = Ok (tt, t1) -> steps hostmark host t1 t' -> enough t') /\ implements (LT := kept_of t) host t.

Lemma found (k : comp) t W E m : globs t W (m_global m) -> v_globals t = v_globals (k_vm k) -> v_smask t = v_smask (k_vm k) ->
  (forall name, find_global name (k_vm k) = match lookup name (e_scopes E) with Some (Global i) => Some i | _ => None end) ->
  forall name i v, lookup name (e_scopes E) = Some (Global i) -> m_global m i = Some v ->
    exists j x, find_global name t = Some j /\ znth (v_static t) j = Some x /\ rep t W v x.
Proof.
  intros G Q1 Q2 Fg name i v Lk Gi. destruct (G _ _ Gi) as (Ri & x & Zx & Rx). exists i, x. split; [|auto].
  specialize (Fg name). rewrite Lk in Fg. unfold find_global in *. rewrite Q1, Q2. exact Fg.
Qed.

Lemma held_rep k E m W v x : (forall name, find_global name (k_vm k) = match lookup name (e_scopes E) with Some (Global i) => Some i | _ => None end) ->
  globs (k_vm k) W (m_global m) -> held (k_vm k) E m v x -> rep (k_vm k) W v x.
Proof.
  intros Fg Gl [R|(name & i & j & Lk & Gi & Fj & Zx)]; [eapply rep_mono; [| |exact R]; [auto|discriminate]|].
  specialize (Fg name). rewrite Lk, Fj in Fg. injection Fg as ->. destruct (Gl _ _ Gi) as (_ & y & Zy & Ry). rewrite Zx in Zy. injection Zy as <-. exact Ry.
Qed.

Lemma final_errs k u k' : partially_finalize k = Ok (u, k') -> v_errs (k_vm k') = [] -> v_errs (k_vm k) = [].
Proof.
  intros Hf N. assert (@noerr (kept_of (k_vm k')) k') as X by (apply kept_noerr, N). apply (@pfinal_errs (kept_of (k_vm k')) _ _ _ Hf) in X. exact (proj1 X).
Qed.

Lemma live_shows k E F m : live lim mf k E F m -> (forall name, find_global name (k_vm k) = match lookup name (e_scopes E) with Some (Global i) => Some i | _ => None end) ->
  shows (k_vm k) E m.
Proof.
  intros Lv Fg. split; [exact (lv_errs _ _ _ _ _ _ Lv)|]. split; [exact (lv_stack _ _ _ _ _ _ Lv)|]. destruct (lv_mem _ _ _ _ _ _ Lv) as (W & mm & Wd & Gl). exists W.
  split; [exact (world_heap _ _ _ _ _ Wd)|]. exact (found k _ _ _ _ Gl eq_refl eq_refl Fg).
Qed.

Lemma live_goes : lim <= 65536 -> mf < W32 -> forall evs k E F m, live lim mf k E F m ->
  (F = [] /\ (forall name, find_global name (k_vm k) = None) \/ forall name, find_global name (k_vm k) = match lookup name (e_scopes E) with Some (Global i) => Some i | _ => None end) ->
  goes hostmark host lim mf plenty plenty_call evs k E (assoc F) m.
Proof.
  intros Lm Lf. induction evs as [|[text fname fuel|fv args| |name x|name x|name cb] evs IH]; intros k E F m Lv Nm; cbn [goes]; [exact I| | | | | |].
  - intros k1 u k2 toks vm' Tx Zt Hc Hf N Tk.
    destruct (live_step hostmark host lim mf _ _ _ _ _ _ _ _ _ _ Lv Hc Hf N (text_script _ Tx) Zt Lm Lf) as (toks' & vm1 & Tk' & X).
    assert (live_ctx (k_vm k) (v_cur (k_vm k))) as Lc by (destruct (lv_stack _ _ _ _ _ _ Lv) as (c & A & _); exists c; exact A).
    pose proof (tokens_text _ _ _ _ _ Lc Tx Tk) as Tt. rewrite Tk in Tk'. injection Tk' as <- <-.
    destruct (X Tt) as (l & G & Tl & Wr & Nd & Df & Fg & Y). exists l, (assoc (F ++ G)). split; [exact Tl|]. split; [exact Wr|]. split; [exact Df|].
    split. { intros id fd A. apply assoc_in in A. apply (assoc_table _ Nd). apply in_or_app. auto. }
    intros [Rm Im]. destruct (Y Rm Im) as [Yf Yn]. split.
    + intros o m' Ex. destruct (Yn _ _ Ex) as (-> & n & t' & Ru & Ot & Lv'). split; [reflexivity|]. exists n, t'. split; [exact Ru|].
      pose proof (f_equal v_globals Ot) as Q1. pose proof (f_equal v_smask Ot) as Q2. unfold frame in Q1, Q2. vsin Q1. vsin Q2.
      split.
      * split; [exact (lv_errs _ _ _ _ _ _ Lv')|]. split; [exact (lv_stack _ _ _ _ _ _ Lv')|]. destruct (lv_mem _ _ _ _ _ _ Lv') as (W & mm & Wd & Gl). exists W. split; [exact (world_heap _ _ _ _ _ Wd)|].
        exact (found k2 _ _ _ _ Gl Q1 Q2 Fg).
      * apply IH; [exact Lv'|]. right. intro name. ks. rewrite <- Fg. unfold find_global. rewrite Q1, Q2. reflexivity.
    + intros m' Xf. destruct (Yf _ Xf) as (n & t' & Ru & He & Ot & (W & Hp & Gl) & Cl). exists n, t'. split; [exact Ru|].
      pose proof (f_equal v_globals Ot) as Q1. pose proof (f_equal v_smask Ot) as Q2. unfold frame in Q1, Q2. vsin Q1. vsin Q2.
      split; [split; [exact He|]; exists W; split; [exact Hp|exact (found k2 _ _ _ _ Gl Q1 Q2 Fg)]|].
      intro Lvl. destruct (Cl Lvl) as (k3 & Ec & Q3 & Q4 & Lv'). exists k3. split; [exact Ec|].
      assert (forall name, find_global name (k_vm k3) = match lookup name (e_scopes (afters l E)) with Some (Global i) => Some i | _ => None end) as Fg3.
      { intro name. rewrite <- Fg. unfold find_global. rewrite Q3, Q4. reflexivity. }
      split; [exact (live_shows _ _ _ _ Lv' Fg3)|]. apply IH; [exact Lv'|]. right. exact Fg3.
  - intros id fd vs o m' v -> Uid Fn Np Ra B [Rm Im] Ex Out. destruct (live_resting hostmark host lim mf _ _ _ _ Lv Lm Lf) as (W & Rt).
    destruct Nm as [[-> _]|Fg]; [discriminate|].
    assert (Forall2 (rep (k_vm k) W) vs args) as Ra'. { destruct (HostCallProofs.rt_mem _ _ _ _ _ _ _ Rt) as (mm & ls & _ & Gl & _). revert Ra. clear - Fg Gl. induction 1; constructor; auto. eapply held_rep; eauto. }
    destruct (@HostCallProofs.host_call hostmark host (kept_of (k_vm k)) HS (assoc F) lim mf (k_vm k) W [] m (k_w k) (mkV T_FUNC id) id fd vs args o m' v Rt Im (lv_ip _ _ _ _ _ _ Lv) (conj eq_refl Uid) Fn Np Ra' B Rm Ex Out)
      as (n & x & t' & W' & Ca & Er & Ip & Ot & Rx & Rt').
    exists n, x, t'. split; [exact Ca|]. pose proof (live_call hostmark host lim mf _ _ _ _ _ _ _ Lv Ot Ip Rt') as Lv'.
    pose proof (f_equal v_globals Ot) as Q1. pose proof (f_equal v_smask Ot) as Q2. unfold frame in Q1, Q2. vsin Q1. vsin Q2.
    destruct Rt' as [_ _ _ _ _ (mm & ls & D & G & _)].
    split; [exists W'; split; [exact (world_heap _ _ _ _ _ D)|exact Rx]|]. split.
    + split; [exact Er|]. split; [exact (lv_stack _ _ _ _ _ _ Lv')|]. exists W'. split; [exact (world_heap _ _ _ _ _ D)|]. exact (found k _ _ _ _ G Q1 Q2 Fg).
    + apply IH; [exact Lv'|]. right. intro name. ks. rewrite <- Fg. unfold find_global. rewrite Q1, Q2. reflexivity.
  - intro Rg. destruct (live_collect hostmark host lim mf _ _ _ _ Lm Lf Lv Rg) as (t' & Eg & Ot & Lv'). exists t'. split; [exact Eg|].
    pose proof (f_equal v_globals Ot) as Q1. pose proof (f_equal v_smask Ot) as Q2. unfold frame in Q1, Q2. vsin Q1. vsin Q2.
    assert (forall name, find_global name t' = find_global name (k_vm k)) as Qg by (intro; unfold find_global; rewrite Q1, Q2; reflexivity).
    split.
    + intros (_ & _ & W1 & _ & Sg). split; [exact (lv_errs _ _ _ _ _ _ Lv')|]. split; [exact (lv_stack _ _ _ _ _ _ Lv')|]. destruct (lv_mem _ _ _ _ _ _ Lv') as (W & mm & Wd & Gl). exists W.
      split; [exact (world_heap _ _ _ _ _ Wd)|]. destruct Nm as [[_ No]|Fg]; [|exact (found k _ _ _ _ Gl Q1 Q2 Fg)].
      intros name i v Lk Gi. exfalso. destruct (Sg _ _ _ Lk Gi) as (j & y & Q & _). rewrite No in Q. discriminate.
    + apply IH; [exact Lv'|]. destruct Nm as [[-> No]|Fg]; [left; split; [reflexivity|]|right]; intro name; ks; rewrite Qg; auto.
  - intros j v Fj Hx. destruct Nm as [[_ No]|Fg]; [rewrite No in Fj; discriminate|]. pose proof (Fg name) as Lk. rewrite Fj in Lk.
    destruct (lookup name (e_scopes E)) as [[i|i]|] eqn:Li; try discriminate. injection Lk as ->.
    assert (0 <= i < zlen (v_static (k_vm k))) as Ri.
    { destruct (lv_scope _ _ _ _ _ _ Lv) as (sc & Es & Ag). rewrite Es in Li. cbn [lookup] in Li. destruct (find_in name sc) as [[i'|i']|] eqn:Fi; try discriminate. injection Li as ->.
      pose proof (find_in_global _ _ _ _ Ag Fi) as Q. destruct (lv_primed _ _ _ _ _ _ Lv) as [K _ _ Gb _]. pose proof (kw_n _ K). lia. }
    exists i, (zupd (v_static (k_vm k)) i x). split; [reflexivity|]. split; [apply wr_ok; exact Ri|]. cbv zeta.
    pose proof (live_assign hostmark host lim mf _ _ _ _ i v x Lm Lf Lv Ri ltac:(intros W mm _ Gl; eapply held_rep; eauto)) as Lv'.
    split.
    + split; [exact (lv_errs _ _ _ _ _ _ Lv')|]. split; [exact (lv_stack _ _ _ _ _ _ Lv')|]. destruct (lv_mem _ _ _ _ _ _ Lv') as (W & mm & Wd & Gl). exists W.
      split; [exact (world_heap _ _ _ _ _ Wd)|]. exact (found k _ _ _ _ Gl eq_refl eq_refl Fg).
    + apply IH; [exact Lv'|]. right. exact Fg.
  - intros p k1 st u k2 v Hx Hc Hw Hf N. cbv zeta.
    assert (v_errs (k_vm k1) = []) as N1 by exact (final_errs (set_k_vm (set_static st (k_vm k1)) k1) _ _ Hf N).
    destruct (live_global hostmark host lim mf _ _ _ _ _ _ _ Lv Hc N1) as (Q & Lv1 & Rg & Gr). injection Q as ->. apply wr_inv in Hw. destruct Hw as [-> Rw].
    assert (forall W mm, world (@lit (kept_of (k_vm k1))) (k_vm k1) W mm (m_heap m) -> globs (k_vm k1) W (m_global m) -> rep (k_vm k1) W v x) as Rx.
    { intros W mm _ Gl. pose proof (w_str _ _ _ (lv_vm _ _ _ _ _ _ Lv)) as S0. pose proof (w_str _ _ _ (lv_vm _ _ _ _ _ _ Lv1)) as S1. destruct (grown_strs _ _ Gr S0 S1) as (Gs & _).
      destruct Hx as [R|(nm & i & j & Lk & Gi & Fj & Zx)]; [eapply rep_mono; [| |exact R]; [exact Gs|discriminate]|].
      destruct Nm as [[_ No]|Fg]; [rewrite No in Fj; discriminate|]. specialize (Fg nm). rewrite Lk, Fj in Fg. injection Fg as ->.
      destruct (Gl _ _ Gi) as (_ & y & Zy & Ry). destruct Gr as [(n & Es) _]. rewrite Es, znth_app_l in Zy by (apply znth_some_range in Zx; lia). rewrite Zx in Zy. injection Zy as <-. exact Ry. }
    pose proof (live_assign hostmark host lim mf _ _ _ _ _ v x Lm Lf Lv1 Rw Rx) as Lv2.
    destruct (live_final hostmark host lim mf _ _ _ _ _ _ Lv2 Hf N) as [Lv3 Fg3].
    replace (e_globals E + 1 + 1) with (e_globals E + 2) by lia. split; [exact (live_shows _ _ _ _ Lv3 Fg3)|apply IH; auto].
  - intros u1 k1 u2 k2 Hc Hf N.
    assert (v_errs (k_vm k1) = []) as N1 by exact (final_errs _ _ _ Hf N).
    cbv zeta. intros id Zi Ui.
    pose proof (live_function hostmark host lim mf _ _ _ _ _ _ _ _ id Lm Lf Lv Hc N1 Zi Ui) as Lv2.
    destruct (live_final hostmark host lim mf _ _ _ _ _ _ Lv2 Hf N) as [Lv3 Fg3].
    replace (e_globals E + 1 + 1) with (e_globals E + 2) by lia. split; [exact (live_shows _ _ _ _ Lv3 Fg3)|apply IH; auto].
Qed.

(** A fresh machine, a compiler for it, whatever the host has declared with it,
    and any number of scripts compiled and run one after the other, with calls of
    their functions, garbage collections and assignments to globals by the host
    in between: each of them does what it means in
    the memory that the ones before it left, it can use their variables and
    functions, and after it every global is found under its name, with its
    value, whichever script declared it ([goes]).  [g0]: what the globals that
    the host has declared contain at the start.

    Partial: as C40 and C62, no coroutines; the objects that the host passes are
    those it finds in globals. *)
Theorem C66_session_partial s k E evs g0 :
  fresh s -> v_globals s = [] -> setup s k E -> v_errs (k_vm k) = [] ->
  lim <= 65536 -> 2 * lim - 2 <= v_maxstack s -> mf < W32 -> mf <= v_maxfields s ->
  (forall x, In x (v_static (k_vm k)) -> exists v, rep (k_vm k) nothing v x) -> globs (k_vm k) nothing g0 ->
  goes hostmark host lim mf plenty plenty_call evs k E (fun _ => None) (mkMem g0 [] []).
Proof.
  intros F Ng Su N Lm Mx Lf Mf Vs Gl. destruct (setup_up _ _ _ F Su) as [R Ma (sc & Es & Ag)].
  change (fun _ : Z => @None fundef) with (assoc []). apply live_goes; [exact Lm|exact Lf| |left; split; [reflexivity|intro; unfold find_global; rewrite (machine_globals _ _ Ma), Ng; reflexivity]].
  destruct R as [K Kw Cx Us Gb Fu].
  assert (wf true 0 (k_vm k)) as Wf. { pose proof (machine_wf _ _ (v_static (k_vm k)) (fresh_wf _ F) Ma K eq_refl) as Q. rewrite set_static_same in Q. exact Q. }
  assert (forall i, get_obj (k_vm k) i = None) as No0. { intro i. unfold get_obj. rewrite (machine_objs _ _ Ma). apply (f_objs _ F). }
  assert (stack_is (k_vm k) []) as Sk. { destruct (f_stack _ F) as (c & A & B). exists c. rewrite (machine_ctxs _ _ Ma), (machine_cur _ _ Ma). auto. }
  constructor; auto.
  - constructor; auto.
  - eauto.
  - rewrite (machine_cur _ _ Ma). apply (f_cur _ F).
  - rewrite (machine_left _ _ Ma). apply (f_left _ F).
  - destruct (v_hlist (k_vm k)) as [|i q] eqn:Q; [reflexivity|]. exfalso. destruct (proj1 (w_hlist _ _ _ Wf i)) as (ob & G & _); [rewrite Q; left; reflexivity|]. rewrite No0 in G. discriminate.
  - rewrite Kw. destruct (f_ip _ F) as (c & A & B). exists c. rewrite (machine_ctxs _ _ Ma), (machine_cur _ _ Ma). auto.
  - rewrite (machine_maxstack _ _ Ma). exact Mx.
  - rewrite (machine_maxfields _ _ Ma). exact Mf.
  - constructor.
  - contradiction.
  - contradiction.
  - exists nothing, (fun _ _ => vnil). cbn [m_heap m_global]. split; [|exact Gl]. split.
    + split; [exact (w_str _ _ _ Wf)|exact (w_tab _ _ _ Wf)| |intros i ob G; rewrite No0 in G; discriminate]. destruct Sk as (c & A & _). exists c. exact A.
    + discriminate.
    + discriminate.
    + intros i ob G. rewrite No0 in G. discriminate.
    + exact Vs.
    + intros i t Li. exact (kept_entry _ _ _ Li).
Qed.
End Claims.

Print Assumptions C66_session_partial.

(** ** A session *)

(** [var o = object(); function add(n) { o.a = n + 1; return o.a; }], then
    [var y = add(4);], then the host calls [add(7)], then [var z = o.a * y;]. *)
#[local] Existing Instance no_hosts.
Definition se_host : Z -> list value -> M value := fun _ _ => mub UbNull.
Definition se_text1 : bytes := bs "var o = object(); function add(n) { o.a = n + 1; return o.a; }".
Definition se_text2 : bytes := bs "var y = add(4);".
Definition se_text3 : bytes := bs "var z = o.a * y;".
Definition oa : expr := EField (var (bs "o")) (tk TK_DOT (bs ".")) (nm (bs "a")).
Definition se_body : stmt :=
  SBlock co (Then (SExpr (EInfix oa (tk TK_ASSIGNMENT (bs "=")) (EInfix (var (bs "n")) (tk TK_PLUS (bs "+")) (num (bs "1")))) semi)
    (Then (SReturn (tk TK_RETURN (bs "return")) oa semi) Done)) cc.
Definition se_l1 : stmts :=
  Then (SInit (tk TK_VAR (bs "var")) (nm (bs "o")) (tk TK_ASSIGNMENT (bs "=")) (ECall (fse (bs "object")) po NoArgs pc) semi)
  (Then (SFunc 0 (tk TK_FUNCTION (bs "function")) (nm (bs "add")) po (PLast (nm (bs "n"))) pc se_body) Done).
Definition se_l2 : stmts :=
  Then (SInit (tk TK_VAR (bs "var")) (nm (bs "y")) (tk TK_ASSIGNMENT (bs "=")) (ECall (var (bs "add")) po (LastArg (num (bs "4"))) pc) semi) Done.
Definition se_l3 : stmts :=
  Then (SInit (tk TK_VAR (bs "var")) (nm (bs "z")) (tk TK_ASSIGNMENT (bs "=")) (EInfix oa (tk TK_MULTIPLY (bs "*")) (var (bs "y"))) semi) Done.
Definition se_fd : fundef := mkFun [bs "n"] se_body [(bs "add", Global 1); (bs "o", Global 0)] 2.
Definition se_funs (i : Z) : option fundef := if i =? 0 then Some se_fd else None.
Definition compiled (text : bytes) (k : comp) : comp := match compile_script 1000 text (bs "f") k with Ok (_, k1) => k1 | Ub _ => k end.
Definition runnable (k : comp) : comp := match partially_finalize k with Ok (_, k2) => k2 | Ub _ => k end.
Definition ran (t : vm) : vm := match execute nomark se_host 2000 t with Ok (_, t') => t' | Ub _ => t end.
Definition toks_of (text : bytes) (k : comp) : list token := match tokenize text (bs "f") (k_vm k) with Ok (Some l, _) => l | _ => [] end.
Definition se_k0 : comp := comp_init vm_init.
Definition se_k1 : comp := runnable (compiled se_text1 se_k0).
Definition se_k2 : comp := set_k_vm (ran (k_vm se_k1)) se_k1.
Definition se_k3 : comp := runnable (compiled se_text2 se_k2).
Definition se_k4 : comp := set_k_vm (ran (k_vm se_k3)) se_k3.
Definition se_k5 : comp := set_k_vm (match call_function nomark se_host 100 (mkV T_FUNC 0) [vint 7] (k_vm se_k4) with Ok (_, t) => t | Ub _ => k_vm se_k4 end) se_k4.
Definition se_k6 : comp := runnable (compiled se_text3 se_k5).
Definition se_k7 : comp := set_k_vm (ran (k_vm se_k6)) se_k6.

(** What the machine does. *)
Example C66_machine :
  match compile_script 1000 se_text1 (bs "f") se_k0 with Ok (b, k) => b = true /\ partially_finalize k = Ok (tt, se_k1) | Ub _ => False end /\
  v_errs (k_vm se_k1) = [] /\ match execute nomark se_host 2000 (k_vm se_k1) with Ok (r, _) => r = Some true | Ub _ => False end /\
  match compile_script 1000 se_text2 (bs "f") se_k2 with Ok (b, k) => b = true /\ partially_finalize k = Ok (tt, se_k3) | Ub _ => False end /\
  v_errs (k_vm se_k3) = [] /\ match execute nomark se_host 2000 (k_vm se_k3) with Ok (r, _) => r = Some true | Ub _ => False end /\
  match call_function nomark se_host 100 (mkV T_FUNC 0) [vint 7] (k_vm se_k4) with Ok (r, _) => r = Some (Some (vint 8)) | Ub _ => False end /\
  match compile_script 1000 se_text3 (bs "f") se_k5 with Ok (b, k) => b = true /\ partially_finalize k = Ok (tt, se_k6) | Ub _ => False end /\
  v_errs (k_vm se_k6) = [] /\ match execute nomark se_host 2000 (k_vm se_k6) with Ok (r, _) => r = Some true | Ub _ => False end /\
  find_global (bs "z") (k_vm se_k7) = Some 3 /\ znth (v_static (k_vm se_k7)) 3 = Some (vint 40).
Proof. vm_compute. repeat split. Qed.

(** What the texts mean. *)
Ltac def2 := unfold se_l1, se_l2, se_l3, se_body; repeat match goal with
  | |- sdefined _ _ Done => apply df_done
  | |- sdefined _ _ (Then _ _) => apply df_then
  | |- defined _ _ (SExpr _ _) => apply df_expr; nolits
  | |- defined _ _ (SInit _ _ _ _ _) => apply df_init; nolits
  | |- defined _ _ (SReturn _ _ _) => apply df_return; nolits
  | |- defined _ _ (SBlock _ _ _) => apply df_block
  | |- defined _ _ (SFunc _ _ _ _ _ _ _) => eapply df_func; [reflexivity|reflexivity|cbn [fd_body se_fd]; unfold se_body]
  end.
Example C66_texts :
  toks_of se_text1 se_k0 = sstext se_l1 /\ swritten se_l1 /\ sdefined se_funs ex_E se_l1 /\
  toks_of se_text2 se_k2 = sstext se_l2 /\ swritten se_l2 /\ sdefined se_funs (afters se_l1 ex_E) se_l2 /\
  toks_of se_text3 se_k5 = sstext se_l3 /\ swritten se_l3 /\ sdefined se_funs (afters se_l2 (afters se_l1 ex_E)) se_l3.
Proof.
  split; [vm_compute; reflexivity|]. split; [unfold se_l1, se_body, oa, num, var, fse; cbn [swritten written grouped args_grouped pwritten]; grp|]. split; [def2|].
  split; [vm_compute; reflexivity|]. split; [unfold se_l2, oa, num, var, fse; cbn [swritten written grouped args_grouped pwritten]; grp|]. split; [def2|].
  split; [vm_compute; reflexivity|]. split; [unfold se_l3, oa, num, var, fse; cbn [swritten written grouped args_grouped pwritten]; grp|def2].
Qed.

Example C66_meaning : exists m1 m2 m3 m4 v,
  exs se_funs 100 50 ex_E 0 (mkMem (fun _ => None) [] []) se_l1 Next m1 /\
  exs se_funs 100 50 (afters se_l1 ex_E) 0 m1 se_l2 Next m2 /\
  ex se_funs 100 50 (fun_env se_fd) 1 (set_locals (map Some [VInt 7] ++ [None; None]) m2) se_body (Returned v) m3 /\ v = VInt 8 /\
  exs se_funs 100 50 (afters se_l2 (afters se_l1 ex_E)) 0 (set_locals [] m3) se_l3 Next m4 /\
  m_global m4 3 = Some (VInt 40) /\ m_heap m4 = [[(VStr (bs "a"), VInt 8)]].
Proof.
  eexists _, _, _, _, _. split; [unfold se_l1; run|]. split; [unfold se_l2; run|]. split; [unfold se_body; run|]. split; [vm_compute; reflexivity|]. split; [unfold se_l3; run|]. split; vm_compute; reflexivity.
Qed.

(** Checking that the resources last in a call, by running it. *)
Definition ip_of (t : vm) : Z := match znth (v_ctxs t) (v_cur t) with Some (Some c) => c_ip c | _ => 0 end.
Fixpoint call_lasts (n : nat) (t : vm) : bool :=
  enoughb t && if ip_of t =? INVALID then true else
    match n with O => false | S n => match iterate nomark se_host t with Ok (_, t1) => call_lasts n t1 | Ub _ => true end end.
Lemma fetch_ctx t w t' : fetch t = Ok (w, t') -> exists c, znth (v_ctxs t) (v_cur t) = Some (Some c).
Proof.
  unfold fetch, cur_ctx. intro H. apply bind_inv in H. destruct H as (c & s & E & _). apply bind_inv in E. destruct E as (i & s1 & E1 & E2). injection E1 as <- <-.
  unfold get_ctx in E2. destruct (znth (v_ctxs t) (v_cur t)) as [[x|]|]; try discriminate. eauto.
Qed.
Lemma call_lasts_enough t t' : steps nomark se_host t t' -> forall n, call_lasts n t = true -> enough t'.
Proof.
  induction 1 as [t|t w t1 t2 Fe Ne It He Fr Ni St IH]; intros n L.
  - destruct n; cbn [call_lasts] in L; apply andb_prop in L; apply enoughb_enough, L.
  - assert (ip_of t =? INVALID = false) as Q.
    { destruct (fetch_ctx _ _ _ Fe) as (c & Hc). unfold ip_of. rewrite Hc. apply Z.eqb_neq. intro X. apply Ni. exists c. auto. }
    destruct n; cbn [call_lasts] in L; apply andb_prop in L; destruct L as [_ L]; rewrite Q in L; [discriminate|]. rewrite It in L. eapply IH; eauto.
Qed.

(** The hypotheses of the theorem, and those of its steps. *)
Example C66_case :
  fresh vm_init /\ v_globals vm_init = [] /\ setup vm_init se_k0 ex_E /\ v_errs (k_vm se_k0) = [] /\ 100 <= 65536 /\ 2 * 100 - 2 <= v_maxstack vm_init /\ 50 < W32 /\ 50 <= v_maxfields vm_init /\
  (forall x, In x (v_static (k_vm se_k0)) -> exists v, rep (k_vm se_k0) nothing v x) /\ globs (k_vm se_k0) nothing (fun _ => None) /\
  is_text se_text1 /\ is_text se_text2 /\ is_text se_text3 /\
  plenty nomark se_host (k_vm se_k1) /\ plenty nomark se_host (k_vm se_k3) /\ plenty_call nomark se_host (mkV T_FUNC 0) [vint 7] (k_vm se_k4) /\ plenty nomark se_host (k_vm se_k6) /\
  Forall2 (held (k_vm se_k4) (afters se_l2 (afters se_l1 ex_E)) (mkMem (fun _ => None) [] [])) [VInt 7] [vint 7].
Proof.
  assert (forall t, lasting nomark se_host 2000 t = true -> plenty nomark se_host t) as P.
  { intros t L. split; [intros t' St; eapply lasting_enough; [exact St|exact L]|apply no_implements]. }
  split; [exact C40_fresh|]. split; [reflexivity|]. split; [constructor|]. split; [reflexivity|]. split; [lia|]. split; [vm_compute; congruence|]. split; [reflexivity|]. split; [vm_compute; congruence|].
  split. { intros x I. exists (VInt 0). assert (forallb (fun x => (v_type x =? T_INT) && (v_data x =? 0)) (v_static (k_vm se_k0)) = true) as Q by (vm_compute; reflexivity).
    rewrite forallb_forall in Q. specialize (Q x I). destruct x as [ty d]. cbn [v_type v_data] in Q. apply andb_prop in Q. destruct Q as [Q1 Q2]. apply Z.eqb_eq in Q1, Q2. subst.
    split; [reflexivity|unfold is_s32; vm_compute; split; congruence]. }
  split; [intros i v Q; discriminate|]. do 3 (split; [apply textb_text; vm_compute; reflexivity|]).
  split; [apply P; vm_compute; reflexivity|]. split; [apply P; vm_compute; reflexivity|].
  split. { split; [|apply no_implements]. intros t1 t' En St. apply (call_lasts_enough _ _ St 100).
    assert (match HostCallProofs.enter se_host (mkV T_FUNC 0) [vint 7] (k_vm se_k4) with Ok (_, t) => call_lasts 100 t | Ub _ => false end = true) as Q by (vm_compute; reflexivity).
    rewrite En in Q. exact Q. }
  split; [apply P; vm_compute; reflexivity|]. constructor; [|constructor]. left. split; [reflexivity|unfold is_s32; vm_compute; split; congruence].
Qed.

(** It goes on: the host collects garbage, sets [y] to 9, declares [w] with the
    object it finds in [o] and a function [dbl]; then [var q = w.a + y;]. *)
Definition se_text4 : bytes := bs "var q = w.a + y;".
Definition se_k8 : comp := set_k_vm (match GcModel.garbage_collect nomark (k_vm se_k7) with Ok (_, t) => t | Ub _ => vm_init end) se_k7.
Definition put (name : bytes) (x : value) (k : comp) : comp :=
  match find_global name (k_vm k) with Some j => match wr (v_static (k_vm k)) j x with Ok st => set_k_vm (set_static st (k_vm k)) k | Ub _ => k end | None => k end.
Definition se_k9 : comp := put (bs "y") (vint 9) se_k8.
Definition the (name : bytes) (k : comp) : value :=
  match find_global name (k_vm k) with Some j => match znth (v_static (k_vm k)) j with Some x => x | None => vnil end | None => vnil end.
Definition se_k10 : comp := match create_global (bs "w") se_k9 with
  | Ok (Some p, k) => match wr (v_static (k_vm k)) p (the (bs "o") se_k9) with Ok st => runnable (set_k_vm (set_static st (k_vm k)) k) | Ub _ => k end
  | _ => se_k9 end.
Definition se_k11 : comp := match create_c_function (bs "dbl") (Some 7) se_k10 with Ok (_, k) => runnable k | Ub _ => se_k10 end.
Definition se_k12 : comp := runnable (compiled se_text4 se_k11).
Definition se_k13 : comp := set_k_vm (ran (k_vm se_k12)) se_k12.
Definition is_object (x : value) : bool := v_type x =? T_OBJ.
Example C66_more :
  v_gcpass (k_vm se_k7) < INVALID /\ match GcModel.garbage_collect nomark (k_vm se_k7) with Ok (_, t) => v_errs t = [] | Ub _ => False end /\
  find_global (bs "y") (k_vm se_k8) = Some 2 /\ is_object (the (bs "o") se_k9) = true /\
  match create_global (bs "w") se_k9 with Ok (p, k) => p = Some 5 /\ v_errs (k_vm k) = [] | Ub _ => False end /\ v_errs (k_vm se_k10) = [] /\
  match create_c_function (bs "dbl") (Some 7) se_k10 with Ok (_, k) => v_errs (k_vm k) = [] /\ znth (v_static (k_vm k)) 7 = Some (mkV T_FUNC 1) | Ub _ => False end /\ v_errs (k_vm se_k11) = [] /\
  match compile_script 1000 se_text4 (bs "f") se_k11 with Ok (b, k) => b = true /\ partially_finalize k = Ok (tt, se_k12) | Ub _ => False end /\
  v_errs (k_vm se_k12) = [] /\ match execute nomark se_host 2000 (k_vm se_k12) with Ok (r, _) => r = Some true | Ub _ => False end /\
  the (bs "q") se_k13 = vint 17 /\ the (bs "w") se_k13 = the (bs "o") se_k13.
Proof. vm_compute. repeat split. Qed.
