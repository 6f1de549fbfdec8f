(** * DeclareProofs: the host declares variables and functions between scripts (C66) *)

From Verif Require Import Base BaseFacts State MonadFacts TableModel TableProofs StrModel StrSpec StrProofs ObjsModel ObjsSpec ObjsProofs ValueModel TokenModel TokenSpec TokenProofs TokenProperties OpSpec StackModel VmModel RegModel
  VmSpec CsModel ExprModel CompModel KFacts ParseSpec ParseProofs TermProperties ParseProperties RunSpec RepSpec HeapProofs CodeRel ExecProofs EmitProofs DidProofs StmtProofs MachProofs UseProofs SimProofs FaultSpec RunProofs RunProperties.
From Verif Require Import SessionSpec SessionProofs.
From Coq Require Import ZArith List Lia Bool.
Import ListNotations.
Open Scope Z_scope.

(** What changes when something is declared or the program made runnable: the
    code so far, the functions, the strings and the globals stay. *)
Record extended (k k' : comp) : Prop := {
  xt_machine : exists gl, machine (set_globals gl (k_vm k)) (k_vm k');
  xt_grown : grown (k_vm k) (k_vm k');
  xt_w : k_w k' = k_w k;
  xt_code : forall i, 0 <= i < k_w k -> kmem k' i = kmem k i;
  xt_nstat : k_nstat k <= k_nstat k';
  xt_funcs : forall j f, znth (v_funcs (k_vm k)) j = Some f -> znth (v_funcs (k_vm k')) j = Some f;
  xt_len : zlen (v_funcs (k_vm k)) <= zlen (v_funcs (k_vm k'))
}.

Lemma set_globals_same s : set_globals (v_globals s) s = s.
Proof. destruct s; reflexivity. Qed.
Lemma machine_same_globals s s' : machine s s' -> exists gl, machine (set_globals gl s) s'.
Proof. intro M. exists (v_globals s). rewrite set_globals_same. exact M. Qed.

Section Live.
Variable hostmark : Z -> Z -> option Z -> list value.
Variable host : Z -> list value -> M value.
Context {HS : Hosts}.
Variables lim mf : Z.

Lemma live_extended k E F m k' E' : live lim mf k E F m -> extended k k' -> primed k' E' ->
  (exists sc, e_scopes E' = [sc] /\ all_global (e_globals E') sc) -> v_errs (k_vm k') = [] -> live lim mf k' E' F m.
Proof.
  intros [R (sc & Es & Ag) Er Wf Cu Le Hl Ip Sk Mx Mf Nd Id Fns (W0 & mm0 & Wd0 & Gl0) Lo] [(gl & Mt) Gt Kw Co Ns Ff Fl] R' Sc' N.
  pose proof (pm_wf _ _ R') as K2.
  assert (live_ctx (k_vm k) (v_cur (k_vm k))) as Lc by (destruct Sk as (c & A & _); exists c; exact A).
  assert (str_wf (v_strs (k_vm k)) (v_byhash (k_vm k))) as Sw0 by apply (w_str _ _ _ Wf).
  assert (str_wf (v_strs (k_vm k')) (v_byhash (k_vm k'))) as Sw2 by apply (kw_str _ K2).
  assert (forall i t, @lit (kept_of (k_vm k)) i = Some t -> @lit (kept_of (k_vm k')) i = Some t) as More.
  { intros i t Li. apply kept_entry in Li. destruct Li as (e & A & B & C). destruct Gt as [_ Gm]. destruct (Gm (sw_tab _ _ Sw0)) as [_ Q]. destruct (Q _ _ A) as (e' & A' & B' & C').
    unfold lit, kept_of. unfold get_str_entry in *. rewrite A', (C' B). congruence. }
  constructor; auto.
  - assert (wf true 0 (set_globals gl (k_vm k))) as Wg by (destruct Wf; split; assumption). pose proof (machine_wf _ _ (v_static (k_vm k')) Wg Mt K2 eq_refl) as Q. rewrite set_static_same in Q. exact Q.
  - rewrite (machine_cur _ _ Mt). exact Cu.
  - rewrite (machine_left _ _ Mt). exact Le.
  - rewrite (machine_hlist _ _ Mt). exact Hl.
  - rewrite Kw. destruct Ip as (c & A & B). exists c. rewrite (machine_ctxs _ _ Mt), (machine_cur _ _ Mt). auto.
  - destruct Sk as (c & A & B). exists c. rewrite (machine_ctxs _ _ Mt), (machine_cur _ _ Mt). auto.
  - rewrite (machine_maxstack _ _ Mt). exact Mx.
  - rewrite (machine_maxfields _ _ Mt). exact Mf.
  - intros id I. specialize (Id _ I). lia.
  - intros mw ng Om Gn Tn id fd I. apply (fn_more (kept_of (k_vm k))); [exact More|].
    destruct (Fns mw ng) with (id := id) (fd := fd) as (f & F1 & F2 & F3 & F4 & F5); [|lia|exact Tn|exact I|].
    { intros i Hi. rewrite (Om i) by lia. apply Co, Hi. }
    exists f. rewrite Kw. auto.
  - exists W0, mm0. split; [|eapply globs_grown; [exact Gl0|exact Gt|exact Sw0|exact Sw2|apply (kw_smask _ K2)]].
    assert (world (@lit (kept_of (k_vm k))) (set_globals gl (k_vm k)) W0 mm0 (m_heap m)) as Wdg.
    { eapply world_same; [exact Wd0|reflexivity|reflexivity|reflexivity|exact Lc|exact (wd_static _ _ _ _ _ Wd0)]. }
    eapply (world_grown (kept_of (k_vm k)) (kept_of (k_vm k'))); [exact Wdg|exact Mt|exact Gt|exact Sw2|]. intros i t Li. exact (kept_entry _ _ _ Li).
Qed.

(** Making the program runnable. *)
Lemma live_final k E F m u k' : live lim mf k E F m -> partially_finalize k = Ok (u, k') -> v_errs (k_vm k') = [] ->
  live lim mf k' E F m /\ (forall name, find_global name (k_vm k') = match lookup name (e_scopes E) with Some (Global i) => Some i | _ => None end).
Proof.
  intros Lv Hf N0. set (LT := kept_of (k_vm k')). assert (noerr k') as N by (apply kept_noerr, N0).
  pose proof (lv_primed _ _ _ _ _ _ Lv) as [RW (c & sc & C & Co & Cl & Cf & Sc & Sr) Ru Rn Rf]. destruct (lv_scope _ _ _ _ _ _ Lv) as (sc' & Es & Ag). rewrite Sc in Es. injection Es as <-.
  destruct (pfinal_inv _ _ _ _ Hf N RW C) as (K2 & Kw & Bl & Me & Ns2 & Fu & Cc & _ & Mc & Gr2).
  split.
  - eapply live_extended; [exact Lv| | | |exact N0].
    + split; [eexists; exact Mc|exact Gr2|exact Kw|exact Bl|lia|rewrite Fu; auto|rewrite Fu; lia].
    + split; [exact K2|exists c, sc; auto 10|exact Ru|lia|rewrite Fu; exact Rf].
    + eauto.
  - intro name. unfold find_global. rewrite (machine_globals _ _ Mc). vs. rewrite Sc. rewrite (find_record_rel name _ _ Sr).
    2:{ eapply Forall_impl; [|exact (proj1 Ag)]. intros [x p] H. cbn [snd] in *. destruct p; [exact I|exact H]. }
    cbn [lookup]. destruct (find_in name sc) as [[i|i]|] eqn:Fii; try reflexivity. f_equal. pose proof (find_in_global _ _ _ _ Ag Fii) as Ri. pose proof (kw_n _ K2) as Q.
    rewrite (kw_smask _ K2). destruct (kw_spow _ K2) as (e & Re & Ee). rewrite Z.land_comm.
    replace (zlen (v_static (k_vm k')) - 1) with (Z.ones e) by (rewrite Z.ones_equiv; lia). rewrite Z.land_ones by lia. apply Z.mod_small. lia.
Qed.

(** A new global variable. *)
Lemma live_global k E F m n r k' : live lim mf k E F m -> create_global n k = Ok (r, k') -> v_errs (k_vm k') = [] ->
  r = Some (e_globals E + 1) /\ live lim mf k' (mkEnv [(n, Global (e_globals E + 1)) :: outermost E] 0 (e_globals E + 2)) F m /\ e_globals E + 1 < zlen (v_static (k_vm k')) /\ grown (k_vm k) (k_vm k').
Proof.
  intros Lv H N0. pose proof (lv_primed _ _ _ _ _ _ Lv) as [W (c & s0 & C & Of & Lo & Fn & Es & Sr) U G Fu]. destruct (lv_scope _ _ _ _ _ _ Lv) as (sc & Es' & Ag). rewrite Es in Es'. injection Es' as <-.
  set (LT := kept_of (k_vm k')). assert (noerr k') as N by apply kept_noerr, N0. clearbody LT.
  unfold create_global in H. rewrite (kbind_run _ _ _ _ _ (gets_run k_ctx k)), C in H. kb H. rename k0 into k1.
  assert (noerr k1) as N1.
  { revert N. refine ((_ : pres errs _) _ _ _ H). ew I. apply (w_alloc_static _ errs_prims). }
  destruct (add_host_inv _ _ _ _ _ E0 N1 W C) as [-> (k2 & Al & N2 & ->)]. clear E0. cbn [negb] in H. rewrite (kbind_run _ _ _ _ _ (cur_cc_run (set_k_ctx _ k2) _ _ eq_refl)) in H. cbn [set_cc_vars cc_vars cv_pos] in H.
  destruct (alloc_inv _ _ _ Al N2 W) as (_ & Ns & W2 & Kw2 & C2 & T2 & Co2 & F2). destruct (w_alloc_static calm calm_prims _ _ _ Al N2) as [_ M2]. destruct (w_alloc_static adds adds_prims _ _ _ Al N2) as [_ G2].
  set (c1 := set_cc_vars _ c) in H. set (k3 := set_k_ctx [c1] k2) in *.
  assert (kwf k3) as W3 by (destruct W2; constructor; assumption).
  destruct (Z.eqb_spec (k_nstat k) INVALID) as [Q|Q].
  { exfalso. pose proof (kw_n _ W). pose proof (pow2_bounds _ (kw_spow _ W)). unfold INVALID, W32, W31 in *. lia. }
  kb H. rename k0 into k4. assert (noerr k4) as N4. { revert N. refine ((_ : pres errs _) _ _ _ H). ew I. }
  destruct (alloc_inv _ _ _ E0 N4 W3) as (-> & Ns4 & W4 & Kw4 & C4 & T4 & Co4 & F4). destruct (w_alloc_static calm calm_prims _ _ _ E0 N4) as [_ M4]. destruct (w_alloc_static adds adds_prims _ _ _ E0 N4) as [_ G4].
  rewrite (kbind_run _ _ _ _ _ (gets_run k_vm k4)) in H. kb H. apply klift_inv in E1. destruct E1 as [_ ->]. rewrite (kbind_run _ _ _ _ _ (mod_cc_run _ k4 c1 [] C4)) in H. injection H as <- <-.
  change (k_nstat k3) with (k_nstat k2) in *. change (k_w k3) with (k_w k2) in *. change (k_vm k3) with (k_vm k2) in *. rewrite Ns, G in *. split; [reflexivity|].
  assert (grown (k_vm k) (k_vm k4)) as Gr by (eapply grown_trans; eauto).
  split; [|split; [ks; pose proof (kw_n _ W4); lia|exact Gr]].
  eapply live_extended; [exact Lv| | | |exact N0].
  - split; ks; [apply machine_same_globals; eapply machine_trans; eauto|exact Gr|lia| |lia| |rewrite F4, F2; lia].
    + intros i _. unfold kmem, kcode. ks. rewrite Co4, Co2. reflexivity.
    + rewrite F4, F2. auto.
  - constructor; ks.
    + destruct W4; constructor; assumption.
    + eexists _, _. split; [reflexivity|]. split; [exact Of|]. split; [exact Lo|]. split; [exact Fn|]. split; [reflexivity|]. unfold srel. cbn [cc_vars set_cc_vars]. constructor; [split; [reflexivity|split; reflexivity]|].
      unfold outermost. rewrite Es. exact Sr.
    + reflexivity.
    + cbn [e_globals]. lia.
    + rewrite F4, F2. exact Fu.
  - eexists. split; [reflexivity|]. cbn [e_globals]. unfold outermost. rewrite Es. cbn [last].
    replace (e_globals E + 2) with (e_globals E + 1 + 1) by lia. apply all_global_new with (n := e_globals E); [exact Ag|]. pose proof (kw_n _ W). lia.
Qed.

(** A new function of the host. *)
Lemma register_funcs n cb s i s' : register_external_function n cb s = Ok (i, s') -> v_errs s' = [] -> v_funcs s' = v_funcs s.
Proof.
  unfold register_external_function, register_external_function_nosearch. intros H N. apply bind_inv in H. destruct H as (l & s1 & G & H). injection G as <- <-.
  destruct (find_idx _ _ _). { injection H as _ <-. reflexivity. }
  apply bind_inv in H. destruct H as (l & s1 & G & H). injection G as <- <-. destruct (_ =? 0).
  - exfalso. apply bind_inv in H. destruct H as (u & s1 & G & H). injection H as _ <-. eapply add_error_some; eauto.
  - apply bind_inv in H. destruct H as (u & s1 & G & H). injection G as _ <-. injection H as _ <-. reflexivity.
Qed.
Lemma internal_funcs e s i s' : get_or_create_internal e s = Ok (i, s') -> v_errs s' = [] ->
  (forall j f, znth (v_funcs s) j = Some f -> znth (v_funcs s') j = Some f) /\ zlen (v_funcs s) <= zlen (v_funcs s').
Proof.
  unfold get_or_create_internal, create_function. intros H N. apply bind_inv in H. destruct H as (l & s1 & G & H). injection G as <- <-.
  destruct (_ <=? _). { exfalso. apply bind_inv in H. destruct H as (u & s1 & G & H). injection H as _ <-. eapply add_error_some; eauto. }
  apply bind_inv in H. destruct H as (x & s1 & G & H). unfold lift in G. destruct (rd _ _) eqn:Rx; [|discriminate]. injection G as -> <-.
  destruct (_ =? _); [|injection H as _ <-; split; [auto|lia]].
  apply bind_inv in H. destruct H as (j & s1 & G & H). apply bind_inv in G. destruct G as (l & s2 & G & G'). injection G as <- <-. destruct (Z.eqb_spec (u32 (zlen (v_funcs s) + 1)) 0) as [Q|Q]; [discriminate|].
  apply bind_inv in G'. destruct G' as (u & s2 & G & G'). injection G as _ <-. injection G' as <- <-.
  apply bind_inv in H. destruct H as (fs & s1 & G & H). injection G as <- <-.
  apply bind_inv in H. destruct H as (fs & s1 & G & H). unfold lift in G. destruct (wr _ _ _) eqn:Wr; [|discriminate]. injection G as <- <-. apply wr_inv in Wr. destruct Wr as [-> _].
  apply bind_inv in H. destruct H as (u1 & s1 & G & H). injection G as _ <-.
  apply bind_inv in H. destruct H as (fs & s1 & G & H). unfold lift in G. destruct (wr _ _ _) eqn:Wr; [|discriminate]. injection G as <- <-.
  apply bind_inv in H. destruct H as (u2 & s1 & G & H). injection G as _ <-. injection H as _ <-. vs. split.
  - intros b f Z. pose proof (znth_some_range _ _ _ Z). rewrite znth_zupd_other by lia. rewrite znth_app_l by lia. exact Z.
  - rewrite zlen_zupd, zlen_app. match goal with |- _ <= _ + zlen ?q => pose proof (zlen_nonneg q) end. lia.
Qed.
Lemma live_vm k E F m v : live lim mf k E F m -> fkeep (k_vm k) v -> v_errs v = [] ->
  (forall j f, znth (v_funcs (k_vm k)) j = Some f -> znth (v_funcs v) j = Some f) -> zlen (v_funcs (k_vm k)) <= zlen (v_funcs v) ->
  live lim mf (set_k_vm v k) E F m.
Proof.
  intros Lv Fk N Ff Fl. destruct (Fk N) as (_ & Mv & Ec & Em & Est & Em2 & Es1 & Es2 & Fu). pose proof (lv_primed _ _ _ _ _ _ Lv) as [W Cx Us Gb Fz].
  eapply live_extended; [exact Lv| | |exact (lv_scope _ _ _ _ _ _ Lv)|exact N].
  - split; ks; auto; [apply machine_same_globals; exact Mv|apply grown_same; assumption| |lia]. intros i _. unfold kmem, kcode. ks. rewrite Ec. reflexivity.
  - constructor; ks; auto. destruct W as [A1 A2 A3 A4 A5 A6 A7]. constructor; unfold kcode in *; ks; rewrite ?Ec, ?Em, ?Est, ?Em2, ?Es1, ?Es2; assumption.
Qed.
Lemma live_function k E F m n cb u k' id : lim <= 65536 -> mf < W32 -> live lim mf k E F m -> create_c_function n cb k = Ok (u, k') -> v_errs (k_vm k') = [] ->
  znth (v_static (k_vm k')) (e_globals E + 1) = Some (mkV T_FUNC id) -> is_u32 id ->
  live lim mf k' (mkEnv [(n, Global (e_globals E + 1)) :: outermost E] 0 (e_globals E + 2)) F (write (Global (e_globals E + 1)) (VFun id) m).
Proof.
  intros Lm Lf Lv H N0 Zi Ui. set (LT := kept_of (k_vm k')). assert (noerr k') as N by apply kept_noerr, N0. clearbody LT. unfold create_c_function in H.
  kb H. apply kvm_inv in E0. destruct E0 as (v1 & E0 & ->). kb H. apply kvm_inv in E1. destruct E1 as (v2 & E1 & ->).
  kb H. rename k0 into k1.
  assert (noerr k1) as N1.
  { destruct x1; [|injection H as _ <-; exact N]. kb H. injection E3 as <- <-. kb H. apply klift_inv in E3. destruct E3 as [_ ->]. apply kvm_inv in H. destruct H as (v3 & H & ->). injection H as _ <-. exact N. }
  assert (noerr (set_k_vm v2 (set_k_vm v1 k))) as N2.
  { revert N1. refine ((_ : pres errs _) _ _ _ E2). unfold create_global, add_variable. ew I; apply (w_alloc_static _ errs_prims). }
  destruct N2 as [N2 _]. ksin N2. ksin E1. pose proof (internal_keep _ _ _ _ E1) as Fk2. destruct (Fk2 N2) as (N3 & _). pose proof (register_keep _ _ _ _ _ E0) as Fk1.
  pose proof (register_funcs _ _ _ _ _ E0 N3) as Rf. destruct (internal_funcs _ _ _ _ E1 N2) as [If Il].
  assert (live lim mf (set_k_vm v1 k) E F m) as L1 by (apply live_vm; auto; rewrite Rf; [auto|lia]).
  assert (live lim mf (set_k_vm v2 (set_k_vm v1 k)) E F m) as L2 by (apply live_vm; auto).
  destruct (live_global _ _ _ _ _ _ _ L2 E2 (proj1 N1)) as (-> & L3 & Rg & _). rewrite (kbind_run _ _ _ _ _ (gets_run k_vm k1)) in H.
  kb H. apply klift_inv in E3. destruct E3 as [Wr ->]. apply wr_inv in Wr. destruct Wr as [-> Rw]. apply kvm_inv in H. destruct H as (v3 & H & ->). injection H as _ <-.
  pose proof (pm_wf _ _ (lv_primed _ _ _ _ _ _ L3)) as K3. pose proof (kw_n _ (pm_wf _ _ (lv_primed _ _ _ _ _ _ L2))) as Q. pose proof (pm_globals _ _ (lv_primed _ _ _ _ _ _ L2)) as Qg.
  assert (Z.land (e_globals E + 1) (v_smask (k_vm k1)) = e_globals E + 1) as Ma.
  { rewrite (kw_smask _ K3). destruct (kw_spow _ K3) as (e & Re & Ee). replace (zlen (v_static (k_vm k1)) - 1) with (Z.ones e) by (rewrite Z.ones_equiv; lia). rewrite Z.land_ones by lia. apply Z.mod_small. lia. }
  rewrite Ma in *. ksin Zi. vsin Zi. rewrite znth_zupd_same in Zi by exact Rw. injection Zi as ->.
  apply (live_assign hostmark host lim mf _ _ _ _ _ (VFun id) (mkV T_FUNC id) Lm Lf L3 Rw). intros W mm _ _. split; [reflexivity|exact Ui].
Qed.
End Live.
