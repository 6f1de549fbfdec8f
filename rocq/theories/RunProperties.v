(** * RunProperties: compiled scripts do what they say (C37, C38, C40-C42, C51) *)

From Verif Require Import Base BaseFacts State MonadFacts TableProofs StrModel StrProofs ObjsModel TokenModel TokenSpec TokenProofs TokenProperties OpSpec StackModel VmModel RegModel
  CsModel ExprModel CompModel KFacts ParseSpec ParseProofs ParseProperties VmSpec VmStep VmProperties RunSpec RepSpec CodeRel ExecProofs EmitProofs DidProofs StmtProofs MachProofs UseProofs SimProofs HostCallProofs RunProofs.
From Coq Require Import ZArith List Lia Bool.
Import ListNotations.
Open Scope Z_scope.

(** ** The state of things when a script is compiled *)

(** A virtual machine nothing has been run in. *)
Record fresh (s : vm) : Prop := {
  f_ok : vm_ok s;
  f_errs : v_errs s = [];
  f_objs : forall i, get_obj s i = None;
  f_cur : v_cur s = 0;
  f_stack : stack_is s [];
  f_ip : ip_is s 0;
  f_left : v_left s = INVALID;
  f_funcs : zlen (v_funcs s) < W32
}.

(** [setup s k E]: a compiler [k] created for [s], with which the host has
    declared variables and functions; [E]: the names the script can use. *)
Inductive setup (s : vm) : comp -> env -> Prop :=
| su_new : setup s (comp_init s) (mkEnv [[]] 0 0)
| su_global k E n p k' : setup s k E -> create_global n k = Ok (Some p, k') -> v_errs (k_vm k') = [] ->
    setup s k' (mkEnv [(n, Global p) :: outermost E] 0 (p + 1))
| su_func k E n cb u k' : setup s k E -> create_c_function n cb k = Ok (u, k') -> v_errs (k_vm k') = [] ->
    setup s k' (mkEnv [(n, Global (e_globals E + 1)) :: outermost E] 0 (e_globals E + 2)).

Record set_up (s : vm) (k : comp) (E : env) : Prop := {
  su_ready : ready k E;
  su_machine : machine s (k_vm k);
  su_scope : exists sc, e_scopes E = [sc] /\ all_global (e_globals E) sc
}.

Lemma cur_cc_run k c q : k_ctx k = c :: q -> cur_cc k = Ok (c, k).
Proof. intro C. unfold cur_cc, kbind, kgets, kret. rewrite C. reflexivity. Qed.
Lemma mod_cc_run f k c q : k_ctx k = c :: q -> mod_cc f k = Ok (tt, set_k_ctx (f c :: q) k).
Proof. intro C. unfold mod_cc, kbind, kgets, kmod. rewrite C. reflexivity. Qed.
Lemma gets_run {A} (f : comp -> A) k : kgets f k = Ok (f k, k). Proof. reflexivity. Qed.

Lemma add_host_inv {LT : Lits} n k b k' c : add_variable n false false k = Ok (b, k') -> noerr k' -> kwf k -> k_ctx k = [c] ->
  b = true /\ exists k1, allocate_static k = Ok (k_nstat k, k1) /\ noerr k1 /\ k' = set_k_ctx [set_cc_vars (mkCV n true false (k_nstat k) :: cc_vars c) c] k1.
Proof.
  intros H N W C. unfold add_variable in H. rewrite (kbind_run _ _ _ _ _ (cur_cc_run _ _ _ C)) in H. destruct (has_var n (cc_vars c)). { exfalso. eapply complain; eauto. }
  rewrite (kbind_run _ _ _ _ _ (gets_run k_ctx k)), C in H. cbn [andb] in H. kb H. injection E as <- <-. kb H. rename k0 into k1. kb H. injection E0 as <- <-.
  kb H. rename k0 into k2. injection H as <- <-. split; [reflexivity|].
  pose proof (w_mod_cc errs errs_prims _ _ _ _ E0 N) as N1.
  destruct (alloc_inv _ _ _ E N1 W) as (-> & Ns & W1 & Kw & C1 & _). rewrite C in C1.
  rewrite (mod_cc_run _ _ _ _ C1) in E0. injection E0 as _ <-. exists k1. split; [exact E|]. split; [exact N|reflexivity].
Qed.

Lemma create_global_up s k E n r k' : set_up s k E -> create_global n k = Ok (r, k') -> v_errs (k_vm k') = [] ->
  r = Some (e_globals E + 1) /\ set_up s k' (mkEnv [(n, Global (e_globals E + 1)) :: outermost E] 0 (e_globals E + 2)).
Proof.
  intros [[W Kw (c & s0 & C & Of & Lo & Fn & Es & Sr) U G Fu] Ma (sc & Es' & Ag)] H N0. rewrite Es in Es'. injection Es' as <-.
  set (LT := kept_of (k_vm k')). assert (noerr k') as N by apply kept_noerr, N0. clearbody LT. clear N0.
  unfold create_global in H. rewrite (kbind_run _ _ _ _ _ (gets_run k_ctx k)), C in H. kb H. rename k0 into k1.
  assert (noerr k1) as N1.
  { revert N. refine ((_ : pres errs _) _ _ _ H). ew I. apply (w_alloc_static _ errs_prims). }
  destruct (add_host_inv _ _ _ _ _ E0 N1 W C) as [-> (k2 & Al & N2 & ->)]. clear E0. cbn [negb] in H. rewrite (kbind_run _ _ _ _ _ (cur_cc_run (set_k_ctx _ k2) _ _ eq_refl)) in H. cbn [set_cc_vars cc_vars cv_pos] in H.
  destruct (alloc_inv _ _ _ Al N2 W) as (_ & Ns & W2 & Kw2 & C2 & T2 & Co2 & F2). destruct (w_alloc_static calm calm_prims _ _ _ Al N2) as [_ M2].
  set (c1 := set_cc_vars _ c) in H. set (k3 := set_k_ctx [c1] k2) in *.
  assert (kwf k3) as W3 by (destruct W2; constructor; assumption).
  destruct (Z.eqb_spec (k_nstat k) INVALID) as [Q|Q].
  { exfalso. pose proof (kw_n _ W). pose proof (pow2_bounds _ (kw_spow _ W)). unfold INVALID, W32, W31 in *. lia. }
  kb H. rename k0 into k4. assert (noerr k4) as N4. { revert N. refine ((_ : pres errs _) _ _ _ H). ew I. }
  destruct (alloc_inv _ _ _ E0 N4 W3) as (-> & Ns4 & W4 & Kw4 & C4 & T4 & Co4 & F4). destruct (w_alloc_static calm calm_prims _ _ _ E0 N4) as [_ M4].
  rewrite (kbind_run _ _ _ _ _ (gets_run k_vm k4)) in H. kb H. apply klift_inv in E1. destruct E1 as [_ ->]. rewrite (kbind_run _ _ _ _ _ (mod_cc_run _ k4 c1 [] C4)) in H. injection H as <- <-.
  change (k_nstat k3) with (k_nstat k2) in *. change (k_w k3) with (k_w k2) in *. change (k_vm k3) with (k_vm k2) in *. rewrite Ns, G in *. split; [reflexivity|].
  constructor.
  - constructor; ks.
    + destruct W4; constructor; assumption.
    + lia.
    + eexists _, _. split; [reflexivity|]. split; [exact Of|]. split; [exact Lo|]. split; [exact Fn|]. split; [reflexivity|]. unfold srel. cbn [cc_vars set_cc_vars]. constructor; [split; [reflexivity|split; reflexivity]|].
      unfold outermost. rewrite Es. exact Sr.
    + reflexivity.
    + cbn [e_globals]. lia.
    + rewrite F4, F2. exact Fu.
  - eapply machine_trans; [exact Ma|]. eapply machine_trans; [exact M2|exact M4].
  - eexists. split; [reflexivity|]. cbn [e_globals]. unfold outermost. rewrite Es. cbn [last].
    replace (e_globals E + 2) with (e_globals E + 1 + 1) by lia. apply all_global_new with (n := e_globals E); [exact Ag|]. pose proof (kw_n _ W). lia.
Qed.

(** Changing the functions of the machine. *)
Lemma set_up_vm s k E v : set_up s k E -> zlen (v_funcs v) < W32 -> machine (k_vm k) v ->
  v_code v = v_code (k_vm k) -> v_cmask v = v_cmask (k_vm k) -> zlen (v_static v) = zlen (v_static (k_vm k)) -> v_smask v = v_smask (k_vm k) ->
  v_strs v = v_strs (k_vm k) -> v_byhash v = v_byhash (k_vm k) ->
  set_up s (set_k_vm v k) E.
Proof.
  intros [[W Kw C U G Fu] Ma Sc] Zf Mv Ec Em Es Em2 Es1 Es2. constructor; [|eapply machine_trans; eauto|exact Sc].
  constructor; ks; auto. destruct W as [A1 A2 A3 A4 A5 A6 A7]. constructor; unfold kcode in *; ks; rewrite ?Ec, ?Em, ?Es, ?Em2, ?Es1, ?Es2; assumption.
Qed.

Definition fkeep (s s' : vm) : Prop := v_errs s' = [] -> v_errs s = [] /\ machine s s' /\ v_code s' = v_code s /\ v_cmask s' = v_cmask s /\
  v_static s' = v_static s /\ v_smask s' = v_smask s /\ v_strs s' = v_strs s /\ v_byhash s' = v_byhash s /\ (zlen (v_funcs s) < W32 -> zlen (v_funcs s') < W32).
Lemma add_error_some m s u s' : add_error m s = Ok (u, s') -> v_errs s' <> [].
Proof. apply add_error_errs. Qed.
Lemma register_keep n cb s i s' : register_external_function n cb s = Ok (i, s') -> fkeep s s'.
Proof.
  unfold register_external_function, register_external_function_nosearch. intros H N. apply bind_inv in H. destruct H as (l & s1 & G & H). injection G as <- <-.
  destruct (find_idx _ _ _). { injection H as _ <-. split; [exact N|]. split; [apply machine_refl|]. repeat split; auto. }
  apply bind_inv in H. destruct H as (l & s1 & G & H). injection G as <- <-. destruct (_ =? 0).
  - exfalso. apply bind_inv in H. destruct H as (u & s1 & G & H). injection H as _ <-. eapply add_error_some; eauto.
  - apply bind_inv in H. destruct H as (u & s1 & G & H). injection G as _ <-. injection H as _ <-. split; [exact N|]. split; [|repeat split; auto]. split; [reflexivity|]. split; [apply marks_refl|].
    unfold ext_ok. vs. intros X j xf Z Na. destruct (Z.lt_ge_cases j (zlen (v_extfuncs s))) as [Lj|Lj]; [rewrite znth_app_l in Z by (apply znth_some_range in Z; lia); eauto|].
    rewrite znth_app_r in Z by lia. pose proof (znth_some_range _ _ _ Z) as Rj. rewrite zlen_cons in Rj. change (zlen []) with 0 in Rj. replace (j - zlen (v_extfuncs s)) with 0 in Z by lia. injection Z as <-. exfalso. apply Na. reflexivity.
Qed.
Lemma internal_keep e s i s' : get_or_create_internal e s = Ok (i, s') -> fkeep s s'.
Proof.
  unfold get_or_create_internal, create_function. intros H N. apply bind_inv in H. destruct H as (l & s1 & G & H). injection G as <- <-.
  destruct (_ <=? _). { exfalso. apply bind_inv in H. destruct H as (u & s1 & G & H). injection H as _ <-. eapply add_error_some; eauto. }
  apply bind_inv in H. destruct H as (x & s1 & G & H). unfold lift in G. destruct (rd _ _) eqn:Rx; [|discriminate]. injection G as -> <-. unfold rd in Rx. destruct (znth (v_extfuncs s) e) eqn:Zx; [|discriminate]. injection Rx as ->.
  destruct (_ =? _); [|injection H as _ <-; split; [exact N|]; split; [apply machine_refl|]; repeat split; auto].
  apply bind_inv in H. destruct H as (j & s1 & G & H). apply bind_inv in G. destruct G as (l & s2 & G & G'). injection G as <- <-. destruct (Z.eqb_spec (u32 (zlen (v_funcs s) + 1)) 0) as [Q|Q]; [discriminate|].
  apply bind_inv in G'. destruct G' as (u & s2 & G & G'). injection G as _ <-. injection G' as _ <-.
  apply bind_inv in H. destruct H as (fs & s1 & G & H). injection G as <- <-.
  apply bind_inv in H. destruct H as (fs & s1 & G & H). unfold lift in G. destruct (wr _ _ _) eqn:Wr; [|discriminate]. injection G as <- <-. apply wr_inv in Wr. destruct Wr as [-> _].
  apply bind_inv in H. destruct H as (u1 & s1 & G & H). injection G as _ <-.
  apply bind_inv in H. destruct H as (fs & s1 & G & H). unfold lift in G. destruct (wr _ _ _) eqn:Wr; [|discriminate]. injection G as <- <-.
  apply bind_inv in H. destruct H as (u2 & s1 & G & H). injection G as _ <-. injection H as _ <-. vsin N. split; [exact N|]. split; [|repeat split; auto].
  { split; [reflexivity|]. split; [apply marks_refl|]. unfold ext_ok. vs. apply wr_inv in Wr. destruct Wr as [-> _]. intros X b xf Z. destruct (Z.eq_dec e b) as [<-|Nb].
    - rewrite znth_zupd_same in Z by (apply znth_some_range in Zx; exact Zx). injection Z as <-. cbn [set_x_func x_argc x_types]. apply (X _ _ Zx).
    - rewrite znth_zupd_other in Z by exact Nb. apply (X _ _ Z). }
  intro L. vs. rewrite zlen_zupd, zlen_app, zlen_cons. change (zlen []) with 0. unfold u32 in Q. pose proof (zlen_nonneg (v_funcs s)).
  destruct (Z.eq_dec (zlen (v_funcs s) + 1) W32) as [R|R]; [rewrite R in Q; exfalso; apply Q; reflexivity|lia].
Qed.
Lemma create_c_up s k E n cb u k' : set_up s k E -> create_c_function n cb k = Ok (u, k') -> v_errs (k_vm k') = [] ->
  set_up s k' (mkEnv [(n, Global (e_globals E + 1)) :: outermost E] 0 (e_globals E + 2)).
Proof.
  intros S H N0. set (LT := kept_of (k_vm k')). assert (noerr k') as N by apply kept_noerr, N0. clearbody LT. clear N0. unfold create_c_function in H. kb H. apply kvm_inv in E0. destruct E0 as (v1 & E0 & ->). kb H. apply kvm_inv in E1. destruct E1 as (v2 & E1 & ->).
  kb H. rename k0 into k1.
  assert (noerr k1) as N1.
  { destruct x1; [|injection H as _ <-; exact N]. kb H. injection E3 as <- <-. kb H. apply klift_inv in E3. destruct E3 as [_ ->]. apply kvm_inv in H. destruct H as (v3 & H & ->). injection H as _ <-. exact N. }
  assert (noerr (set_k_vm v2 (set_k_vm v1 k))) as N2.
  { revert N1. refine ((_ : pres errs _) _ _ _ E2). unfold create_global, add_variable. ew I; apply (w_alloc_static _ errs_prims). }
  destruct N2 as [N2 _]. ksin N2. ksin E1. destruct (internal_keep _ _ _ _ E1 N2) as (N3 & M2 & A2 & B2 & C2 & D2 & G2 & H2 & F2). destruct (register_keep _ _ _ _ _ E0 N3) as (_ & M1 & A1 & B1 & C1 & D1 & G1 & H1 & F1).
  assert (set_up s (set_k_vm v2 (set_k_vm v1 k)) E) as S2.
  { assert (set_up s (set_k_vm v1 k) E) as S1. { apply set_up_vm; auto; [apply F1, (rd_funcs _ _ (su_ready _ _ _ S))|congruence]. }
    apply set_up_vm; ks; auto; [apply F2, (rd_funcs _ _ (su_ready _ _ _ S1))|congruence]. }
  destruct (create_global_up _ _ _ _ _ _ S2 E2 (proj1 N1)) as [-> S3]. rewrite (kbind_run _ _ _ _ _ (gets_run k_vm k1)) in H.
  kb H. apply klift_inv in E3. destruct E3 as [Wr ->]. apply wr_inv in Wr. destruct Wr as [-> _]. apply kvm_inv in H. destruct H as (v3 & H & ->). injection H as _ <-.
  apply set_up_vm; vs; auto; [apply (rd_funcs _ _ (su_ready _ _ _ S3))|split; [reflexivity|split; [apply marks_refl|auto]]|apply zlen_zupd].
Qed.

Lemma setup_up s k E : fresh s -> setup s k E -> set_up s k E.
Proof.
  intros F. induction 1 as [|k E n p k' S IH H N|k E n cb u k' S IH H N].
  - destruct F as [(b & Wf) Er No Cu St Ip Lf Zf]. pose proof (w_code _ _ _ Wf) as [C1 C2]. pose proof (w_static _ _ _ Wf) as [D1 D2]. constructor.
    + constructor; ks; auto; [|eexists _, _; repeat split; constructor].
      pose proof (pow2_bounds _ C2). pose proof (pow2_bounds _ D2). unfold comp_init. constructor; unfold kcode; cbn [k_vm k_w k_nstat]; auto; try lia. exact (w_str _ _ _ Wf).
    + apply machine_refl.
    + eexists. split; [reflexivity|]. split; constructor.
  - destruct (create_global_up _ _ _ _ _ _ IH H N) as [Q S']. injection Q as ->. replace (e_globals E + 1 + 1) with (e_globals E + 2) by lia. exact S'.
  - eapply create_c_up; eauto.
Qed.

(** ** What compiled scripts do *)

(** Looking a global up by name after the run finds the value [v]; [W]: the
    identifiers of objects. *)
Definition global_is (s : vm) (W : Z -> option Z) (name : bytes) (v : val) : Prop :=
  exists j x, find_global name s = Some j /\ znth (v_static s) j = Some x /\ rep s W v x.

Lemma fresh_wf s : fresh s -> wf true 0 s.
Proof.
  intros F. destruct (f_ok _ F) as ([|] & W); [exact W|]. pose proof (w_err _ _ _ W eq_refl) as X. unfold has_errors in X. rewrite (f_errs _ F) in X. discriminate.
Qed.

Section Claims.
Variable hostmark : Z -> Z -> option Z -> list value.
Variable host : Z -> list value -> M value.
Context {HS : Hosts}.

(** Compile a script without errors in a fresh virtual machine, after the host
    has declared whatever it likes.  Then the script is a sequence of
    statements [l], and whatever the globals contain ([st]) when it is
    executed, as long as there are no objects: if running [l] is defined,
    ending in the memory [m'], then executing the program ends normally,
    without an error, with nothing left on the operand stack, every global
    contains what it contains in [m'], and so do the fields of every object
    that can be reached.  [enough]: it does not run out of string or object
    identifiers, and there are fewer than 2^32 - 1 collections.
    [implements]: the host's functions do what they are said to do ([hosts]).

    Partial: no coroutines. *)
Theorem C40_scripts_partial s k E text fname fuel k1 u k2 toks vm' :
  fresh s -> setup s k E -> is_text text -> zlen text < W31 ->
  compile_script fuel text fname k = Ok (true, k1) -> finalize k1 = Ok (u, k2) -> v_errs (k_vm k2) = [] ->
  tokenize text fname (k_vm k) = Ok (Some toks, vm') ->
  exists l funs, toks = sstext l /\ swritten l /\ sdefined funs E l /\
  forall lim mf st g0 o m', lim <= 65536 -> 2 * lim - 2 <= v_maxstack s -> mf < W32 -> mf <= v_maxfields s ->
    zlen st = zlen (v_static (k_vm k2)) -> (forall x, In x st -> exists v, rep (k_vm k2) nothing v x) ->
    globs (set_static st (k_vm k2)) nothing g0 ->
    (forall t, steps hostmark host (set_static st (k_vm k2)) t -> enough t) ->
    implements (LT := kept_of (k_vm k2)) host (set_static st (k_vm k2)) ->
    exs funs lim mf E 0 (mkMem g0 [] []) l o m' ->
    o = Next /\ exists n t', execute hostmark host n (set_static st (k_vm k2)) = Ok (Some true, t') /\
      v_errs t' = [] /\ stack_is t' [] /\ frame t' = frame (k_vm k2) /\
      exists W, heap_is t' W (m_heap m') /\
      forall name i v, lookup name (e_scopes (afters l E)) = Some (Global i) -> m_global m' i = Some v ->
        global_is t' W name v.
Proof.
  intros F Su St Zt Hc Hf N Tk. destruct (setup_up _ _ _ F Su) as [R Ma (sc & Es & Ag)].
  destruct (run_script hostmark host _ _ _ _ _ _ _ _ _ _ Hc Hf N R Ma Es Ag (text_script _ St) Zt (fresh_wf _ F) (f_objs _ F) (f_cur _ F) (f_stack _ F) (f_ip _ F) (f_left _ F)) as (toks' & vm1 & Tk' & X).
  assert (live_ctx (k_vm k) (v_cur (k_vm k))) as Lc.
  { destruct (f_stack _ F) as (c & A & _). exists c. rewrite (machine_ctxs _ _ Ma), (machine_cur _ _ Ma). exact A. }
  pose proof (tokens_text _ _ _ _ _ Lc St Tk) as Tt.
  rewrite Tk in Tk'. injection Tk' as <- <-. destruct (X Tt) as (l & funs & A & B & C & Fg & Eg & Y). exists l, funs. split; [exact A|]. split; [exact B|]. split; [exact C|].
  intros lim mf st g0 o m' L1 L2 L3 L4 Zs Vs Gl Rm Im Ex. destruct (proj2 (Y lim mf st g0 L1 L2 L3 L4 Zs Vs Gl Rm Im) o m' Ex) as (-> & n & t' & Ru & Er & Ot & Sk' & W & Hw & Gm & _). split; [reflexivity|].
  exists n, t'. split; [exact Ru|]. split; [exact Er|]. split; [exact Sk'|]. split; [exact Ot|]. exists W. split; [exact Hw|]. intros name i v Lk Gi. destruct (Gm _ _ Gi) as (Ri & x & Zx & Rx). exists i, x. split; [|auto].
  specialize (Fg name). rewrite Lk in Fg. unfold find_global in *. rewrite <- Fg. pose proof (f_equal v_globals Ot) as Q1. pose proof (f_equal v_smask Ot) as Q2. unfold frame in Q1, Q2. vsin Q1. vsin Q2. rewrite Q1, Q2. reflexivity.
Qed.

End Claims.

(** After compilation, looking up a name finds the slot of the global with that
    name (the latest one), nothing for other names, and globals with different
    names have different slots, all of them within the globals' memory. *)
Theorem C51_find s k E text fname fuel k1 u k2 toks vm' :
  fresh s -> setup s k E -> is_text text -> zlen text < W31 ->
  compile_script fuel text fname k = Ok (true, k1) -> finalize k1 = Ok (u, k2) -> v_errs (k_vm k2) = [] ->
  tokenize text fname (k_vm k) = Ok (Some toks, vm') ->
  exists l, toks = sstext l /\ swritten l /\
  let names := e_scopes (afters l E) in
  (forall name i, lookup name names = Some (Global i) -> find_global name (k_vm k2) = Some i /\ 0 <= i < zlen (v_static (k_vm k2))) /\
  (forall name, lookup name names = None -> find_global name (k_vm k2) = None) /\
  (forall name, lookup name names = None \/ exists i, lookup name names = Some (Global i)) /\
  (forall a b i, find_global a (k_vm k2) = Some i -> find_global b (k_vm k2) = Some i -> a = b).
Proof.
  intros F Su St Zt Hc Hf N Tk. destruct (setup_up _ _ _ F Su) as [R Ma (sc & Es & Ag)].
  destruct (run_script (HS := Build_Hosts (fun _ _ _ _ _ => False) (fun _ _ _ _ => False)) (fun _ _ _ => []) (fun _ _ => mub UbNull) _ _ _ _ _ _ _ _ _ _ Hc Hf N R Ma Es Ag (text_script _ St) Zt (fresh_wf _ F) (f_objs _ F) (f_cur _ F) (f_stack _ F) (f_ip _ F) (f_left _ F)) as (toks' & vm1 & Tk' & X).
  assert (live_ctx (k_vm k) (v_cur (k_vm k))) as Lc.
  { destruct (f_stack _ F) as (c & A & _). exists c. rewrite (machine_ctxs _ _ Ma), (machine_cur _ _ Ma). exact A. }
  pose proof (tokens_text _ _ _ _ _ Lc St Tk) as Tt.
  rewrite Tk in Tk'. injection Tk' as <- <-. destruct (X Tt) as (l & funs & A & B & C & Fg & Eg & _). exists l. split; [exact A|]. split; [exact B|]. cbv zeta.
  destruct (afters_global l E sc Es Ag ltac:(rewrite <- (rd_globals _ _ R); apply (kw_n _ (rd_wf _ _ R)))) as (s2 & Es2 & Ag2).
  rewrite Es2 in *. cbn [lookup] in *. split; [|split; [|split]].
  - intros name i L. specialize (Fg name). destruct (find_in name s2) eqn:Fi; [|discriminate]. injection L as ->. split; [exact Fg|]. pose proof (find_in_global _ _ _ _ Ag2 Fi). lia.
  - intros name L. specialize (Fg name). destruct (find_in name s2); [discriminate|]. exact Fg.
  - intro name. destruct (find_in name s2) as [[i|i]|] eqn:Fi; [right; eauto| |left; reflexivity]. exfalso.
    destruct Ag2 as [G _]. clear -G Fi. induction G as [|[m p] q P _ IH]; cbn [find_in] in Fi; [discriminate|]. destruct (bytes_eqb m name); [|auto]. injection Fi as ->. exact P.
  - intros a b i Fa Fb. pose proof (Fg a) as Ga. pose proof (Fg b) as Gb. rewrite Fa in Ga. rewrite Fb in Gb.
    destruct (find_in a s2) as [[j|j]|] eqn:Ia; try discriminate. injection Ga as <-. destruct (find_in b s2) as [[j|j]|] eqn:Ib; try discriminate. injection Gb as <-.
    assert (forall x, find_in x s2 = Some (Global i) -> In (x, Global i) s2) as In2.
    { intros x. clear. induction s2 as [|[m p] q IH]; cbn [find_in]; [discriminate|]. destruct (bytes_eqb m x) eqn:Q; [|right; auto]. intro H. injection H as ->. left. f_equal. apply bytes_eqb_eq. exact Q. }
    apply In2 in Ia. apply In2 in Ib. destruct Ag2 as [_ Nd]. clear -Ia Ib Nd. induction s2 as [|[m p] q IH]; [destruct Ia|]. cbn [map] in Nd. inversion Nd as [|? ? N1 N2]; subst.
    destruct Ia as [Ia|Ia]; destruct Ib as [Ib|Ib].
    + congruence.
    + exfalso. injection Ia as -> ->. apply N1. apply (in_map slot_of) in Ib. exact Ib.
    + exfalso. injection Ib as -> ->. apply N1. apply (in_map slot_of) in Ia. exact Ia.
    + auto.
Qed.

(** ** Pieces of scripts *)

(** [LT] has the strings the compiler told the machine to keep. *)
Definition literals (LT : Lits) (s : vm) : Prop :=
  forall i e, get_str_entry s i = Some e -> s_keep e = true -> lit i = Some (s_str e).

(** How deep the compiler thinks the stack is, counted from the start of the
    current function's values. *)
Definition depth_at (k : comp) : Z := match k_ctx k with [] => 0 | c :: _ => cc_off c end.

Lemma here_depth {LT : Lits} t0 t L m ip : here t0 t L m ip -> 0 <= zlen L < W32.
Proof.
  intros [_ _ _ (W & mm & l & _ & _ & Rl & (cx & _ & Kx & Cx))]. pose proof (StackProofs.contents_len _ Kx) as Lx. rewrite Cx in Lx.
  pose proof (StackProofs.kw_size _ Kx). pose proof (pow2_bounds _ (StackProofs.kw_pow _ Kx)).
  assert (zlen L = zlen l) as -> by (clear -Rl; induction Rl; [reflexivity|]; rewrite !zlen_cons; congruence). unfold W31, W32 in *. lia.
Qed.

Section Pieces.
Variable hostmark : Z -> Z -> option Z -> list value.
Variable host : Z -> list value -> M value.
Context {HS : Hosts}.

Lemma expressions LT n k k' E :
  compile_expression (compiler n) false k = Ok (true, k') -> v_errs (k_vm k') = [] -> crel k E -> literals LT (k_vm k') ->
  exists e F, TraceProofs.neat e /\ k_toks k = text e ++ k_toks k' /\ (lits e = [] -> F = []) /\
  (forall funs, table F funs -> forall ts t, In (ts, t) (lits e) -> literal funs E ts t) /\
  forall C FT lim ng mf funs fa lp pre fr hv t m v m',
    pow2 (zlen C) -> lim <= 65536 -> mf < W32 -> inv C FT lim ng mf t -> (forall t', steps hostmark host t t' -> enough t') -> implements host t ->
    table F funs -> functions_at C FT ng funs ->
    (forall i, k_w k <= i < k_w k' -> znth C i = znth (v_code (k_vm k')) i) ->
    k_nstat k' <= ng -> brk (code C) k [] lp -> fno k fa ->
    zlen fr = e_used E -> frel hv (m_local m) fr -> here t t (pre ++ fr) m (k_w k) ->
    ev funs lim mf E (zlen pre + zlen fr) m (tree e) v m' ->
    exists t' fr', steps hostmark host t t' /\ here t t' (pre ++ fr' ++ [v]) m' (k_w k') /\
      zlen fr' = zlen fr /\ frel hv (m_local m') fr' /\
      depth_at k = zlen fr /\ depth_at k' = zlen fr + 1.
Proof.
  intros H N R Li. assert (noerr k') as N' by exact (conj N (fun _ => Li)).
  destruct (does_expr_none _ (compiler_tree n) _ _ _ _ H N' R) as (e & u & F & _ & [G Lz] & Td & [D Mk _]).
  exists e, F. split; [exact G|]. split; [exact (d_toks _ _ _ _ _ _ _ D)|]. split; [exact Lz|]. split; [exact Td|].
  intros C FT lim ng mf funs fa lp pre fr hv t m v m' P2 Ll Lf Iv Rm Im Tf Tb Ag Ng Br Fn Zf Fr Hr V.
  assert (okm (code C) k k' [] []) as Om. { intros i Hi _. unfold code. apply Ag. exact Hi. }
  destruct (Mk (code C) (mkAround ng funs) Om Ng Tf) as [Xc _]. specialize (Xc fa lp Br Fn). cbv beta in Xc.
  destruct (simulation hostmark host C FT lim ng mf P2 Ll Lf t Iv Rm funs Tb Im) as (Sv & _).
  assert (zlen (m_local m) = e_used E) as Zm by (destruct Fr as [<- _]; exact Zf).
  rewrite Zf, <- Zm in V.
  destruct (sim_x hostmark host C FT lim ng mf P2 Ll t Iv Rm funs Tb E (zlen pre) m e v m' pre fr hv _ _ u V (Sv _ _ _ _ _ _ V) Xc Zm eq_refl Fr (ex_intro _ t (conj (st_refl _ _ t) Hr))) as (Eu & fr' & (t' & Sp & Ht) & Fr').
  rewrite <- app_assoc in Ht. assert (UseProofs.kept m m') as [Kl _] by (eapply ev_kept; exact V).
  exists t', fr'. split; [exact Sp|]. split; [exact Ht|]. assert (zlen fr' = zlen fr) as Zl by (destruct Fr' as [-> _]; congruence). split; [exact Zl|]. split; [exact Fr'|].
  unfold depth_at. destruct (cr_hd _ _ R) as (c & q & -> & -> & _). destruct (cr_hd _ _ (d_rel _ _ _ _ _ _ _ D)) as (c' & q' & -> & -> & _). cbn [used_at e_used].
  pose proof (here_depth _ _ _ _ _ Ht) as Hd. rewrite !zlen_app, zlen_cons in Hd. change (zlen (@nil val)) with 0 in Hd. pose proof (zlen_nonneg pre). pose proof (zlen_nonneg fr).
  rewrite !u32_id by (unfold is_u32; lia). lia.
Qed.

(** Compile an expression, [k] and [k'] being the states of the compiler before
    and after, and [E] what is declared at that point of the text.  In a
    machine [t] whose code [C] contains what was written, the values of the
    current function being [fr] and everything below them [pre]: executing the
    code of the expression, if its evaluation is defined, leaves the stack as
    it was plus one value, the value of the expression; the variables and the
    objects are changed as the evaluation says, and the compiler's idea of the
    depth is right.  [here]: what is on the operand stack, in the globals and
    in the objects, and the instruction that is next.  [F]: the functions
    written in the expression; [fa], [lp]: as in C38.

    Partial: as C40. *)
Theorem C37_expressions_partial LT n k k' E :
  compile_expression (compiler n) false k = Ok (true, k') -> v_errs (k_vm k') = [] -> crel k E -> literals LT (k_vm k') ->
  exists e F, grouped e /\ k_toks k = text e ++ k_toks k' /\ (lits e = [] -> F = []) /\
  (forall funs, table F funs -> forall ts t, In (ts, t) (lits e) -> literal funs E ts t) /\
  forall C FT lim ng mf funs fa lp pre fr hv t m v m',
    pow2 (zlen C) -> lim <= 65536 -> mf < W32 -> inv C FT lim ng mf t -> (forall t', steps hostmark host t t' -> enough t') -> implements host t ->
    table F funs -> functions_at C FT ng funs ->
    (forall i, k_w k <= i < k_w k' -> znth C i = znth (v_code (k_vm k')) i) ->
    k_nstat k' <= ng -> brk (code C) k [] lp -> fno k fa ->
    zlen fr = e_used E -> frel hv (m_local m) fr -> here t t (pre ++ fr) m (k_w k) ->
    ev funs lim mf E (zlen pre + zlen fr) m (tree e) v m' ->
    exists t' fr', steps hostmark host t t' /\ here t t' (pre ++ fr' ++ [v]) m' (k_w k') /\
      zlen fr' = zlen fr /\ frel hv (m_local m') fr' /\
      depth_at k = zlen fr /\ depth_at k' = zlen fr + 1.
Proof.
  intros H N R Li. destruct (expressions LT _ _ _ _ H N R Li) as (e & F & G & X). exists e, F. split; [exact (proj1 G)|exact X].
Qed.

Lemma back1 z : is_s32 z -> binop TK_MINUS (VInt (z + 1)) (VInt 1) (VInt z).
Proof. intro B. replace (VInt z) with (VInt (z + 1 - 1)) by (f_equal; lia). apply bo_sub; [reflexivity|]. replace (z + 1 - 1) with z by lia. exact B. Qed.
Lemma back2 z : is_s32 z -> binop TK_PLUS (VInt (z - 1)) (VInt 1) (VInt z).
Proof. intro B. replace (VInt z) with (VInt (z - 1 + 1)) by (f_equal; lia). apply bo_add; [reflexivity|]. replace (z - 1 + 1) with z by lia. exact B. Qed.

(** The same for the increment and decrement operators on a variable: the
    variable gets the changed value; [++x] and [--x] give that value, [x++] and
    [x--] the previous one.  The variable contains an integer. *)
Theorem C42_variables LT n k k' E :
  compile_expression (compiler n) false k = Ok (true, k') -> v_errs (k_vm k') = [] -> crel k E -> literals LT (k_vm k') ->
  exists e, grouped e /\ k_toks k = text e ++ k_toks k' /\
  forall t x r r' C FT lim ng mf fa lp pre fr hv s m p z,
    tree e = ANode t r (ANode x r' ANull ANull) ANull -> tk_type x = TK_IDENTIFIER ->
    lookup (tk_str x) (e_scopes E) = Some p -> read p m = Some (VInt z) ->
    pow2 (zlen C) -> lim <= 65536 -> mf < W32 -> inv C FT lim ng mf s -> (forall t', steps hostmark host s t' -> enough t') -> implements host s ->
    zlen pre + zlen fr + 3 <= lim ->
    (forall i, k_w k <= i < k_w k' -> znth C i = znth (v_code (k_vm k')) i) ->
    k_nstat k' <= ng -> brk (code C) k [] lp -> fno k fa ->
    zlen fr = e_used E -> frel hv (m_local m) fr -> here s s (pre ++ fr) m (k_w k) ->
    let after_op (new result : Z) :=
      exists s' fr', steps hostmark host s s' /\ here s s' (pre ++ fr' ++ [VInt result]) (write p (VInt new) m) (k_w k') /\
        frel hv (m_local (write p (VInt new) m)) fr' in
    (tk_type t = TK_INCREMENT -> is_s32 (z + 1) -> after_op (z + 1) (z + 1)) /\
    (tk_type t = TK_DECREMENT -> is_s32 (z - 1) -> after_op (z - 1) (z - 1)) /\
    (tk_type t = TK_POSTINC -> is_s32 (z + 1) -> after_op (z + 1) z) /\
    (tk_type t = TK_POSTDEC -> is_s32 (z - 1) -> after_op (z - 1) z).
Proof.
  intros H N R Li. destruct (expressions LT _ _ _ _ H N R Li) as (e & F & G & T & Lz & _ & X). exists e. split; [exact (proj1 G)|]. split; [exact T|].
  intros t x r r' C FT lim ng mf fa lp pre fr hv s m p z Te Tx Lk Rd P2 Ll Lf Iv Rm Im Sp Ag Ng Br Fn Zf Fr Hr after_op.
  assert (is_s32 z) as Bz.
  { apply (read_s32 hostmark host s Rm pre fr [] m (k_w k) p z hv); [|exact Fr|exact Rd]. rewrite app_nil_r. exact (ex_intro _ s (conj (st_refl _ _ s) Hr)). }
  assert (forall new res, incdec (tk_type t) (VInt z) (VInt new) (VInt res) -> after_op new res) as Y.
  { intros new res I.
    assert (flits (tree e) = []) as Fe by (rewrite Te; cbn [flits]; rewrite Tx; unfold incdec in I; destruct I as [[-> _]|[[-> _]|[[-> _]|[-> _]]]]; reflexivity).
    assert (lits e = []) as Le. { destruct (lits e) as [|[ts w] l] eqn:Q; [reflexivity|]. exfalso. pose proof (proj1 lits_flits e G ts w ltac:(rewrite Q; left; reflexivity)) as Y. rewrite Fe in Y. destruct Y. }
    rewrite (Lz Le) in X. clear Fe Le. destruct (X C FT lim ng mf (fun _ => None) fa lp pre fr hv s m (VInt res) (write p (VInt new) m) P2 Ll Lf Iv Rm Im) as (s' & fr' & A); auto.
    - intros id fd [].
    - intros id fd Q. discriminate.
    - rewrite Te. eapply ev_incdec; eauto.
    - exists s', fr'. intuition. }
  unfold incdec in Y. repeat split; intros Q B; apply Y;
    [left|right; left|right; right; left|right; right; right]; (split; [exact Q|]); (split; [first [apply bo_add|apply bo_sub]; [reflexivity|exact B]|]); try reflexivity.
  - apply back1, Bz.
  - apply back2, Bz.
Qed.

(** And on a field: [a[b]] is read, [a] and [b] are evaluated once more, and that
    field gets the changed value.

    Partial: that is the same field only if evaluating [a] and [b] again gives
    the same (C42_index_refuted). *)
Theorem C42_fields_partial LT n k k' E :
  compile_expression (compiler n) false k = Ok (true, k') -> v_errs (k_vm k') = [] -> crel k E -> literals LT (k_vm k') ->
  exists e F, grouped e /\ k_toks k = text e ++ k_toks k' /\ (lits e = [] -> F = []) /\
  forall t x r r' a b C FT lim ng mf funs fa lp pre fr hv s m o key l m1 m2 z o' key' l' m3 m4,
    tree e = ANode t r (ANode x r' a b) ANull -> tk_type x = TK_BRACKET_OPEN ->
    let h := zlen pre + zlen fr in
    ev funs lim mf E h m a (VObj o) m1 -> ev funs lim mf E (h + 1) m1 b key m2 -> fields o m2 = Some l -> key_ok key -> oget key l = VInt z -> is_s32 z ->
    ev funs lim mf E (h + 1) m2 a (VObj o') m3 -> ev funs lim mf E (h + 2) m3 b key' m4 -> fields o' m4 = Some l' -> key_ok key' ->
    (forall v, fits mf key' v l') ->
    pow2 (zlen C) -> lim <= 65536 -> mf < W32 -> inv C FT lim ng mf s -> (forall t', steps hostmark host s t' -> enough t') -> implements host s ->
    table F funs -> functions_at C FT ng funs ->
    (forall i, k_w k <= i < k_w k' -> znth C i = znth (v_code (k_vm k')) i) ->
    k_nstat k' <= ng -> brk (code C) k [] lp -> fno k fa ->
    zlen fr = e_used E -> frel hv (m_local m) fr -> here s s (pre ++ fr) m (k_w k) ->
    let after_op (new result : Z) :=
      exists s' fr', steps hostmark host s s' /\ here s s' (pre ++ fr' ++ [VInt result]) (set_field o' key' (VInt new) l' m4) (k_w k') /\
        frel hv (m_local m4) fr' in
    (tk_type t = TK_INCREMENT -> is_s32 (z + 1) -> after_op (z + 1) (z + 1)) /\
    (tk_type t = TK_DECREMENT -> is_s32 (z - 1) -> after_op (z - 1) (z - 1)) /\
    (tk_type t = TK_POSTINC -> is_s32 (z + 1) -> after_op (z + 1) z) /\
    (tk_type t = TK_POSTDEC -> is_s32 (z - 1) -> after_op (z - 1) z).
Proof.
  intros H N R Li. destruct (expressions LT _ _ _ _ H N R Li) as (e & F & G & T & Lz & _ & X). exists e, F. split; [exact (proj1 G)|]. split; [exact T|]. split; [exact Lz|].
  intros t x r r' a b C FT lim ng mf funs fa lp pre fr hv s m o key l m1 m2 z o' key' l' m3 m4 Te Tx h V1 V2 F1 K1 O1 Bz V3 V4 F2 K2 Fi P2 Ll Lf Iv Rm Im Tb Fu Ag Ng Br Fn Zf Fr Hr after_op.
  assert (forall new res, incdec (tk_type t) (VInt z) (VInt new) (VInt res) -> after_op new res) as Y.
  { intros new res I. destruct (X C FT lim ng mf funs fa lp pre fr hv s m (VInt res) (set_field o' key' (VInt new) l' m4) P2 Ll Lf Iv Rm Im) as (s' & fr' & A); auto.
    - rewrite Te. eapply ev_incdec_field; eauto.
    - exists s', fr'. destruct A as (A1 & A2 & _ & A3 & _). split; [exact A1|]. split; [exact A2|exact A3]. }
  unfold incdec in Y. repeat split; intros Q B; apply Y;
    [left|right; left|right; right; left|right; right; right]; (split; [exact Q|]); (split; [first [apply bo_add|apply bo_sub]; [reflexivity|exact B]|]); try reflexivity.
  - apply back1, Bz.
  - apply back2, Bz.
Qed.

(** Compile a statement.  If executing it, in a machine whose code contains what
    was written, goes on after the statement, then the stack is then as deep as
    the compiler thinks it is, and every variable is in its place.  [fx]: where
    the statement breaks out of the loop around it; [fa], [lp]: the number of
    parameters of the function it is in, and where break goes; [F]: the
    functions defined in it.

    Partial: as C37. *)
Theorem C38_statements_partial LT n k k' E :
  r_stmt (compiler n) k = Ok (true, k') -> v_errs (k_vm k') = [] -> crel k E -> literals LT (k_vm k') ->
  exists st fx F, written st /\ k_toks k = stext st ++ k_toks k' /\ (forall funs, table F funs -> defined funs E st) /\
  forall C FT lim ng mf funs fa lp pre fr hv t m m' back ip,
    pow2 (zlen C) -> lim <= 65536 -> mf < W32 -> inv C FT lim ng mf t -> (forall t', steps hostmark host t t' -> enough t') -> implements host t ->
    table F funs -> functions_at C FT ng funs ->
    (forall i, k_w k <= i < k_w k' -> (forall j, In j fx -> i <> j + 1) -> znth C i = znth (v_code (k_vm k')) i) ->
    k_w k' <= zlen C -> k_nstat k' <= ng -> brk (code C) k fx lp -> lp_ok lp E -> fno k fa -> inside fa pre hv (m_local m) back ip ->
    zlen fr = e_used E -> frel hv (m_local m) fr -> here t t (pre ++ fr) m (k_w k) ->
    ex funs lim mf E (zlen pre) m st Next m' ->
    exists t' fr', steps hostmark host t t' /\ here t t' (pre ++ fr') m' (k_w k') /\
      frel hv (m_local m') fr' /\
      depth_at k = zlen fr /\ depth_at k' = zlen fr' /\ crel k' (after st E).
Proof.
  intros H N R Li. destruct (compiler_good n) as [Gs _]. destruct (Gs _ _ _ H (conj N (fun _ => Li)) R) as (st & fx & F & E' & [[D Mk Ho] Wr Op Af Sc Df]).
  exists st, fx, F. split; [exact Wr|]. split; [exact (d_toks _ _ _ _ _ _ _ D)|]. split; [exact Df|].
  intros C FT lim ng mf funs fa lp pre fr hv t m m' back ip P2 Ll Lf Iv Rm Im Tf Tb Ag Lw Ng Br Lp Fn Ins Zf Fr Hr Ex.
  assert (okm (code C) k k' [] fx) as Om. { intros i Hi Nj. unfold code. apply Ag; [exact Hi|]. intros j I. apply Nj. auto. }
  destruct (Mk (code C) (mkAround ng funs) Om Ng Tf) as [Cd _]. specialize (Cd fa lp Br Fn). cbv beta in Cd.
  destruct (simulation hostmark host C FT lim ng mf P2 Ll Lf t Iv Rm funs Tb Im) as (_ & _ & Sx & _).
  assert (e_scopes E <> []) as Ne. { destruct (cr_hd _ _ R) as (c & r & Kc & _). pose proof (cr_sc _ _ R) as S. rewrite Kc in S. inversion S. discriminate. }
  assert (zlen (m_local m) = e_used E) as Zm by (destruct Fr as [<- _]; exact Zf).
  assert (0 <= k_w k <= zlen C) as Rw.
  { pose proof (kw_w _ (cr_wf _ _ R)). pose proof (d_w _ _ _ _ _ _ _ D). lia. }
  destruct (Sx _ _ _ _ _ _ Ex pre fr hv fa lp back ip (k_w k) (k_w k') E' Cd Rw Ne Zm eq_refl Fr (ex_intro _ t (conj (st_refl _ _ t) Hr)) Ins Lp) as [Ea (fr' & (t' & St & Ht) & Fr')].
  specialize (Ea eq_refl). subst E'. destruct (frames funs lim mf) as (_ & _ & Fx & _). destruct (Fx _ _ _ _ _ _ Ex Ne Zm) as [_ Zn]. specialize (Zn eq_refl).
  exists t', fr'. split; [exact St|]. split; [exact Ht|]. split; [exact Fr'|].
  pose proof (d_rel _ _ _ _ _ _ _ D) as R'. assert (forall k0 E0 fr0 t1 m1 a0, crel k0 E0 -> zlen fr0 = e_used E0 -> here t t1 (pre ++ fr0) m1 a0 -> depth_at k0 = zlen fr0) as Dp.
  { intros k0 E0 fr0 t1 m1 a0 R0 Z0 H0. destruct (cr_hd _ _ R0) as (c & r & Kc & Of & _). unfold depth_at. rewrite Kc, Of, <- Z0.
    pose proof (here_depth _ _ _ _ _ H0) as D0. rewrite zlen_app in D0. pose proof (zlen_nonneg pre). pose proof (zlen_nonneg fr0). apply u32_id. unfold is_u32. lia. }
  split; [eapply Dp; eauto|]. split; [|exact R']. eapply Dp; [exact R'| |exact Ht]. destruct Fr' as [-> _]. exact Zn.
Qed.
End Pieces.

(** ** Names *)

(** Looking a name up while compiling finds its declaration in the innermost
    scope that has one, [Global p] being the global in slot [p], [Local i] the
    value number [i] of the current function; a name no scope declares is an
    error.  The scopes of a function are its own and the global one
    ([fun_env]), so the variables of a function around it are not found. *)
Theorem C41_innermost n k r k' E : crel k E -> v_errs (k_vm k) = [] -> lookup_variable n k = Ok (r, k') ->
  match lookup n (e_scopes E) with
  | Some (Global p) => k' = k /\ exists v, r = Some v /\ cv_name v = n /\ cv_global v = true /\ cv_pos v = p
  | Some (Local i) => k' = k /\ exists v, r = Some v /\ cv_name v = n /\ cv_global v = false /\ cv_pos v = u32 i
  | None => r = None /\ v_errs (k_vm k') <> []
  end.
Proof.
  intros R N H. unfold lookup_variable, kbind at 1, kgets in H. pose proof (find_in_rel n _ _ (cr_sc _ _ R)) as F.
  destruct (find_var_in n (k_ctx k)) as [v|] eqn:Fv.
  - injection H as <- <-. destruct F as (p & L & V). rewrite L. assert (cv_name v = n) as Nm.
    { clear -Fv. induction (k_ctx k) as [|c q IH]; cbn [find_var_in] in Fv; [discriminate|]. destruct (find_var n (cc_vars c)) as [w|] eqn:Fw; [|auto]. injection Fv as ->.
      induction (cc_vars c) as [|w vs IHv]; cbn [find_var] in Fw; [discriminate|]. destruct (bytes_eqb (cv_name w) n) eqn:Q; [|auto]. injection Fw as ->. apply bytes_eqb_eq. exact Q. }
    destruct V as [_ V]. cbn [snd] in V. destruct p; destruct V; split; eauto 8.
  - rewrite F. kb H. injection H as <- <-. split; [reflexivity|]. intro Q. match type of Q with v_errs (k_vm ?z) = _ => exact (@cerror_errs (kept_of (k_vm z)) _ _ _ _ E0 (kept_noerr _ Q)) end.
Qed.

(** A statement that declares nothing leaves the scopes as they were: what was
    declared inside it cannot be found any more.  A declaration only adds to
    the innermost scope. *)
Theorem C41_closed n k k' E :
  r_stmt (compiler n) k = Ok (true, k') -> v_errs (k_vm k') = [] -> crel k E ->
  exists st E', written st /\ k_toks k = stext st ++ k_toks k' /\ crel k' E' /\
    (declares st = false -> e_scopes E' = e_scopes E) /\ tl (e_scopes E') = tl (e_scopes E).
Proof.
  intros H N R. destruct (@compiler_good (kept_of (k_vm k')) n) as [Gs _]. destruct (Gs _ _ _ H (kept_noerr _ N) R) as (st & fx & F & E' & [[D Mk Ho] Wr Op Af Sc Df]).
  exists st, E'. split; [exact Wr|]. split; [exact (d_toks _ _ _ _ _ _ _ D)|]. split; [exact (d_rel _ _ _ _ _ _ _ D)|]. split; [exact Sc|exact (d_tl _ _ _ _ _ _ _ D)].
Qed.

(** ** Cases *)

Definition ex_text : bytes := bs "var x = 3; function f(n) { if(n) { return n + 1; } } while(x < 10) { x = f(x) * 2; } var o = object(); o.a = ""n"" + x; var q = len(o); var r = o.a;".
Definition num (s : bytes) : expr := EAtom (tk TK_INTEGER s).
Definition var (s : bytes) : expr := EAtom (nm s).
Definition fse (s : bytes) : expr := EAtom (tk TK_FSE s).
Definition semi := tk TK_SEMICOLON (bs ";").
Definition po := tk TK_PAREN_OPEN (bs "(").
Definition pc := tk TK_PAREN_CLOSE (bs ")").
Definition co := tk TK_CURLY_OPEN (bs "{").
Definition cc := tk TK_CURLY_CLOSE (bs "}").
Definition ex_body : stmt :=
  SBlock co (Then (SIf (tk TK_IF (bs "if")) po (var (bs "n")) pc
    (SBlock co (Then (SReturn (tk TK_RETURN (bs "return")) (EInfix (var (bs "n")) (tk TK_PLUS (bs "+")) (num (bs "1"))) semi) Done) cc)) Done) cc.
Definition ex_l : stmts :=
  Then (SInit (tk TK_VAR (bs "var")) (nm (bs "x")) (tk TK_ASSIGNMENT (bs "=")) (num (bs "3")) semi)
  (Then (SFunc 0 (tk TK_FUNCTION (bs "function")) (nm (bs "f")) po (PLast (nm (bs "n"))) pc ex_body)
  (Then (SWhile (tk TK_WHILE (bs "while")) po (EInfix (var (bs "x")) (tk TK_LT (bs "<")) (num (bs "10"))) pc
    (SBlock co (Then (SExpr (EInfix (var (bs "x")) (tk TK_ASSIGNMENT (bs "="))
       (EInfix (ECall (var (bs "f")) po (LastArg (var (bs "x"))) pc) (tk TK_MULTIPLY (bs "*")) (num (bs "2")))) semi) Done) cc))
  (Then (SInit (tk TK_VAR (bs "var")) (nm (bs "o")) (tk TK_ASSIGNMENT (bs "=")) (ECall (fse (bs "object")) po NoArgs pc) semi)
  (Then (SExpr (EInfix (EField (var (bs "o")) (tk TK_DOT (bs ".")) (nm (bs "a"))) (tk TK_ASSIGNMENT (bs "="))
       (EInfix (EAtom (tk TK_STRING (bs "n"))) (tk TK_PLUS (bs "+")) (var (bs "x")))) semi)
  (Then (SInit (tk TK_VAR (bs "var")) (nm (bs "q")) (tk TK_ASSIGNMENT (bs "=")) (ECall (fse (bs "len")) po (LastArg (var (bs "o"))) pc) semi)
  (Then (SInit (tk TK_VAR (bs "var")) (nm (bs "r")) (tk TK_ASSIGNMENT (bs "=")) (EField (var (bs "o")) (tk TK_DOT (bs ".")) (nm (bs "a"))) semi) Done)))))).
Definition ex_fd : fundef := mkFun [bs "n"] ex_body [(bs "f", Global 1); (bs "x", Global 0)] 2.
Definition ex_funs (i : Z) : option fundef := if i =? 0 then Some ex_fd else None.
Definition ex_E : env := mkEnv [[]] 0 0.

Ltac rk := match goal with |- exists n, rank ?t n /\ _ =>
  first [exists 0%nat; split; [eexists; split; [reflexivity|cbn; tauto]|]
        |exists 1%nat; split; [eexists; split; [reflexivity|cbn; tauto]|]
        |exists 2%nat; split; [eexists; split; [reflexivity|cbn; tauto]|]
        |exists 6%nat; split; [eexists; split; [reflexivity|cbn; tauto]|]] end.
Ltac tier := match goal with
  | |- forall m, infix_at ?e m -> _ => intros ? H; exfalso; exact H
  | |- forall m, infix_at (EInfix _ ?o _) m -> _ =>
     let m := fresh in let H := fresh in intros m H; unfold infix_at in H;
     first [ rewrite (rank_fun _ _ 0%nat H ltac:(eexists; split; [reflexivity|cbn; tauto])); lia
           | rewrite (rank_fun _ _ 1%nat H ltac:(eexists; split; [reflexivity|cbn; tauto])); lia
           | rewrite (rank_fun _ _ 2%nat H ltac:(eexists; split; [reflexivity|cbn; tauto])); lia ]
  end.
Ltac grp := repeat first
  [ exact I | reflexivity | tier | rk
  | match goal with
    | |- _ /\ _ => split
    | |- readable _ => split; [cbn [grouped args_grouped pwritten num var fse]|]
    | |- ~ starts _ _ => unfold starts, keyword; cbn; intuition discriminate
    | |- operand _ => unfold operand, ender, prefix_op; cbn; intuition discriminate
    | |- closer _ => unfold closer; cbn; tauto
    | |- tight _ => unfold tight, is_infix, is_pre; cbn; tauto
    | |- forall _, _ => intro
    end ].
Lemma ex_written : swritten ex_l.
Proof. cbn [ex_l ex_body swritten written grouped args_grouped pwritten num var fse]. grp. Qed.
Ltac nolits := let Hl := fresh in intros ? ? Hl; destruct Hl.
Ltac def := lazymatch goal with
  | |- sdefined _ _ Done => apply df_done
  | |- sdefined _ _ (Then _ _) => apply df_then; [def|def]
  | |- defined _ _ (SExpr _ _) => apply df_expr; nolits
  | |- defined _ _ (SInit _ _ _ _ _) => apply df_init; nolits
  | |- defined _ _ (SReturn _ _ _) => apply df_return; nolits
  | |- defined _ _ (SBlock _ _ _) => apply df_block; def
  | |- defined _ _ (SIf _ _ _ _ _) => apply df_if; [nolits|def]
  | |- defined _ _ (SWhile _ _ _ _ _) => apply df_while; [nolits|def]
  | |- defined _ _ (SFunc _ _ _ _ _ _ _) => eapply df_func; [reflexivity|reflexivity|def]
  | |- defined _ _ ex_body => unfold ex_body; def
  end.
Lemma ex_defined : sdefined ex_funs ex_E ex_l.
Proof. unfold ex_l. def. Qed.

Ltac sp := unfold spare; vm_compute; congruence.
Ltac nn := first [let HH := fresh in intro HH; exfalso; vm_compute in HH; discriminate HH | intros _; split; [reflexivity|exact I] | intros _; exact I].
Ltac native := hnf; split; [reflexivity|split; [reflexivity|eexists; split; [reflexivity|split; [reflexivity|vm_compute; split; congruence]]]].
Ltac bo := lazymatch goal with
  | |- binop _ _ _ _ => first [eapply bo_add; [vm_compute; reflexivity|vm_compute; split; congruence] | eapply bo_sub; [vm_compute; reflexivity|vm_compute; split; congruence]
      | eapply bo_mul; [vm_compute; reflexivity|vm_compute; split; congruence] | eapply bo_lt; vm_compute; reflexivity | eapply bo_cat; vm_compute; reflexivity]
  end.
Ltac incs := first [left; split; [reflexivity|split; [bo|reflexivity]] | right; left; split; [reflexivity|split; [bo|reflexivity]]
  | right; right; left; split; [reflexivity|split; bo] | right; right; right; split; [reflexivity|split; bo]].
Ltac run := lazymatch goal with
  | |- ev _ _ _ _ _ _ (tree ?e) _ _ => let n := eval vm_compute in (tree e) in change (tree e) with n; run
  | |- ev _ _ _ _ _ _ (ANode _ _ ANull ANull) _ _ =>
     first [ eapply ev_int; [reflexivity|sp] | eapply ev_function; [reflexivity|sp|eexists; split; [vm_compute; reflexivity|vm_compute; congruence]] | eapply ev_nil; [reflexivity|sp] | eapply ev_string; [reflexivity|sp] | eapply ev_float; [reflexivity|sp]
           | eapply ev_name; [reflexivity|sp|vm_compute; reflexivity|vm_compute; reflexivity] | eapply ev_object; [reflexivity|reflexivity|sp] ]
  | |- ev _ _ _ _ _ _ (ANode ?t _ ANull (ANode _ _ _ _)) _ _ => eapply ev_len; [reflexivity|reflexivity|reflexivity|run|vm_compute; reflexivity|vm_compute; split; congruence]
  | |- ev _ _ _ _ _ _ (ANode ?t true _ _) _ _ =>
     first [ eapply ev_call; [reflexivity|run|run|sp|vm_compute; reflexivity|vm_compute; reflexivity|run|first [left; split; [reflexivity|split; [reflexivity|sp]]|right; reflexivity]]
           | eapply ev_host; [reflexivity|run|run|sp|native] ]
  | |- ev _ _ _ _ _ _ (ANode ?t _ _ _) _ _ =>
     first [ eapply ev_incdec; [reflexivity|sp|vm_compute; reflexivity|vm_compute; reflexivity|incs]
           | eapply ev_assign; [reflexivity|reflexivity|run|sp|vm_compute; reflexivity|vm_compute; reflexivity]
           | eapply ev_set; [reflexivity|reflexivity|run|run|run|vm_compute; reflexivity|exact I|right; left; vm_compute; reflexivity]
           | eapply ev_field; [reflexivity|run|run|vm_compute; reflexivity|exact I]
           | eapply ev_binary; [run|run|run|nn] ]
  | |- binop _ _ _ _ => bo
  | |- evs _ _ _ _ _ _ ANull _ _ => apply evs_nil
  | |- evs _ _ _ _ _ _ _ _ _ => eapply evs_cons; [left; reflexivity|run|run]
  | |- exs _ _ _ _ _ _ Done _ _ => apply exs_done; sp
  | |- exs _ _ _ _ _ _ (Then _ _) _ _ => first [eapply exs_then; [run|run] | eapply exs_out; [run|discriminate]]
  | |- ex _ _ _ _ _ _ (SInit _ _ _ _ _) _ _ => eapply ex_init; [run|sp]
  | |- ex _ _ _ _ _ _ (SFunc _ _ _ _ _ _ _) _ _ => apply ex_func; [sp|reflexivity]
  | |- ex _ _ _ _ _ _ (SExpr _ _) _ _ => eapply ex_expr; run
  | |- ex _ _ _ _ _ _ (SReturn _ _ _) _ _ => eapply ex_return; [run|sp]
  | |- ex _ _ _ _ _ _ (SBlock _ _ _) _ _ => eapply ex_block; run
  | |- ex _ _ _ _ _ _ ex_body _ _ => unfold ex_body; run
  | |- ex _ _ _ _ _ _ (fd_body _) _ _ => cbn [fd_body ex_fd]; run
  | |- ex _ _ _ _ _ _ (SIf _ _ _ _ _) _ _ => first [eapply ex_if; [run|sp|vm_compute; reflexivity|discriminate|run] | eapply ex_ifnot; [run|sp|vm_compute; reflexivity]]
  | |- ex _ _ _ _ _ _ (SWhile _ _ _ _ _) _ _ => eapply ex_while; run
  | |- loops _ _ _ _ _ _ _ _ _ _ _ => first [eapply lp_end; [run|sp|vm_compute; reflexivity] | eapply lp_again; [run|sp|vm_compute; reflexivity|discriminate|run|run] ]
  end.
(** The examples without host functions: the hypothesis about them is met. *)
#[local] Instance no_hosts : Hosts := {| hosts := fun _ _ _ _ _ => False; host_fails := fun _ _ _ _ => False |}.
Lemma no_implements LT host t : @implements LT host t no_hosts.
Proof. split; [intros id vs m v m' []|intros id vs m m' []]. Qed.
Lemma ex_runs : exists m', exs ex_funs 100 50 ex_E 0 (mkMem (fun _ => None) [] []) ex_l Next m' /\ m_global m' 0 = Some (VInt 18) /\
  m_global m' 2 = Some (VObj 0) /\ m_global m' 3 = Some (VInt 1) /\ m_global m' 4 = Some (VStr (bs "n18")) /\ m_heap m' = [[(VStr (bs "a"), VStr (bs "n18"))]].
Proof. eexists. split; [unfold ex_l; run|]. repeat split; vm_compute; reflexivity. Qed.

(** The hypotheses of C40 and C51, and a run: [x] ends as 18. *)
Definition ex_k1 : comp := match compile_script 1000 ex_text (bs "f") (comp_init vm_init) with Ok (_, k) => k | Ub _ => comp_init vm_init end.
Definition ex_k2 : comp := match finalize ex_k1 with Ok (_, k) => k | Ub _ => comp_init vm_init end.
Definition ex_toks : list token := match tokenize ex_text (bs "f") (k_vm (comp_init vm_init)) with Ok (Some t, _) => t | _ => [] end.
Definition ex_vm : vm := match tokenize ex_text (bs "f") (k_vm (comp_init vm_init)) with Ok (_, s) => s | _ => vm_init end.
Ltac p2 n := exists n; split; [lia|vm_compute; reflexivity].
Ltac kw n := constructor; [vm_compute; reflexivity|vm_compute; reflexivity|p2 n|vm_compute; split; congruence].
(** Every function in the text has a name. *)
Definition all_named (l : list token) : Prop :=
  forall p t q, l = p ++ t :: q -> tk_type t = TK_FUNCTION -> exists n r, q = n :: r /\ tk_type n = TK_IDENTIFIER.
Fixpoint named (l : list token) : bool :=
  match l with
  | [] => true
  | t :: q => (if tk_type t =? TK_FUNCTION then match q with n :: _ => tk_type n =? TK_IDENTIFIER | [] => false end else true) && named q
  end.
Lemma named_all l : named l = true -> all_named l.
Proof.
  intros H p. revert l H. induction p as [|a p IH]; intros l H t q -> T; cbn [app named] in H; apply andb_prop in H; destruct H as [A B]; [|exact (IH _ B _ _ eq_refl T)].
  rewrite T, Z.eqb_refl in A. destruct q as [|n r]; [discriminate|]. apply Z.eqb_eq in A. eauto.
Qed.
Definition textb (s : bytes) : bool := forallb (fun c => (0 <? c) && (c <? 256)) s.
Lemma textb_text s : textb s = true -> is_text s.
Proof. unfold textb. intro H. apply Forall_forall. intros c I. rewrite forallb_forall in H. specialize (H c I). apply andb_prop in H. unfold is_byte. lia. Qed.
Lemma textb_textual l : forallb (fun t => textb (tk_str t)) l = true -> textual l.
Proof. intro K. apply Forall_forall. intros t I. rewrite forallb_forall in K. apply textb_text, K, I. Qed.
Lemma named_noanon l : named l = true -> forallb (fun t => textb (tk_str t)) l = true -> noanon l.
Proof. intros H K. split; [apply named_all, H|]. apply Forall_forall. intros t I. rewrite forallb_forall in K. apply textb_text, K, I. Qed.

(** Checking that the resources last, by running. *)
Definition enoughb (t : vm) : bool :=
  (v_gcpass t <? INVALID) && (zlen (t_slots (v_strs t)) + 2 <? W31) && (zlen (t_slots (v_objs t)) + 1 <? W31).
Lemma enoughb_enough t : enoughb t = true -> enough t.
Proof.
  unfold enoughb. intro H. apply andb_prop in H. destruct H as [H C]. apply andb_prop in H. destruct H as [A B].
  pose proof (zlen_nonneg (t_slots (v_strs t))) as P1. pose proof (zlen_nonneg (t_slots (v_objs t))) as P2.
  assert (forall X (l : list (option X)) i, zlen l <= i -> znth l i = None) as Out by (intros X l i L; destruct (znth l i) eqn:Q; [apply znth_some_range in Q; lia|reflexivity]).
  split; [lia|]. split.
  - exists (zlen (t_slots (v_strs t))), (zlen (t_slots (v_strs t)) + 1). split; [lia|]. split; [lia|]. split; [lia|]. unfold get_str, get_str_entry. rewrite !tab_get_znth, !Out by lia. auto.
  - exists (zlen (t_slots (v_objs t))). split; [lia|]. unfold get_obj. rewrite tab_get_znth, Out by lia. reflexivity.
Qed.
Fixpoint lasting hostmark host (n : nat) (t : vm) : bool :=
  enoughb t && match fetch t with
  | Ok (w, _) => if w =? VmModel.OP_END then true else
      match n with O => false | S n => match iterate hostmark host t with Ok (_, t1) => lasting hostmark host n t1 | Ub _ => true end end
  | Ub _ => true
  end.
Lemma lasting_enough hostmark host t t' : steps hostmark host t t' -> forall n, lasting hostmark host n t = true -> enough t'.
Proof.
  induction 1 as [t|t w t1 t2 Fe Ne It He Fr Ni St IH]; intros n L.
  - destruct n; cbn [lasting] in L; apply andb_prop in L; apply enoughb_enough, L.
  - destruct n; cbn [lasting] in L; apply andb_prop in L; destruct L as [_ L]; rewrite Fe in L; (destruct (Z.eqb_spec w VmModel.OP_END); [contradiction|]); [discriminate|].
    rewrite It in L. eapply IH; eauto.
Qed.

Example C40_fresh : fresh vm_init.
Proof.
  constructor; try (vm_compute; congruence).
  - apply vm_init_ok.
  - intro i. unfold get_obj. rewrite tab_get_znth. destruct (znth _ i) as [o|] eqn:Q; [|reflexivity]. assert (In o (t_slots (v_objs vm_init))) as I by (apply In_znth; eauto).
    assert (forallb (fun o => match o with None => true | Some _ => false end) (t_slots (v_objs vm_init)) = true) as X by (vm_compute; reflexivity).
    rewrite forallb_forall in X. specialize (X o I). destruct o; [discriminate|reflexivity].
  - eexists. split; [vm_compute; reflexivity|]. split; [kw 0|reflexivity].
  - eexists. split; vm_compute; reflexivity.
Qed.
Example C40_case :
  fresh vm_init /\ setup vm_init (comp_init vm_init) ex_E /\ is_text ex_text /\ zlen ex_text < W31 /\
  compile_script 1000 ex_text (bs "f") (comp_init vm_init) = Ok (true, ex_k1) /\ finalize ex_k1 = Ok (tt, ex_k2) /\ v_errs (k_vm ex_k2) = [] /\
  tokenize ex_text (bs "f") (k_vm (comp_init vm_init)) = Ok (Some ex_toks, ex_vm) /\
  ex_toks = sstext ex_l /\ swritten ex_l /\ sdefined ex_funs ex_E ex_l /\
  100 <= 65536 /\ 2 * 100 - 2 <= v_maxstack vm_init /\ 50 < W32 /\ 50 <= v_maxfields vm_init /\
  (forall x, In x (v_static (k_vm ex_k2)) -> exists v, rep (k_vm ex_k2) nothing v x) /\
  globs (set_static (v_static (k_vm ex_k2)) (k_vm ex_k2)) nothing (fun _ => None) /\
  (forall t, steps nomark (fun _ _ => mub UbNull) (set_static (v_static (k_vm ex_k2)) (k_vm ex_k2)) t -> enough t) /\
  lookup (bs "x") (e_scopes (afters ex_l ex_E)) = Some (Global 0) /\ lookup (bs "r") (e_scopes (afters ex_l ex_E)) = Some (Global 4) /\
  exists m', exs ex_funs 100 50 ex_E 0 (mkMem (fun _ => None) [] []) ex_l Next m' /\ m_global m' 0 = Some (VInt 18) /\
    m_global m' 2 = Some (VObj 0) /\ m_global m' 3 = Some (VInt 1) /\ m_global m' 4 = Some (VStr (bs "n18")) /\ m_heap m' = [[(VStr (bs "a"), VStr (bs "n18"))]].
Proof.
  split; [exact C40_fresh|]. split; [constructor|]. split; [apply textb_text; vm_compute; reflexivity|].
  do 5 (split; [vm_compute; reflexivity|]).
  split; [vm_compute; reflexivity|]. split; [exact ex_written|]. split; [exact ex_defined|]. split; [lia|]. split; [vm_compute; congruence|].
  split; [reflexivity|]. split; [vm_compute; congruence|].
  split. { intros x I. exists (VInt 0). assert (forallb (fun x => (v_type x =? T_INT) && (v_data x =? 0)) (v_static (k_vm ex_k2)) = true) as Q by (vm_compute; reflexivity).
    rewrite forallb_forall in Q. specialize (Q x I). destruct x as [ty d]. cbn [v_type v_data] in Q. apply andb_prop in Q. destruct Q as [Q1 Q2]. apply Z.eqb_eq in Q1, Q2. subst. split; [reflexivity|unfold is_s32; vm_compute; split; congruence]. }
  split; [intros i v Q; discriminate|]. split; [intros t St; eapply lasting_enough with (n := 2000%nat); [exact St|vm_compute; reflexivity]|].
  split; [vm_compute; reflexivity|]. split; [vm_compute; reflexivity|]. exact ex_runs.
Qed.
(** A function written in an expression:
    [var g = function(n) { return n + 1; }; var y = g(2);]. *)
Definition lm_body : stmt := SBlock co (Then (SReturn (tk TK_RETURN (bs "return")) (EInfix (var (bs "n")) (tk TK_PLUS (bs "+")) (num (bs "1"))) semi) Done) cc.
Definition lm_text : bytes := bs "var g = function(n) { return n + 1; }; var y = g(2);".
Definition lm_ts : list token := [tk TK_FUNCTION (bs "function"); po] ++ ptext (PLast (nm (bs "n"))) ++ [pc] ++ stext lm_body.
Definition lm_t : token := tk TK_FUNCTION (bs "0").
Definition lm_l : stmts :=
  Then (SInit (tk TK_VAR (bs "var")) (nm (bs "g")) (tk TK_ASSIGNMENT (bs "=")) (EFunc lm_ts lm_t) semi)
  (Then (SInit (tk TK_VAR (bs "var")) (nm (bs "y")) (tk TK_ASSIGNMENT (bs "=")) (ECall (var (bs "g")) po (LastArg (num (bs "2"))) pc) semi) Done).
Definition lm_fd : fundef := mkFun [bs "n"] lm_body [] 0.
Definition lm_funs (i : Z) : option fundef := if i =? 0 then Some lm_fd else None.
Definition lm_k1 : comp := match compile_script 1000 lm_text (bs "f") (comp_init vm_init) with Ok (_, k) => k | Ub _ => comp_init vm_init end.
Definition lm_k2 : comp := match finalize lm_k1 with Ok (_, k) => k | Ub _ => comp_init vm_init end.
Definition lm_toks : list token := match tokenize lm_text (bs "f") (k_vm (comp_init vm_init)) with Ok (Some t, _) => t | _ => [] end.
Definition lm_vm : vm := match tokenize lm_text (bs "f") (k_vm (comp_init vm_init)) with Ok (_, s) => s | _ => vm_init end.
Lemma lm_written : swritten lm_l.
Proof. cbn [lm_l lm_body swritten written grouped args_grouped pwritten num var]. grp. Qed.
Lemma lm_defined : sdefined lm_funs ex_E lm_l.
Proof.
  apply df_then; [|apply df_then; [apply df_init; nolits|apply df_done]]. apply df_init. intros ts t [Q|[]]. injection Q as <- <-.
  eapply df_literal; [reflexivity|reflexivity|cbn [pwritten]; grp|reflexivity|cbn [lm_body written swritten grouped num var]; grp|reflexivity|reflexivity|unfold lm_body; def].
Qed.
Lemma lm_runs : exists m', exs lm_funs 100 50 ex_E 0 (mkMem (fun _ => None) [] []) lm_l Next m' /\ m_global m' 0 = Some (VFun 0) /\ m_global m' 1 = Some (VInt 3).
Proof. eexists. split; [unfold lm_l; run|]. repeat split; vm_compute; reflexivity. Qed.
Example C40_function_expression :
  compile_script 1000 lm_text (bs "f") (comp_init vm_init) = Ok (true, lm_k1) /\ finalize lm_k1 = Ok (tt, lm_k2) /\ v_errs (k_vm lm_k2) = [] /\
  tokenize lm_text (bs "f") (k_vm (comp_init vm_init)) = Ok (Some lm_toks, lm_vm) /\ lm_toks = sstext lm_l /\ swritten lm_l /\ sdefined lm_funs ex_E lm_l /\
  exists m', exs lm_funs 100 50 ex_E 0 (mkMem (fun _ => None) [] []) lm_l Next m' /\ m_global m' 0 = Some (VFun 0) /\ m_global m' 1 = Some (VInt 3).
Proof. do 5 (split; [vm_compute; reflexivity|]). split; [exact lm_written|]. split; [exact lm_defined|]. exact lm_runs. Qed.
(** The machine agrees. *)
Definition lm_end : vm := match execute nomark (fun _ _ => mub UbNull) 2000 (k_vm lm_k2) with Ok (_, t) => t | Ub _ => vm_init end.
Example C40_function_expression_machine : v_errs lm_end = [] /\ znth (v_static lm_end) 1 = Some (vint 3).
Proof. vm_compute. auto. Qed.
(** The machine agrees. *)
Definition ex_end : vm := match execute nomark (fun _ _ => mub UbNull) 2000 (k_vm ex_k2) with Ok (_, t) => t | Ub _ => vm_init end.
Example C40_machine : execute nomark (fun _ _ => mub UbNull) 2000 (k_vm ex_k2) = Ok (Some true, ex_end) /\
  (let W := fun a => if a =? 0 then Some 0 else None in global_is ex_end W (bs "x") (VInt 18) /\ global_is ex_end W (bs "r") (VStr (bs "n18")) /\ global_is ex_end W (bs "o") (VObj 0)).
Proof.
  split; [vm_compute; reflexivity|]. cbv zeta. split; [|split].
  - exists 0, (vint 18). split; [vm_compute; reflexivity|]. split; [vm_compute; reflexivity|]. split; [reflexivity|unfold is_s32; vm_compute; split; congruence].
  - exists 4. eexists. split; [vm_compute; reflexivity|]. split; [vm_compute; reflexivity|]. split; [reflexivity|vm_compute; reflexivity].
  - exists 2. eexists. split; [vm_compute; reflexivity|]. split; [vm_compute; reflexivity|]. exists 0. split; [reflexivity|vm_compute; reflexivity].
Qed.
(** The host declaring a variable and a function first. *)
Example C40_setup : exists k E, setup vm_init k E /\ lookup (bs "h") (e_scopes E) = Some (Global 1) /\ lookup (bs "cf") (e_scopes E) = Some (Global 3).
Proof.
  destruct (create_global (bs "h") (comp_init vm_init)) as [[[p|] k]|] eqn:A; [|exfalso; vm_compute in A; discriminate..].
  assert (p = 1) as -> by (vm_compute in A; congruence).
  destruct (create_c_function (bs "cf") (Some 7) k) as [[u k2]|] eqn:B.
  - eexists _, _. split; [eapply su_func; [eapply su_global; [apply su_new|exact A|]|exact B|]|split; vm_compute; reflexivity].
    + vm_compute in A. injection A as <-. reflexivity.
    + vm_compute in A. injection A as <-. vm_compute in B. injection B as _ <-. reflexivity.
  - exfalso. vm_compute in A. injection A as <-. vm_compute in B. discriminate.
Qed.

(** A host function that computes its result from its arguments and leaves the
    machine alone implements that computation. *)
Lemma pure_implements {LT : Lits} {HS : Hosts} (host : Z -> list value -> M value) t0 :
  (forall id vs m v m', hosts id vs m v m' -> m' = m /\ exists cb,
    (forall t W xs, frame t = frame t0 -> Forall2 (rep t W) vs xs -> CallSpec.good_native t (mkV T_FUNC id) xs cb) /\
    (forall t W xs, Forall2 (rep t W) vs xs -> exists x, host cb xs t = Ok (x, t) /\ rep t W v x)) ->
  (forall id vs m m', ~ host_fails id vs m m') ->
  implements host t0.
Proof.
  intros H Nf. split; [|intros id vs m m' Hf; destruct (Nf _ _ _ _ Hf)]. intros id vs m v m' Hs. destruct (H _ _ _ _ _ Hs) as (-> & cb & Gn & Do). exists cb. intros t W mm st xs Fr Wf _ _ Wd Gl _ R.
  split; [exact (Gn _ _ _ Fr R)|]. destruct (Do _ _ _ R) as (x & E & Rx). exists x, t, W, mm. repeat (split; [assumption || reflexivity|]). auto.
Qed.

(** A script calling a host function, [dbl], that doubles an integer:
    [var y = dbl(dbl(5) + 1);]. *)
Definition hf_k : comp := match create_c_function (bs "dbl") (Some 7) (comp_init vm_init) with Ok (_, k) => k | Ub _ => comp_init vm_init end.
Definition hf_E : env := mkEnv [[(bs "dbl", Global 1)]] 0 2.
Definition hf_text : bytes := bs "var y = dbl(dbl(5) + 1);".
Definition hf_call (e : expr) : expr := ECall (var (bs "dbl")) po (LastArg e) pc.
Definition hf_l : stmts :=
  Then (SInit (tk TK_VAR (bs "var")) (nm (bs "y")) (tk TK_ASSIGNMENT (bs "=")) (hf_call (EInfix (hf_call (num (bs "5"))) (tk TK_PLUS (bs "+")) (num (bs "1")))) semi) Done.
Definition hf_k1 : comp := match compile_script 1000 hf_text (bs "f") hf_k with Ok (_, k) => k | Ub _ => comp_init vm_init end.
Definition hf_k2 : comp := match finalize hf_k1 with Ok (_, k) => k | Ub _ => comp_init vm_init end.
Definition hf_toks : list token := match tokenize hf_text (bs "f") (k_vm hf_k) with Ok (Some t, _) => t | _ => [] end.
Definition hf_vm : vm := match tokenize hf_text (bs "f") (k_vm hf_k) with Ok (_, s) => s | _ => vm_init end.
Definition hf_host (cb : Z) (xs : list value) : M value :=
  match xs with [x] => ret (vint (2 * v_data x)) | _ => ret vnil end.
Definition hf_hosts : Hosts := {|
  hosts := fun id vs m v m' => id = 0 /\ m' = m /\ exists n, vs = [VInt n] /\ v = VInt (2 * n) /\ is_s32 (2 * n);
  host_fails := fun _ _ _ _ => False |}.
Definition hf_globals (i : Z) : option val := if i =? 1 then Some (VFun 0) else None.
Lemma hf_written : swritten hf_l.
Proof. unfold hf_l, hf_call. cbn [hf_l hf_call swritten written grouped args_grouped pwritten num var]. grp. Qed.
Lemma hf_defined : sdefined (fun _ => None) hf_E hf_l.
Proof. unfold hf_l. def. Qed.
Lemma hf_implements : implements (LT := kept_of (k_vm hf_k2)) (HS := hf_hosts) hf_host (set_static (v_static (k_vm hf_k2)) (k_vm hf_k2)).
Proof.
  apply pure_implements; [|intros id vs m m' []]. intros id vs m v m' Hs. unfold hosts, hf_hosts in Hs. destruct Hs as (-> & -> & n & -> & -> & B). split; [reflexivity|]. exists 7. split.
  - intros t W xs Fr R. pose proof (f_equal v_funcs Fr) as Q1. pose proof (f_equal v_extfuncs Fr) as Q2. unfold frame in Q1, Q2. vsin Q1. vsin Q2.
    eexists _, _. unfold CallSpec.function_is. rewrite Q1, Q2. split; [split; [reflexivity|vm_compute; reflexivity]|]. split; [left; reflexivity|]. split; [discriminate|].
    split; [vm_compute; reflexivity|]. split; [reflexivity|]. split; [left; reflexivity|]. intro X. exfalso. apply X. reflexivity.
  - intros t W xs R. inversion R as [|? x ? q Rn R2]; subst. inversion R2; subst. destruct Rn as [-> _]. exists (vint (2 * n)). split; [|split; [reflexivity|exact B]].
    unfold hf_host, ret. cbn [v_data vint]. unfold vint. do 3 f_equal. unfold u32. rewrite Z.mul_mod_idemp_r by discriminate. reflexivity.
Qed.
Lemma hf_runs : exists m', exs (HS := hf_hosts) (fun _ => None) 100 50 hf_E 0 (mkMem hf_globals [] []) hf_l Next m' /\ m_global m' 2 = Some (VInt 22).
Proof. eexists. split; [unfold hf_l; run|]. repeat split; vm_compute; reflexivity. Qed.
Example C40_host_function :
  setup vm_init hf_k hf_E /\ is_text hf_text /\ zlen hf_text < W31 /\
  compile_script 1000 hf_text (bs "f") hf_k = Ok (true, hf_k1) /\ finalize hf_k1 = Ok (tt, hf_k2) /\ v_errs (k_vm hf_k2) = [] /\
  tokenize hf_text (bs "f") (k_vm hf_k) = Ok (Some hf_toks, hf_vm) /\
  hf_toks = sstext hf_l /\ swritten hf_l /\ sdefined (fun _ => None) hf_E hf_l /\
  100 <= 65536 /\ 2 * 100 - 2 <= v_maxstack vm_init /\ 50 < W32 /\ 50 <= v_maxfields vm_init /\
  (forall x, In x (v_static (k_vm hf_k2)) -> exists v, rep (k_vm hf_k2) nothing v x) /\
  globs (set_static (v_static (k_vm hf_k2)) (k_vm hf_k2)) nothing hf_globals /\
  (forall t, steps nomark hf_host (set_static (v_static (k_vm hf_k2)) (k_vm hf_k2)) t -> enough t) /\
  implements (LT := kept_of (k_vm hf_k2)) (HS := hf_hosts) hf_host (set_static (v_static (k_vm hf_k2)) (k_vm hf_k2)) /\
  lookup (bs "y") (e_scopes (afters hf_l hf_E)) = Some (Global 2) /\
  exists m', exs (HS := hf_hosts) (fun _ => None) 100 50 hf_E 0 (mkMem hf_globals [] []) hf_l Next m' /\ m_global m' 2 = Some (VInt 22).
Proof.
  split.
  { change hf_E with (mkEnv [(bs "dbl", Global (e_globals (mkEnv [[]] 0 0) + 1)) :: outermost (mkEnv [[]] 0 0)] 0 (e_globals (mkEnv [[]] 0 0) + 2)).
    eapply su_func with (cb := Some 7); [apply su_new| |vm_compute; reflexivity]. vm_compute. reflexivity. }
  split; [apply textb_text; vm_compute; reflexivity|]. do 6 (split; [vm_compute; reflexivity|]). split; [exact hf_written|]. split; [exact hf_defined|].
  split; [lia|]. split; [vm_compute; congruence|]. split; [reflexivity|]. split; [vm_compute; congruence|].
  split. { match goal with |- forall x, In x ?st -> _ => let c := eval vm_compute in st in replace st with c by (vm_compute; reflexivity) end.
    intros x Hx. repeat (destruct Hx as [<-|Hx]; [first [exists (VInt 0); split; [reflexivity|vm_compute; split; congruence]|exists (VFun 0); split; [reflexivity|vm_compute; split; congruence]]|]). destruct Hx. }
  split. { intros i v Q. unfold hf_globals in Q. destruct (Z.eqb_spec i 1) as [->|]; [|discriminate]. injection Q as <-. split; [vm_compute; split; congruence|].
    eexists. split; [vm_compute; reflexivity|]. split; [reflexivity|vm_compute; split; congruence]. }
  split; [intros t St; eapply lasting_enough with (n := 2000%nat); [exact St|vm_compute; reflexivity]|].
  split; [exact hf_implements|]. split; [vm_compute; reflexivity|]. exact hf_runs.
Qed.
(** The machine agrees. *)
Definition hf_end : vm := match execute nomark hf_host 2000 (k_vm hf_k2) with Ok (_, t) => t | Ub _ => vm_init end.
Example C40_host_function_machine : v_errs hf_end = [] /\ znth (v_static hf_end) 2 = Some (vint 22).
Proof. vm_compute. auto. Qed.

(** Inside a block, after [var x = 3;] outside and [var y = 4;] inside, the
    compiler and the machine; next is an expression or a statement. *)
Definition got {A} (r : res (A * comp)) : comp := match r with Ok (_, k) => k | Ub _ => comp_init vm_init end.
Definition toks_of (s : bytes) : list token := match tokenize s (bs "f") vm_init with Ok (Some t, _) => t | _ => [] end.
Definition in_block (s : bytes) : comp :=
  got (r_stmt (compiler 100) (got (CsModel.push_context (got (r_stmt (compiler 100) (set_k_toks (toks_of (bs "var x = 3; var y = 4; " ++ s)) (comp_init vm_init))))))).
Definition in_env : env := mkEnv [[(bs "y", Local 0)]; [(bs "x", Global 0)]] 1 1.
Definition in_mem : mem := mkMem (fun i => if i =? 0 then Some (VInt 3) else None) [Some (VInt 4)] [].
Definition api : Z -> list value -> M value := api_host nomark ex_prog.
(** Five instructions: [3], the address of [x], the store, drop it; [4]. *)
Definition at_block (k : comp) : vm := match run_n nomark api 5 (k_vm k) with Some t => t | None => k_vm k end.

(** The program ends there. *)
Definition ended (k : comp) : comp := got (add_op OP_END true k).
Lemma agree a b lo hi : forallb (fun i => match znth a i, znth b i with Some x, Some y => x =? y | _, _ => false end) (zseq 0 (Z.to_nat hi)) = true ->
  0 <= lo -> forall i, lo <= i < hi -> znth a i = znth b i.
Proof.
  intros H L i Hi. rewrite forallb_forall in H. specialize (H i ltac:(apply In_zseq; lia)). destruct (znth a i), (znth b i); try discriminate. f_equal. lia.
Qed.
Lemma kept_literals k : literals (kept_of (k_vm k)) (k_vm k).
Proof. intros i e G K. unfold lit, kept_of. rewrite G, K. reflexivity. Qed.

Lemma str_init : str_wf (v_strs vm_init) (v_byhash vm_init).
Proof. destruct vm_init_ok as (b & W). exact (w_str _ _ _ W). Qed.
Lemma str_kept k : v_strs (k_vm k) = v_strs vm_init -> v_byhash (k_vm k) = v_byhash vm_init -> str_wf (v_strs (k_vm k)) (v_byhash (k_vm k)).
Proof. intros -> ->. exact str_init. Qed.
Lemma compiled_ok k : kwf k -> bare (k_vm k) = bare vm_init -> v_strs (k_vm k) = v_strs vm_init -> v_extfuncs (k_vm k) = [] -> vm_ok (k_vm k).
Proof.
  intros K B S X. exists true. replace (k_vm k) with (set_static (v_static (k_vm k)) (k_vm k)) by (destruct (k_vm k); reflexivity).
  apply machine_wf with (s := vm_init); [apply fresh_wf, C40_fresh| |exact K|reflexivity]. split; [exact B|]. split; [rewrite S; apply marks_refl|].
  intros _ j xf Z. rewrite X in Z. apply znth_some_range in Z. change (zlen []) with 0 in Z. lia.
Qed.
Lemma some_here k t L l m ip : vm_ok t -> v_errs t = [] -> v_objs t = v_objs vm_init -> v_strs t = v_strs (k_vm k) -> (forall x, In x (v_static t) -> exists v, rep t nothing v x) ->
  globs t nothing (m_global m) -> m_heap m = [] -> Forall2 (rep t nothing) L l -> stack_is t l -> ip_is t ip -> @here (kept_of (k_vm k)) t t L m ip.
Proof.
  intros (b & W) N O S Vs G Hm Rl Sk Ip.
  assert (wf true 0 t) as Wt. { destruct b; [exact W|]. pose proof (w_err _ _ _ W eq_refl) as X. unfold has_errors in X. rewrite N in X. discriminate. }
  assert (forall i, get_obj t i = None) as No. { intro i. unfold get_obj. rewrite O. apply (f_objs _ C40_fresh i). }
  split; [reflexivity|exact Wt|exact Ip|]. exists nothing, (fun _ _ => vnil), l. rewrite Hm. split; [|auto]. split; [|discriminate|discriminate| |exact Vs|].
  - split; [apply (w_str _ _ _ Wt)|apply (w_tab _ _ _ Wt)| |intros i ob Q; rewrite No in Q; discriminate]. destruct Sk as (c & A & _). exists c. exact A.
  - intros i ob Q. rewrite No in Q. discriminate.
  - intros i x Q. apply kept_entry in Q. unfold get_str_entry in *. rewrite S. exact Q.
Qed.

Ltac keep3 := constructor; [p2 4|vm_compute; reflexivity|vm_compute; split; congruence|p2 1|vm_compute; reflexivity|vm_compute; split; congruence|apply str_kept; vm_compute; reflexivity].
Ltac increl := constructor;
  [ keep3
  | match goal with |- Forall2 _ ?a _ => let c := eval vm_compute in a in replace a with c by (vm_compute; reflexivity) end;
    repeat (constructor; [unfold srel; cbn [cc_vars]; repeat (constructor; [split; [reflexivity|split; reflexivity]|]); constructor|]); constructor
  | eexists _, _; split; [vm_compute; reflexivity|split; reflexivity]
  | vm_compute; reflexivity
  | apply textb_textual; vm_compute; reflexivity
  | vm_compute; reflexivity
  | vm_compute; reflexivity
  | vm_compute; reflexivity ].
Ltac intint := split; [reflexivity|unfold is_s32; vm_compute; split; congruence].
Ltac inhere n := apply some_here with (l := [vint 4]);
  [ unfold at_block; match goal with |- vm_ok (match run_n ?h ?a ?n ?s with _ => _ end) => destruct (run_n h a n s) as [tt0|] eqn:Er; [|exfalso; vm_compute in Er; discriminate];
      eapply C18_run_safe; [|eapply run_n_runs; exact Er] end; apply compiled_ok;
      [ constructor; [p2 n|vm_compute; reflexivity|vm_compute; split; congruence|p2 1|vm_compute; reflexivity|vm_compute; split; congruence|apply str_kept; vm_compute; reflexivity]
      | vm_compute; reflexivity | vm_compute; reflexivity | vm_compute; reflexivity ]
  | vm_compute; reflexivity | vm_compute; reflexivity | vm_compute; reflexivity
  | match goal with |- forall x, In x ?st -> _ => let c := eval vm_compute in st in replace st with c by (vm_compute; reflexivity) end;
    let x := fresh in let Hx := fresh in intros x Hx; repeat (destruct Hx as [<-|Hx]; [match goal with |- exists v, rep _ _ v {| v_type := _; v_data := ?d |} => exists (VInt d); intint end|]); destruct Hx
  | inmem | reflexivity
  | constructor; [intint|constructor]
  | eexists; split; [vm_compute; reflexivity|split; [kw 1|reflexivity]]
  | eexists; split; vm_compute; reflexivity ]
with inmem := match goal with
  | |- frel _ _ _ => split; [vm_compute; reflexivity|intros i o H; pose proof (znth_some_range _ _ _ H) as R; cbn in R; assert (i = 0) as -> by lia; injection H as <-;
      exists (VInt 4); split; reflexivity]
  | |- globs _ _ _ => intros i v H; cbn in H; destruct (Z.eqb_spec i 0) as [->|]; [|discriminate]; injection H as <-; split; [vm_compute; split; congruence|];
      exists (vint 3); split; [vm_compute; reflexivity|intint]
  end.
Ltac ininv := constructor; vm_compute; first [reflexivity|congruence].

(** A script compiled and executed: the errors, and the value of global [g]. *)
Definition outcome (s : bytes) : option (list bytes * list bytes * option value) :=
  match compile_script 1000 s (bs "f") (comp_init vm_init) with
  | Ok (true, k1) => match finalize k1 with
     | Ok (_, k2) => match execute nomark (fun _ _ => mub UbNull) 2000 (k_vm k2) with
        | Ok (Some _, t) => Some (v_errs (k_vm k2), v_errs t, match find_global (bs "g") t with Some j => znth (v_static t) j | None => None end)
        | _ => None end
     | Ub _ => None end
  | _ => None end.

Definition t37 := bs "x + y++ * 2; }".
Definition k37 := got (compile_expression (compiler 100) false (in_block t37)).
Definition e37 := EInfix (var (bs "x")) (tk TK_PLUS (bs "+")) (EInfix (EIncDec (var (bs "y")) (tk TK_INCREMENT (bs "++"))) (tk TK_MULTIPLY (bs "*")) (num (bs "2"))).
Definition r37 := ended k37.
Notation LT37 := (kept_of (k_vm k37)) (only parsing).
Example C37_case :
  compile_expression (compiler 100) false (in_block t37) = Ok (true, k37) /\ v_errs (k_vm k37) = [] /\ crel (in_block t37) in_env /\
  literals LT37 (k_vm k37) /\ k_toks (in_block t37) = text e37 ++ k_toks k37 /\
  pow2 (zlen (v_code (k_vm r37))) /\ inv (v_code (k_vm r37)) (v_funcs (k_vm r37)) 100 1 50 (at_block r37) /\
  (forall t', steps nomark api (at_block r37) t' -> enough t') /\ @functions_at LT37 (v_code (k_vm r37)) (v_funcs (k_vm r37)) 1 (fun _ => None) /\
  (forall i, k_w (in_block t37) <= i < k_w k37 -> znth (v_code (k_vm r37)) i = znth (v_code (k_vm k37)) i) /\
  k_nstat k37 <= 1 /\ brk (code (v_code (k_vm r37))) (in_block t37) [] None /\ fno (in_block t37) None /\
  zlen [VInt 4] = e_used in_env /\ frel (fun _ => VNil) (m_local in_mem) [VInt 4] /\
  @here LT37 (at_block r37) (at_block r37) ([] ++ [VInt 4]) in_mem (k_w (in_block t37)) /\
  exists v m', ev (fun _ => None) 100 50 in_env 1 in_mem (tree e37) v m' /\ v = VInt 11 /\ m_local m' = [Some (VInt 5)].
Proof.
  split; [vm_compute; reflexivity|]. split; [vm_compute; reflexivity|]. split; [increl|].
  split; [apply kept_literals|]. split; [vm_compute; reflexivity|]. split; [p2 5|].
  split; [ininv|]. split; [intros t St; eapply lasting_enough with (n := 100%nat); [exact St|vm_compute; reflexivity]|]. split; [intros i f H; discriminate|].
  split; [apply agree; [vm_compute; reflexivity|vm_compute; congruence]|]. split; [vm_compute; congruence|]. split; [exact I|]. split; [exact I|]. split; [reflexivity|]. split; [inmem|]. split; [inhere 5|].
  eexists _, _. split; [run|split; reflexivity].
Qed.

Definition t42 := bs "--y; }".
Definition k42 := got (compile_expression (compiler 100) false (in_block t42)).
Definition r42 := ended k42.
Notation LT42 := (kept_of (k_vm k42)) (only parsing).
Example C42_case :
  compile_expression (compiler 100) false (in_block t42) = Ok (true, k42) /\ v_errs (k_vm k42) = [] /\ crel (in_block t42) in_env /\
  literals LT42 (k_vm k42) /\
  (let e := EPre (tk TK_DECREMENT (bs "--")) (var (bs "y")) in
   k_toks (in_block t42) = text e ++ k_toks k42 /\
   exists t x r r', tree e = ANode t r (ANode x r' ANull ANull) ANull /\ tk_type t = TK_DECREMENT /\ tk_type x = TK_IDENTIFIER /\ tk_str x = bs "y") /\
  lookup (bs "y") (e_scopes in_env) = Some (Local 0) /\ RunSpec.read (Local 0) in_mem = Some (VInt 4) /\
  pow2 (zlen (v_code (k_vm r42))) /\ inv (v_code (k_vm r42)) (v_funcs (k_vm r42)) 100 1 50 (at_block r42) /\
  (forall t', steps nomark api (at_block r42) t' -> enough t') /\
  (forall i, k_w (in_block t42) <= i < k_w k42 -> znth (v_code (k_vm r42)) i = znth (v_code (k_vm k42)) i) /\
  k_nstat k42 <= 1 /\ brk (code (v_code (k_vm r42))) (in_block t42) [] None /\ fno (in_block t42) None /\
  zlen [VInt 4] = e_used in_env /\ frel (fun _ => VNil) (m_local in_mem) [VInt 4] /\
  @here LT42 (at_block r42) (at_block r42) ([] ++ [VInt 4]) in_mem (k_w (in_block t42)).
Proof.
  split; [vm_compute; reflexivity|]. split; [vm_compute; reflexivity|]. split; [increl|].
  split; [apply kept_literals|].
  split; [split; [vm_compute; reflexivity|eexists _, _, _, _; split; [vm_compute; reflexivity|repeat split]]|].
  split; [reflexivity|]. split; [reflexivity|]. split; [p2 5|].
  split; [ininv|]. split; [intros t St; eapply lasting_enough with (n := 100%nat); [exact St|vm_compute; reflexivity]|].
  split; [apply agree; [vm_compute; reflexivity|vm_compute; congruence]|]. split; [vm_compute; congruence|]. split; [exact I|]. split; [exact I|]. split; [reflexivity|]. split; [inmem|]. inhere 5.
Qed.

(** [o[i = i + 1]--], where [o] has one field, [1], and [i] is 0: it is read
    there and written at [2], as the index is evaluated twice.  The other hypotheses are those of C37. *)
Definition e42 := EIncDec (EIndex (var (bs "o")) (tk TK_BRACKET_OPEN (bs "[")) (EInfix (var (bs "i")) (tk TK_ASSIGNMENT (bs "=")) (EInfix (var (bs "i")) (tk TK_PLUS (bs "+")) (num (bs "1")))) (tk TK_BRACKET_CLOSE (bs "]"))) (tk TK_DECREMENT (bs "--")).
Definition env42 := mkEnv [[(bs "i", Global 1); (bs "o", Global 0)]] 0 2.
Definition mem42 := mkMem (fun i => if i =? 0 then Some (VObj 0) else if i =? 1 then Some (VInt 0) else None) [] [[(VInt 1, VInt 7)]].
Example C42_fields_case : exists t x r r' a b m1 m2 m3 m4 key key',
  tree e42 = ANode t r (ANode x r' a b) ANull /\ tk_type x = TK_BRACKET_OPEN /\ tk_type t = TK_POSTDEC /\
  ev (fun _ => None) 100 50 env42 0 mem42 a (VObj 0) m1 /\ ev (fun _ => None) 100 50 env42 1 m1 b key m2 /\ key = VInt 1 /\
  fields 0 m2 = Some [(VInt 1, VInt 7)] /\ oget key [(VInt 1, VInt 7)] = VInt 7 /\
  ev (fun _ => None) 100 50 env42 1 m2 a (VObj 0) m3 /\ ev (fun _ => None) 100 50 env42 2 m3 b key' m4 /\ key' = VInt 2 /\
  fields 0 m4 = Some [(VInt 1, VInt 7)] /\ (forall v, fits 50 key' v [(VInt 1, VInt 7)]).
Proof.
  eexists _, _, _, _, _, _, _, _, _, _, _, _. split; [vm_compute; reflexivity|]. split; [reflexivity|]. split; [reflexivity|].
  split; [run|]. split; [run|]. do 3 (split; [reflexivity|]). split; [run|]. split; [run|]. do 2 (split; [reflexivity|]). intro v. right. left. reflexivity.
Qed.
Theorem C42_fields_machine :
  outcome (bs "var o = object(); var i = 0; o[1] = 7; var r = o[i = i + 1]--; var g = o[2] * 100 + r * 10 + i;") = Some ([], [], Some (vint 672)).
Proof. vm_compute. reflexivity. Qed.
(** So a field is not always changed by its increment: [o[1]] is read here, and
    is still 7 afterwards. *)
Theorem C42_index_refuted :
  outcome (bs "var o = object(); var i = 0; o[1] = 7; var r = o[i = i + 1]++; var g = o[1];") = Some ([], [], Some (vint 7)).
Proof. vm_compute. reflexivity. Qed.
(** And the value of [x++] is not always the one [x] had, if that is a float:
    the comparison gives 0. *)
Theorem C42_floats_refuted :
  outcome (bs "var x = 0.1; var y = x; var z = x++; var g = z == y;") = Some ([], [], Some (vint 0)).
Proof. vm_compute. reflexivity. Qed.

Definition t38 := bs "while(x < y) { var z = y; x = z; } }".
Definition k38 := got (r_stmt (compiler 100) (in_block t38)).
Definition s38 := SWhile (tk TK_WHILE (bs "while")) po (EInfix (var (bs "x")) (tk TK_LT (bs "<")) (var (bs "y"))) pc
  (SBlock co (Then (SInit (tk TK_VAR (bs "var")) (nm (bs "z")) (tk TK_ASSIGNMENT (bs "=")) (var (bs "y")) semi)
             (Then (SExpr (EInfix (var (bs "x")) (tk TK_ASSIGNMENT (bs "=")) (var (bs "z"))) semi) Done)) cc).
Definition r38 := ended k38.
Notation LT38 := (kept_of (k_vm k38)) (only parsing).
Example C38_case :
  r_stmt (compiler 100) (in_block t38) = Ok (true, k38) /\ v_errs (k_vm k38) = [] /\ crel (in_block t38) in_env /\
  literals LT38 (k_vm k38) /\ k_toks (in_block t38) = RunSpec.stext s38 ++ k_toks k38 /\
  pow2 (zlen (v_code (k_vm r38))) /\ inv (v_code (k_vm r38)) (v_funcs (k_vm r38)) 100 1 50 (at_block r38) /\
  (forall t', steps nomark api (at_block r38) t' -> enough t') /\ @functions_at LT38 (v_code (k_vm r38)) (v_funcs (k_vm r38)) 1 (fun _ => None) /\
  (forall i, k_w (in_block t38) <= i < k_w k38 -> znth (v_code (k_vm r38)) i = znth (v_code (k_vm k38)) i) /\
  k_w k38 <= zlen (v_code (k_vm r38)) /\ k_nstat k38 <= 1 /\ brk (code (v_code (k_vm r38))) (in_block t38) [] None /\ fno (in_block t38) None /\
  zlen [VInt 4] = e_used in_env /\ frel (fun _ => VNil) (m_local in_mem) [VInt 4] /\
  @here LT38 (at_block r38) (at_block r38) ([] ++ [VInt 4]) in_mem (k_w (in_block t38)) /\
  exists m', ex (fun _ => None) 100 50 in_env 0 in_mem s38 Next m' /\ m_global m' 0 = Some (VInt 4) /\ m_local m' = [Some (VInt 4)].
Proof.
  split; [vm_compute; reflexivity|]. split; [vm_compute; reflexivity|]. split; [increl|].
  split; [apply kept_literals|]. split; [vm_compute; reflexivity|]. split; [p2 6|].
  split; [ininv|]. split; [intros t St; eapply lasting_enough with (n := 100%nat); [exact St|vm_compute; reflexivity]|]. split; [intros i f H; discriminate|].
  split; [apply agree; [vm_compute; reflexivity|vm_compute; congruence]|].
  split; [vm_compute; congruence|]. split; [vm_compute; congruence|]. split; [exact I|]. split; [exact I|].
  split; [reflexivity|]. split; [inmem|]. split; [inhere 6|]. eexists. split; [unfold s38; run|split; reflexivity].
Qed.

(** C41: [y] is the local, [x] the global, [z] nothing; and the statement above
    declares nothing although its block does. *)
Example C41_case :
  crel (in_block t38) in_env /\ v_errs (k_vm (in_block t38)) = [] /\ lookup (bs "y") (e_scopes in_env) = Some (Local 0) /\
  lookup (bs "x") (e_scopes in_env) = Some (Global 0) /\ lookup (bs "z") (e_scopes in_env) = None /\
  (exists v, lookup_variable (bs "y") (in_block t38) = Ok (Some v, in_block t38)) /\
  (exists k', lookup_variable (bs "z") (in_block t38) = Ok (None, k')) /\
  r_stmt (compiler 100) (in_block t38) = Ok (true, k38) /\ v_errs (k_vm k38) = [] /\ declares s38 = false.
Proof.
  split; [increl|]. do 4 (split; [vm_compute; reflexivity|]). split; [eexists; vm_compute; reflexivity|]. split; [eexists; vm_compute; reflexivity|].
  split; [vm_compute; reflexivity|]. split; vm_compute; reflexivity.
Qed.

(** ** Where the compiler's idea of the stack is wrong (C38) *)

(** A variable does not keep its value: [is_finished] moves the compiler's idea
    of the stack by one, and [a] is then looked for where something else is.
    No error is reported. *)
Theorem C38_is_finished_refuted :
  outcome (bs "var g = 0; function f() {} { var a = 3; var c = coroutine(f); is_finished(c); g = a; }") = Some ([], [], Some (vint 0)).
Proof. vm_compute. reflexivity. Qed.

(** Without the call it does. *)
Theorem C38_is_finished_without :
  outcome (bs "var g = 0; function f() {} { var a = 3; var c = coroutine(f); c; g = a; }") = Some ([], [], Some (vint 3)).
Proof. vm_compute. reflexivity. Qed.

(** An operator without operands is accepted; the compiler thinks it takes two
    values from the stack, and the variable declared next shares its place with
    an earlier one: [g = b], where [b] is 2, makes [g] 7.  The script ends with
    an error. *)
Theorem C38_operator_refuted : exists e,
  outcome (bs "var g = 0; { var a = 1; var b = 2; var x = 5; *; var y = 7; g = b; }") = Some ([], [e], Some (vint 7)).
Proof. eexists. vm_compute. reflexivity. Qed.

(** The jump around a function whose body is a declaration goes to the wrong
    place: a script that only declares things and assigns fails. *)
Theorem C38_bare_body_refuted : exists e v,
  outcome (bs "var g = 0; { var q = 1; function f() var x = 1; var a = 5; g = a; g = q; }") = Some ([], [e], v).
Proof. eexists _, _. vm_compute. reflexivity. Qed.

Print Assumptions C40_scripts_partial.
Print Assumptions C51_find.
Print Assumptions C37_expressions_partial.
Print Assumptions C42_variables.
Print Assumptions C42_fields_partial.
Print Assumptions C42_index_refuted.
Print Assumptions C42_floats_refuted.
Print Assumptions C38_statements_partial.
Print Assumptions C41_innermost.
Print Assumptions C41_closed.
Print Assumptions C38_is_finished_refuted.
Print Assumptions C38_operator_refuted.
Print Assumptions C38_bare_body_refuted.
