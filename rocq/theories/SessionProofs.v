(** * SessionProofs: scripts compiled and run one after the other (C66) *)

From Verif Require Import StackProofs VmSpec VmInv ReplModel ReplProofs.
From Verif Require Import Base BaseFacts State MonadFacts TableModel TableProofs StrModel StrSpec StrProofs ObjsModel ObjsSpec ObjsProofs ValueModel TokenModel TokenSpec TokenProofs TokenProperties OpSpec VmModel
  VmSpec CsModel ExprModel CompModel KFacts ParseSpec ParseProofs TermProperties RunSpec RepSpec HeapProofs CodeRel ExecProofs EmitProofs DidProofs StmtProofs MachProofs UseProofs SimProofs HostCallProofs FaultSpec FaultProofs RunProofs.
From Verif Require GcModel GcSpec.
From Verif Require GcProofs.
From Verif Require Import SessionSpec.
From Coq Require Import ZArith List Lia Bool.
Import ListNotations.
Open Scope Z_scope.

(** ** More literals *)

Section More.
Variables A B : Lits.
Hypothesis AB : forall i t, @lit A i = Some t -> @lit B i = Some t.

Lemma tail_more sc off t root c1 ws off' : @tail_code A sc off t root c1 ws off' -> @tail_code B sc off t root c1 ws off'.
Proof.
  unfold tail_code. repeat match goal with |- context [if ?b then _ else _] => destruct b end; auto.
  intros (i & L & H). exists i. auto.
Qed.
Lemma ecode_more sc : forall n off ws off', @ecode A sc off n ws off' -> @ecode B sc off n ws off'.
Proof.
  fix IH 1. intros [|t root c0 c1] off ws off'; [exact (fun H => H)|]. cbn [ecode]. destruct (tk_type t =? TK_ASSIGNMENT).
  - intros (w1 & off1 & H1 & H). exists w1, off1. split; [exact (IH _ _ _ _ H1)|]. destruct c0 as [|t0 r0 c00 c01]; [exact H|]. destruct (tk_type t0 =? TK_IDENTIFIER); [exact H|].
    destruct H as (T & w2 & off2 & w3 & off3 & H2 & H3 & H). split; [exact T|]. exists w2, off2, w3, off3. split; [exact (IH _ _ _ _ H2)|]. split; [exact (IH _ _ _ _ H3)|exact H].
  - intros (w0 & off0 & w1 & off1 & w2 & H0 & H1 & T & H). exists w0, off0, w1, off1, w2. split; [exact (IH _ _ _ _ H0)|]. split; [exact (IH _ _ _ _ H1)|]. split; [apply tail_more, T|exact H].
Qed.
Lemma pcode_more m d E e a b u : @pcode A m d E e a b u -> @pcode B m d E e a b u.
Proof. intros (n & ws & O & H & R). exists n, ws. split; [exact O|]. split; [apply ecode_more, H|exact R]. Qed.
Lemma xcode_more m ng d E e a b u : @xcode A m ng d E e a b u -> @xcode B m ng d E e a b u.
Proof. intros (N & a1 & S & P). split; [exact N|]. exists a1. split; [exact S|apply pcode_more, P]. Qed.
Lemma code_more m ng :
  (forall fa lp E s a b E', @scode A m ng fa lp E s a b E' -> @scode B m ng fa lp E s a b E') /\
  (forall fa lp E l a b E', @sscode A m ng fa lp E l a b E' -> @sscode B m ng fa lp E l a b E').
Proof.
  apply (@code_mi A m ng (fun fa lp E s a b E' => @scode B m ng fa lp E s a b E') (fun fa lp E s a b E' => @sscode B m ng fa lp E s a b E')); intros; subst;
    try (econstructor; eauto using xcode_more, pcode_more; fail).
Qed.
Lemma fcode_more m ng f a : @fcode A m ng f a -> @fcode B m ng f a.
Proof. intros (b & E1 & H & R). exists b, E1. split; [apply code_more, H|exact R]. Qed.
Lemma fn_more m ng k id fd : @fn_ok A m ng k id fd -> @fn_ok B m ng k id fd.
Proof. intros (f & F1 & F2 & F3 & F4 & F5). exists f. repeat split; try tauto. apply fcode_more, F5. Qed.
End More.

(** ** What compiling adds *)

Definition grown (s s' : vm) : Prop :=
  (exists n, v_static s' = v_static s ++ repeat (mkV 0 0) n) /\ smono (v_strs s) (v_strs s').
Lemma smono_trans a b c : smono a b -> smono b c -> smono a c.
Proof.
  intros X Y W. destruct (X W) as [W1 X1]. destruct (Y W1) as [W2 Y1]. split; [exact W2|]. intros j e G.
  destruct (X1 _ _ G) as (e1 & G1 & S1 & K1). destruct (Y1 _ _ G1) as (e2 & G2 & S2 & K2). exists e2. split; [exact G2|]. split; [congruence|auto].
Qed.
Lemma grown_refl s : grown s s.
Proof. split; [exists 0%nat; rewrite app_nil_r; reflexivity|apply smono_refl]. Qed.
Lemma grown_trans a b c : grown a b -> grown b c -> grown a c.
Proof.
  intros [(n & X) X2] [(m & Y) Y2]. split; [|eapply smono_trans; eauto]. exists (n + m)%nat. rewrite Y, X, <- app_assoc, repeat_app. reflexivity.
Qed.
Lemma grown_same s s' : v_static s' = v_static s -> v_strs s' = v_strs s -> grown s s'.
Proof. intros A B. split; [exists 0%nat; rewrite A, app_nil_r; reflexivity|rewrite B; apply smono_refl]. Qed.

Section Lits.
Context {LT : Lits}.
Definition adds (k k' : comp) : Prop := noerr k' -> noerr k /\ grown (k_vm k) (k_vm k').
Lemma adds_prims : prims adds.
Proof.
  pose proof errs_prims as EP.
  assert (forall k, adds k k) as Re by (intro k; split; [assumption|apply grown_refl]).
  assert (forall k k', errs k k' -> grown (k_vm k) (k_vm k') -> adds k k') as Mk by (intros k k' X Y N; auto).
  constructor; intros; try (apply Mk; [apply EP|apply grown_same; reflexivity]; fail).
  - intro N. destruct (H0 N) as [X Y]. destruct (H X) as [X' Y']. split; [exact X'|eapply grown_trans; eauto].
  - intros k a k' H. rewrite next_tok_run in H. injection H as _ <-. unfold nxt.
    destruct (k_toks k) as [|t0 [|t r]]; [apply Re| |]; cbv zeta; [intro N; split; [exact N|apply grown_same; reflexivity]|].
    destruct (negb _ || negb _)%bool; (intro N; split; [exact N|apply grown_same; reflexivity]).
  - intros k a k' H [N _]. apply kvm_inv in H. destruct H as (s & E & ->). ksin N. apply add_error_errs in E. contradiction.
  - apply Mk; [apply EP|]. split; [|apply smono_refl]. exists n. reflexivity.
  - intros k a k' H N. split; [exact (pr_intern _ EP _ _ _ _ H N)|]. apply kvm_inv in H. destruct H as (s & E & ->). destruct N as [N _]. ksin N. ks.
    destruct (intern_mono _ _ _ _ E) as [X|M]; [contradiction|]. apply intern_fields in E. destruct E as [E|(x & y & ->)]; [contradiction|]. split; [|exact M]. exists 0%nat. rewrite app_nil_r. reflexivity.
  - intros k a k' H N. split; [exact (pr_keep _ EP _ _ _ _ H N)|]. apply kvm_inv in H. destruct H as (s & E & ->). ks.
    pose proof (keep_mono _ _ _ _ E) as M. apply keep_fields in E. destruct E as (y & ->). split; [|exact M]. exists 0%nat. rewrite app_nil_r. reflexivity.
Qed.

(** ** One script *)

(** Between scripts: only the global scope is open. *)
Record primed (k : comp) (E : env) : Prop := {
  pm_wf : kwf k;
  pm_ctx : exists c s, k_ctx k = [c] /\ cc_off c = 0 /\ cc_loop c = false /\ cc_fn c = INVALID /\ e_scopes E = [s] /\ srel c s;
  pm_used : e_used E = 0;
  pm_globals : k_nstat k = e_globals E;
  pm_funcs : zlen (v_funcs (k_vm k)) < W32
}.

Lemma piece_inv fuel text fname k E k1 : compile_script fuel text fname k = Ok (true, k1) -> noerr k1 -> primed k E -> live_ctx (k_vm k) (v_cur (k_vm k)) -> script text -> zlen text < W31 ->
  machine (k_vm k) (k_vm k1) /\ grown (k_vm k) (k_vm k1) /\
  exists toks vm', tokenize text fname (k_vm k) = Ok (Some toks, vm') /\ (textual toks ->
  exists l F E1 c' s', toks = sstext l /\ swritten l /\ (forall funs, table F funs -> sdefined funs E l) /\ NoDup (map fst F) /\
    kwf k1 /\ k_ctx k1 = [c'] /\ cc_off c' = u32 (e_used E1) /\ cc_loop c' = false /\ cc_fn c' = INVALID /\
    e_scopes E1 = [s'] /\ srel c' s' /\ sim E1 (afters l E) /\ k_nstat k1 = e_globals E1 /\ zlen (v_funcs (k_vm k1)) < W32 /\
    k_w k <= k_w k1 /\ (forall i, 0 <= i < k_w k -> kmem k1 i = kmem k i) /\ k_nstat k <= k_nstat k1 /\
    (forall i f, znth (v_funcs (k_vm k)) i = Some f -> znth (v_funcs (k_vm k1)) i = Some f) /\
    (forall id, In id (map fst F) -> zlen (v_funcs (k_vm k)) <= id < zlen (v_funcs (k_vm k1))) /\ zlen (v_funcs (k_vm k)) <= zlen (v_funcs (k_vm k1)) /\
    forall m (ng : around), (forall i, k_w k <= i < k_w k1 -> m i = kmem k1 i) -> k_nstat k1 <= ng -> table F (g_funs ng) ->
      sscode m ng None None E l (k_w k) (k_w k1) E1 /\ forall id fd, In (id, fd) F -> fn_ok m ng k1 id fd).
Proof.
  intros H N R Lc St Zt. unfold compile_script in H. apply enter_inv in H; [|discriminate]. kb H. apply kvm_inv in E0. destruct E0 as (s & Et & ->). ksin Et.
  match type of Et with _ = Ok (?o, _) => destruct o as [toks|] end; [|apply give_up_inv in H; discriminate].
  kb H. injection E0 as _ <-. kb H. injection E0 as <- <-. kb H. rename k0 into k2, E0 into Ep. kb H. rename k0 into k3, E0 into Eb.
  kb H. injection E0 as <- <-. kb H. injection E0 as _ <-. kb H. injection E0 as _ <-. kb H. apply pop_rec_inv in E0. subst k0. injection H as -> <-.
  destruct (tokenize_cases text fname (k_vm k) Lc St) as [(toks' & s' & E1 & (Tg & Te) & _)|[(v & E1 & _)|[[E1 _]|[E1 _]]]]; rewrite Et in E1; try discriminate.
  injection E1 as <- <-. destruct Tg as (fl & er & Es). pose proof (token_count _ _ _ _ _ Lc St Et) as Tc. pose proof (tokens_valid _ _ _ _ _ Lc St Et) as Tv.
  destruct R as [RW (c & sc & C & Co & Cl & Cf & Sc & Sr) Ru Rn Rf].
  assert (exists ln fi ac, k2 = set_k_pos ln fi ac (set_k_toks toks (set_k_vm s (set_k_rec (k_rec k + 1) k)))) as Ek2.
  { destruct toks; injection Ep as _ <-; eauto. }
  assert (machine (k_vm k) (k_vm k3)) as Mc.
  { destruct (w_block _ calm_prims _ (compiler_walks calm calm_prims fuel) true _ _ _ Eb N) as [_ Q]. eapply machine_trans; [|exact Q]. destruct Ek2 as (ln & fi & ac & ->). ks. rewrite Es.
    split; [reflexivity|]. split; [apply marks_refl|auto]. }
  assert (grown (k_vm k) (k_vm k3)) as Gc.
  { destruct (w_block _ adds_prims _ (compiler_walks adds adds_prims fuel) true _ _ _ Eb N) as [_ Q]. eapply grown_trans; [|exact Q]. destruct Ek2 as (ln & fi & ac & ->). ks. rewrite Es. apply grown_same; reflexivity. }
  split; [exact Mc|]. split; [exact Gc|]. exists toks, s. split; [exact Et|]. intro Na.
  assert (crel k2 E /\ k_w k2 = k_w k /\ k_toks k2 = toks /\ k_ctx k2 = [c] /\ kmem k2 = kmem k /\ v_funcs (k_vm k2) = v_funcs (k_vm k) /\ k_nstat k2 = k_nstat k) as (R2 & W2 & T2 & C2 & M2 & F2 & N2).
  { destruct Ek2 as (ln & fi & ac & ->). split; [|ks; unfold kmem, kcode; ks; rewrite Es; auto 10]. constructor; ks; try assumption.
    - rewrite Es. destruct RW. constructor; assumption.
    - rewrite C, Sc. constructor; [exact Sr|constructor].
    - exists c, []. rewrite C, Ru. auto.
    - rewrite C. exact Cl.
    - rewrite Es. exact Rf.
    - revert Tc Zt. unfold zlen. lia. }
  clear Ep. unfold block in Eb. apply enter_inv in Eb; [|discriminate].
  destruct (compiler_good fuel) as (_ & GB & _).
  assert (noerr k3) as N3 by exact N.
  destruct (GB _ _ _ _ Eb N3 (crel_rec _ _ _ R2)) as (l & fx & F & E1 & k4 & [D M _] & Wr & Df & Ct & K3).
  assert (fx = []) as ->. { apply (d_nofx _ _ _ _ _ _ _ D). ks. rewrite C2. cbn [loop_off]. rewrite Cl. reflexivity. }
  pose proof (d_toks _ _ _ _ _ _ _ D) as Td. ksin Td. rewrite T2 in Td.
  assert (k_toks k4 = []) as T4. { destruct (k_toks k4) as [|t q] eqn:Q; [reflexivity|]. unfold cur_type in Ct. rewrite Q in Ct. rewrite Td in Tv. apply Forall_app in Tv. destruct Tv as [_ Tv]. inversion Tv; subst. contradiction. }
  rewrite T4, app_nil_r in Td.
  destruct (d_ctx _ _ _ _ _ _ _ D) as (c0 & r0 & c' & X1 & X2 & Fn & _). ksin X1. rewrite C2 in X1. injection X1 as <- <-. cbn [addfix] in X2.
  pose proof (d_rel _ _ _ _ _ _ _ D) as [QW QS QH QN QT QG QF QZ]. rewrite X2 in QS. inversion QS as [|? s1 ? q1 S1 S2]; subst. inversion S2; subst.
  destruct QH as (cx & rx & QH1 & QH2 & QH3). rewrite X2 in QH1. injection QH1 as <- <-.
  exists l, F, E1, c', s1. split; [exact Td|]. split; [exact Wr|]. split; [exact Df|]. split; [exact (d_F _ _ _ _ _ _ _ D)|].
  assert (forall m (ng : around), (forall i, k_w k <= i < k_w k4 -> m i = kmem k4 i) -> k_nstat k4 <= ng -> table F (g_funs ng) -> sscode m ng None None E l (k_w k) (k_w k4) E1 /\ forall id fd, In (id, fd) F -> fn_ok m ng k4 id fd) as Mk.
  { intros m ng Om Gn Tb. assert (okm m (set_k_rec (k_rec k2 + 1) k2) k4 [] []) as Ok4. { intros i Hi _. apply Om. ksin Hi. rewrite W2 in Hi. exact Hi. }
    destruct (M m ng Ok4 Gn Tb) as [X Y]. split; [|exact Y]. specialize (X None None). ksin X. rewrite W2 in X. apply X.
    - unfold brk. ks. rewrite C2. cbn [loop_off]. rewrite Cl. exact I.
    - unfold fno. ks. rewrite C2. cbn [find_fn]. rewrite Cf. exact I. }
  split; [destruct QW; constructor; assumption|]. split; [exact X2|]. split; [exact QH2|]. split; [exact QH3|]. split; [congruence|]. split; [congruence|]. split; [exact S1|].
  split. { eapply sscode_sim, (Mk (kmem k4) (mkAround (k_nstat k4) (assoc F))); [reflexivity|cbn [g_n]; lia|apply assoc_table, (d_F _ _ _ _ _ _ _ D)]. }
  split; [exact QN|]. split; [exact QF|].
  pose proof (d_w _ _ _ _ _ _ _ D) as D1. pose proof (d_below _ _ _ _ _ _ _ D) as D2. pose proof (d_nstat _ _ _ _ _ _ _ D) as D3. pose proof (d_funcs _ _ _ _ _ _ _ D) as D4.
  pose proof (d_ids _ _ _ _ _ _ _ D) as D5. pose proof (d_len _ _ _ _ _ _ _ D) as D6. ksin D1. ksin D2. ksin D3. ksin D4. ksin D5. ksin D6.
  change (kmem (set_k_rec (k_rec k2 + 1) k2)) with (kmem k2) in D2. rewrite W2 in D1, D2. rewrite M2 in D2. rewrite N2 in D3. rewrite F2 in D4, D5, D6.
  split; [exact D1|]. split; [exact D2|]. split; [exact D3|]. split; [exact D4|]. split; [exact D5|]. split; [exact D6|]. exact Mk.
Qed.

Lemma pfinal_errs : pres errs partially_finalize.
Proof.
  unfold partially_finalize, generate_globals, add_op. pose proof errs_prims as P.
  assert (forall x, pres errs (kvm (modify (set_globals x)))) as G. { intros x k a k' H. apply kvm_inv in H. destruct H as (s & E & ->). injection E as _ <-. apply errs_same; reflexivity. }
  repeat first [apply (w_cerror _ P) | apply p_mod; intros kk; apply errs_same; reflexivity | apply (w_add_word _ P) | apply (w_pop_ctxs _ P) | apply G | apply (w_cur_cc _ P) | apply (prt _ P) | apply (pgt _ P) | apply (pb _ P); [|intro]
    | match goal with |- pres _ (match ?x with _ => _ end) => destruct x end | apply p_ub | intros k a k' H; exact (fun N => False_ind _ (cerror_errs _ _ _ _ H N)) | intros k a k' H; injection H as _ <-; apply errs_same; reflexivity ].
Qed.

Lemma pfinal_inv k u k' c : partially_finalize k = Ok (u, k') -> noerr k' -> kwf k -> k_ctx k = [c] ->
  kwf k' /\ k_w k' = k_w k /\ (forall i, 0 <= i < k_w k -> kmem k' i = kmem k i) /\ kmem k' (k_w k) = Some OP_END /\ k_nstat k' = k_nstat k /\ v_funcs (k_vm k') = v_funcs (k_vm k) /\
  k_ctx k' = [c] /\ noerr k /\ machine (set_globals (map (fun v => (cv_pos v, cv_name v)) (cc_vars c)) (k_vm k)) (k_vm k') /\ grown (k_vm k) (k_vm k').
Proof.
  unfold partially_finalize, generate_globals, cur_cc, add_op. intros Ep N K C.
  kb Ep. injection E as <- <-. rewrite C in Ep. cbv iota in Ep. kb Ep. kb E. kb E0. injection E1 as <- <-. rewrite C in E0. injection E0 as <- <-.
  apply kvm_inv in E. destruct E as (s & E & ->). injection E as _ <-. kb Ep. injection E as <- <-. ksin Ep. kb Ep. rename k0 into k4, E into Ew. injection Ep as _ <-.
  set (kg := set_k_vm _ k) in *.
  assert (kwf kg) as Kg by (destruct K; constructor; assumption).
  assert (noerr k4) as N4 by exact N.
  destruct (add_word_flat _ _ _ _ _ Ew N4 Kg (or_introl eq_refl)) as [P4 C4]. change (k_ctx kg) with (k_ctx k) in C4. rewrite C in C4.
  pose proof P4 as (W4 & B4 & M4 & (_ & Ns4 & F4 & S4 & _) & K4). change (k_w kg) with (k_w k) in *. change (zlen [OP_END]) with 1 in W4.
  destruct (w_add_word calm calm_prims _ _ _ _ _ Ew N4) as [Ng Q4]. destruct (w_add_word adds adds_prims _ _ _ _ _ Ew N4) as [_ G4].
  split. { destruct K4 as [U1 U2 U3 U4 U5 U6 U7]. constructor; try assumption. change (k_w (set_k_w (k_w k) k4)) with (k_w k). change (kcode (set_k_w (k_w k) k4)) with (kcode k4). pose proof (kw_w _ K). lia. }
  split; [reflexivity|]. split. { intros i Hi. change (kmem (set_k_w (k_w k) k4)) with (kmem k4). rewrite B4 by lia. reflexivity. }
  split. { specialize (M4 0 OP_END eq_refl). rewrite Z.add_0_r in M4. exact M4. }
  split; [exact Ns4|]. split; [exact F4|]. split; [exact C4|]. split; [exact Ng|]. split; [exact Q4|]. exact G4.
Qed.
End Lits.

(** ** Globals and objects stay *)

Lemma grown_strs s s' : grown s s' -> str_wf (v_strs s) (v_byhash s) -> str_wf (v_strs s') (v_byhash s') ->
  (forall i t, get_str s i = Some t -> get_str s' i = Some t) /\ (forall k, ordinary s k -> ordinary s' k) /\ (forall k, ordinary s k -> key_bucket s' k = key_bucket s k).
Proof.
  intros [_ G] W W'. destruct (G (sw_tab _ _ W)) as [_ M].
  assert (forall i e, get_str_entry s i = Some e -> exists e', get_str_entry s' i = Some e' /\ s_str e' = s_str e /\ s_hash e' = s_hash e) as Me.
  { intros i e X. destruct (M _ _ X) as (e' & Y & S & _). exists e'. split; [exact Y|]. split; [exact S|].
    destruct (sw_ent _ _ W _ _ X) as (_ & H1 & _). destruct (sw_ent _ _ W' _ _ Y) as (_ & H2 & _). congruence. }
  assert (forall i t, get_str s i = Some t -> get_str s' i = Some t) as Gs.
  { intros i t X. unfold get_str in *. destruct (get_str_entry s i) as [e|] eqn:Q; [|discriminate]. destruct (Me _ _ Q) as (e' & -> & S & _). congruence. }
  split; [exact Gs|]. split.
  - intros k [R T]. split; [exact R|]. destruct T as [T|[T|[[T [t E]]|T]]]; auto. right. right. left. split; eauto.
  - intros k Hk. unfold key_bucket. f_equal. unfold value_hash. destruct (_ || _); auto.
    destruct (Z.eqb_spec (v_type k) T_STRING) as [E|]; auto. destruct (ordinary_str s k Hk E) as [t Et].
    unfold get_str in Et. destruct (get_str_entry s (v_data k)) as [e|] eqn:Q; [|discriminate]. destruct (Me _ _ Q) as (e' & -> & _ & S). exact S.
Qed.

Lemma world_grown LT LT' s s' W mm H : world (@lit LT) s W mm H -> machine s s' -> grown s s' -> str_wf (v_strs s') (v_byhash s') ->
  (forall i t, @lit LT' i = Some t -> exists e, get_str_entry s' i = Some e /\ s_keep e = true /\ s_str e = t) -> world (@lit LT') s' W mm H.
Proof.
  intros D Ma G SW' Li. destruct (wd_inv _ _ _ _ _ D) as [I1 I2 I3 I4]. destruct (grown_strs _ _ G I1 SW') as (Gs & Om & Kb).
  assert (v_objs s' = v_objs s) as Eo by exact (machine_objs _ _ Ma).
  assert (forall i, get_obj s' i = get_obj s i) as Go by (intro; unfold get_obj; rewrite Eo; reflexivity).
  assert (forall v x, rep s W v x -> rep s' W v x) as Rm by (intros v x; apply rep_mono; auto).
  split.
  - split; [exact SW'|rewrite Eo; exact I2| |].
    + destruct I3 as (c & A). exists c. rewrite (machine_ctxs _ _ Ma), (machine_cur _ _ Ma). exact A.
    + intros i o X. rewrite Go in X. apply (obj_ok_same s s'); auto.
  - apply (wd_one _ _ _ _ _ D).
  - intros a i E. rewrite Go. destruct (wd_objs _ _ _ _ _ D _ _ E) as (X & l & Hl & F). split; [exact X|]. exists l. split; [exact Hl|].
    destruct (get_obj s i) as [o|] eqn:Eg; [|congruence].
    apply (fields_move s s' W W _ _ I1 F); auto. intros kx [R _] N. apply (field_ordinary s o (mm i) kx (I4 _ _ Eg) R N).
  - intros i o X. rewrite Go in X. apply (wd_plain _ _ _ _ _ D _ _ X).
  - intros x J. destruct G as [(n & Es) _]. rewrite Es in J. apply in_app_or in J. destruct J as [J|J].
    + destruct (wd_static _ _ _ _ _ D x J) as (v & R). eauto.
    + apply repeat_spec in J. subst x. exists (VInt 0). split; [reflexivity|]. unfold is_s32, W31. lia.
  - exact Li.
Qed.
Lemma globs_grown s s' W g : globs s W g -> grown s s' -> str_wf (v_strs s) (v_byhash s) -> str_wf (v_strs s') (v_byhash s') -> v_smask s' = zlen (v_static s') - 1 -> globs s' W g.
Proof.
  intros G Gr W1 W2 Sm i v Gi. destruct (G _ _ Gi) as (R & x & Z & Rp). pose proof (znth_some_range _ _ _ Z) as Rz. destruct (grown_strs _ _ Gr W1 W2) as (Gs & _). destruct Gr as [(n & Es) _].
  split. { rewrite Sm, Es, zlen_app. pose proof (zlen_nonneg (repeat (mkV 0 0) n)). lia. }
  exists x. split; [rewrite Es, znth_app_l by lia; exact Z|]. revert Rp. apply rep_mono; auto.
Qed.

(** ** Between scripts *)

Section Run.
Variable hostmark : Z -> Z -> option Z -> list value.
Variable host : Z -> list value -> M value.
Context {HS : Hosts}.
Variables lim mf : Z.

Record live (k : comp) (E : env) (F : list (Z * fundef)) (m : mem) : Prop := {
  lv_primed : primed k E;
  lv_scope : exists sc, e_scopes E = [sc] /\ all_global (e_globals E) sc;
  lv_errs : v_errs (k_vm k) = [];
  lv_vm : wf true 0 (k_vm k);
  lv_cur : v_cur (k_vm k) = 0;
  lv_left : v_left (k_vm k) = INVALID;
  lv_hlist : v_hlist (k_vm k) = [];
  lv_ip : ip_is (k_vm k) (k_w k);
  lv_stack : stack_is (k_vm k) [];
  lv_max : 2 * lim - 2 <= v_maxstack (k_vm k);
  lv_fields : mf <= v_maxfields (k_vm k);
  lv_nodup : NoDup (map fst F);
  lv_ids : forall id, In id (map fst F) -> id < zlen (v_funcs (k_vm k));
  lv_fns : forall mw (ng : around), (forall i, 0 <= i < k_w k -> mw i = kmem k i) -> k_nstat k <= ng -> table F (g_funs ng) ->
    forall id fd, In (id, fd) F -> @fn_ok (kept_of (k_vm k)) mw ng k id fd;
  lv_mem : exists W mm, world (@lit (kept_of (k_vm k))) (k_vm k) W mm (m_heap m) /\ globs (k_vm k) W (m_global m);
  lv_local : m_local m = []
}.

Lemma NoDup_app_ids (F G : list (Z * fundef)) n : NoDup (map fst F) -> NoDup (map fst G) -> (forall id, In id (map fst F) -> id < n) -> (forall id, In id (map fst G) -> n <= id) ->
  NoDup (map fst (F ++ G)).
Proof.
  intros A B C D. rewrite map_app. induction (map fst F) as [|x q IH]; [exact B|]. cbn [app]. inversion A; subst. constructor; [|apply IH; auto; intros; apply C; right; assumption].
  intro I. apply in_app_or in I. destruct I as [I|I]; [contradiction|]. pose proof (D _ I). specialize (C x (or_introl eq_refl)). lia.
Qed.

Lemma after_used l : forall E sc, e_scopes E = [sc] -> e_used (afters l E) = e_used E.
Proof.
  induction l as [|s l IH]; intros E sc Es; cbn [afters]; [reflexivity|].
  assert (forall n, e_used (declare n E) = e_used E /\ exists sc', e_scopes (declare n E) = [sc']) as D by (intro n; unfold declare; rewrite Es; cbn [e_used e_scopes]; eauto).
  destruct s; cbn [after]; try (eapply IH; exact Es); match goal with |- context [declare ?n E] => destruct (D n) as [<- (sc' & Q)] end; eapply IH; exact Q.
Qed.

Lemma znth_ext {A} (a : list A) : forall b, zlen a = zlen b -> (forall j, znth a j = znth b j) -> a = b.
Proof.
  induction a as [|x a IH]; intros [|y b] Hl H; rewrite ?zlen_cons in Hl; change (zlen (@nil A)) with 0 in Hl; [reflexivity|pose proof (zlen_nonneg b); lia|pose proof (zlen_nonneg a); lia|].
  pose proof (H 0) as H0. cbn in H0. f_equal; [congruence|]. apply IH; [lia|]. intro j. destruct (Z.ltb_spec j 0) as [N|N].
  - rewrite !znth_out by lia. reflexivity.
  - specialize (H (j + 1)). rewrite !znth_cons_S in H by lia. replace (j + 1 - 1) with j in H by lia. exact H.
Qed.

Lemma live_step k E F m text fname fuel k1 u k2 :
  live k E F m -> compile_script fuel text fname k = Ok (true, k1) -> partially_finalize k1 = Ok (u, k2) -> v_errs (k_vm k2) = [] -> script text -> zlen text < W31 ->
  lim <= 65536 -> mf < W32 ->
  exists toks vm', tokenize text fname (k_vm k) = Ok (Some toks, vm') /\ (textual toks ->
  exists l G, toks = sstext l /\ swritten l /\ NoDup (map fst (F ++ G)) /\ sdefined (assoc (F ++ G)) E l /\
  (forall name, find_global name (k_vm k2) = match lookup name (e_scopes (afters l E)) with Some (Global i) => Some i | _ => None end) /\
  ((forall t, steps hostmark host (k_vm k2) t -> enough t) -> implements (LT := kept_of (k_vm k2)) host (k_vm k2) ->
    (forall m', xfs (assoc (F ++ G)) lim mf E 0 m l m' ->
      exists n t', execute hostmark host n (k_vm k2) = Ok (Some false, t') /\ has_errors t' = true /\
        frame t' = set_errs (v_errs t') (frame (k_vm k2)) /\ (exists W, heap_is t' W (m_heap m') /\ globs t' W (m_global m')) /\
        (level k2 -> exists k3, clear_repl (k_w k) (set_k_vm t' k2) = Ok (tt, k3) /\ v_globals (k_vm k3) = v_globals (k_vm k2) /\ v_smask (k_vm k3) = v_smask (k_vm k2) /\
          live k3 (afters l E) F (set_locals [] m'))) /\
    forall o m', exs (assoc (F ++ G)) lim mf E 0 m l o m' ->
    o = Next /\ exists n t', execute hostmark host n (k_vm k2) = Ok (Some true, t') /\ frame t' = frame (k_vm k2) /\ live (set_k_vm t' k2) (afters l E) (F ++ G) m')).
Proof.
  intros Lv Hc Hf N0 St Zt Lm Lf. destruct Lv as [R (sc & Es & Ag) Er Wf Cu Le Hl Ip Sk Mx Mf Nd Id Fns (W0 & mm0 & Wd0 & Gl0) Lo].
  set (LT := kept_of (k_vm k2)). assert (noerr k2) as N by (apply kept_noerr, N0).
  assert (noerr k1) as N1 by (revert N; refine (pfinal_errs _ _ _ Hf)).
  assert (live_ctx (k_vm k) (v_cur (k_vm k))) as Lc. { destruct Sk as (c & A & _). exists c. exact A. }
  destruct (piece_inv _ _ _ _ _ _ Hc N1 R Lc St Zt) as (Mc1 & Gr1 & toks & vm' & Et & X). exists toks, vm'. split; [exact Et|]. intro Na.
  destruct (X Na) as (l & G & E1 & c' & s' & Tl & Wr & Df & Ng & K1 & C1 & Co1 & Cl1 & Cf1 & Es1 & S1 & Sm & Ns & Fz & Lw & Bw & Nn & Ff & Fi & Fl & Mk). clear X.
  destruct (pfinal_inv _ _ _ _ Hf N K1 C1) as (K2 & Kw & Bl & Me & Ns2 & Fu & Cc & _ & Mc & Gr2).
  destruct (afters_global l E sc Es Ag ltac:(rewrite <- (pm_globals _ _ R); apply (kw_n _ (pm_wf _ _ R)))) as (s2 & Es2 & Ag2).
  assert (s2 = s') as ->. { destruct Sm as (_ & Q & _). unfold outermost in Q. rewrite Es1, Es2 in Q. cbn in Q. congruence. }
  assert (NoDup (map fst (F ++ G))) as Nd2 by (eapply NoDup_app_ids; [exact Nd|exact Ng|exact Id|intros id I; apply (Fi _ I)]).
  destruct (table_app _ _ _ (assoc_table _ Nd2)) as [TF TG].
  exists l, G. split; [exact Tl|]. split; [exact Wr|]. split; [exact Nd2|]. split; [apply Df, TG|].
  pose proof (pow2_bounds _ (kw_spow _ K2)) as Sb.
  set (t0 := k_vm k2) in *.
  set (gl := map (fun v => (cv_pos v, cv_name v)) (cc_vars c')) in *.
  pose proof (machine_trans _ _ _ (machine_set_globals gl _ _ Mc1) Mc) as Mt.
  pose proof (grown_trans _ _ _ Gr1 Gr2) as Gt.
  assert (str_wf (v_strs (k_vm k)) (v_byhash (k_vm k))) as Sw0 by apply (w_str _ _ _ Wf).
  assert (str_wf (v_strs t0) (v_byhash t0)) as Sw2 by apply (kw_str _ K2).
  assert (forall i t, @lit (kept_of (k_vm k)) i = Some t -> lit i = Some t) as More.
  { intros i t Li. apply kept_entry in Li. destruct Li as (e & A & B & C). destruct Gt as [_ Gm]. destruct (Gm (sw_tab _ _ Sw0)) as [_ Q]. destruct (Q _ _ A) as (e' & A' & B' & C').
    unfold lit, LT, kept_of. unfold get_str_entry in *. fold t0. rewrite A', (C' B). congruence. }
  assert (e_globals (afters l E) <= zlen (v_static t0)) as Eg.
  { destruct Sm as (_ & _ & <-). rewrite <- Ns, <- Ns2. apply (kw_n _ K2). }
  split.
  { intro name. unfold find_global. fold t0. rewrite (machine_globals _ _ Mc). vs. rewrite Es2. unfold gl. rewrite (find_record_rel name _ _ S1).
    2:{ eapply Forall_impl; [|exact (proj1 Ag2)]. intros [x p] H. cbn [snd] in *. destruct p; [exact I|exact H]. }
    cbn [lookup]. destruct (find_in name s') as [[i|i]|] eqn:Fii; try reflexivity. f_equal. pose proof (find_in_global _ _ _ _ Ag2 Fii) as Ri.
    unfold t0. rewrite (kw_smask _ K2). destruct (kw_spow _ K2) as (e & Re & Ee). rewrite Z.land_comm.
    replace (zlen (v_static (k_vm k2)) - 1) with (Z.ones e) by (rewrite Z.ones_equiv; lia). rewrite Z.land_ones by lia. apply Z.mod_small. fold t0 in Ee. lia. }
  intros Rm Nat.
  destruct (Mk (code (kcode k2)) (mkAround (k_nstat k2) (assoc (F ++ G)))) as [Scd Fn]; [intros i Hi; apply Bl; pose proof (kw_w _ (pm_wf _ _ R)); lia|cbn [g_n]; lia|exact TG|].
  assert (wf true 0 t0) as Wt0.
  { assert (wf true 0 (set_globals gl (k_vm k))) as Wg by (destruct Wf; split; assumption). pose proof (machine_wf _ _ (v_static t0) Wg Mt K2 eq_refl) as Q. unfold t0 in *. rewrite set_static_same in Q. exact Q. }
  assert (inv (kcode k2) (v_funcs (k_vm k2)) lim (k_nstat k2) mf t0) as Iv.
  { destruct K2 as [A1 A2 A3 A4 A5 A6]. fold t0 in A1, A2, A3, A4, A5, A6. constructor; [reflexivity|exact A2|reflexivity| |exact N0|lia| | | |].
    - rewrite (machine_left _ _ Mt). exact Le.
    - rewrite (machine_maxstack _ _ Mt). exact Mx.
    - rewrite (machine_cur _ _ Mt). exact Cu.
    - rewrite (machine_hlist _ _ Mt). exact Hl.
    - rewrite (machine_maxfields _ _ Mt). exact Mf. }
  assert (ip_is t0 (k_w k)) as Ip0. { destruct Ip as (c & A & B). exists c. rewrite (machine_ctxs _ _ Mt), (machine_cur _ _ Mt). auto. }
  assert (stack_is t0 []) as Sk0. { destruct Sk as (c & A & B). exists c. rewrite (machine_ctxs _ _ Mt), (machine_cur _ _ Mt). auto. }
  assert (world lit t0 W0 mm0 (m_heap m)) as Wd.
  { assert (machine (set_globals gl (k_vm k)) t0) as Mt' by exact Mt. assert (world (@lit (kept_of (k_vm k))) (set_globals gl (k_vm k)) W0 mm0 (m_heap m)) as Wdg.
    { eapply world_same; [exact Wd0|reflexivity|reflexivity|reflexivity|exact Lc|exact (wd_static _ _ _ _ _ Wd0)]. }
    eapply (world_grown (kept_of (k_vm k)) LT); [exact Wdg|exact Mt'|exact Gt|exact Sw2|]. intros i t Li. exact (kept_entry _ _ _ Li). }
  assert (globs t0 W0 (m_global m)) as Gl by (eapply globs_grown; [exact Gl0|exact Gt|exact Sw0|exact Sw2|apply (kw_smask _ K2)]).
  assert (@at_ hostmark host LT t0 [] m (k_w k)) as Hr.
  { exists t0. split; [apply st_refl|]. split; [reflexivity|exact Wt0|exact Ip0|]. exists W0, mm0, []. auto. }
  assert (0 <= k_w k1 < zlen (kcode k2)) as Rw1. { assert (kmem k2 (k_w k1) = znth (kcode k2) (k_w k1)) as Z1 by reflexivity. rewrite Me in Z1. symmetry in Z1. apply znth_some_range in Z1. lia. }
  assert (forall id fd, In (id, fd) (F ++ G) -> forall mw (ng : around), (forall i, 0 <= i < k_w k2 -> mw i = kmem k2 i) -> k_nstat k2 <= ng -> table (F ++ G) (g_funs ng) -> fn_ok mw ng k2 id fd) as Fall.
  { intros id fd I mw ng Om Gn Tb. destruct (table_app _ _ _ Tb) as [Tb1 Tb2]. apply in_app_or in I. destruct I as [I|I].
    - pose proof (fn_more _ LT More _ _ _ _ _ (Fns mw ng ltac:(intros i Hi; rewrite Om by lia; rewrite Bl by lia; apply Bw, Hi) ltac:(lia) Tb1 id fd I)) as (f & F1 & F2 & F3 & F4 & F5).
      exists f. fold t0. rewrite Fu. split; [apply Ff, F1|]. split; [exact F2|]. split; [exact F3|]. split; [lia|exact F5].
    - destruct (proj2 (Mk mw ng ltac:(intros i Hi; rewrite Om by (pose proof (kw_w _ (pm_wf _ _ R)); lia); apply Bl; pose proof (kw_w _ (pm_wf _ _ R)); lia) ltac:(lia) Tb2) id fd I) as (f & F1 & F2 & F3 & F4 & F5).
      exists f. fold t0. rewrite Fu. split; [exact F1|]. split; [exact F2|]. split; [exact F3|]. split; [lia|exact F5]. }
  assert (forall id fd, assoc (F ++ G) id = Some fd -> exists f, znth (v_funcs (k_vm k2)) id = Some f /\ f_ext f = INVALID /\ f_argc f = zlen (fd_params fd) /\ 0 <= f_first f <= zlen (kcode k2) /\
    fcode (code (kcode k2)) (mkAround (k_nstat k2) (assoc (F ++ G))) fd (f_first f)) as Tb.
  { intros id fd A. apply assoc_in in A. destruct (Fall _ _ A (code (kcode k2)) (mkAround (k_nstat k2) (assoc (F ++ G)))) as (f & F1 & F2 & F3 & F4 & F5); [reflexivity|cbn [g_n]; lia|apply assoc_table, Nd2|].
    exists f. repeat split; auto; lia. }
  assert (e_used E = 0) as U0 by apply (pm_used _ _ R).
  pose proof (kw_w _ (pm_wf _ _ R)) as Kw0.
  split.
  { intros m' Xf.
    destruct (faults hostmark host (kcode k2) (v_funcs (k_vm k2)) lim (k_nstat k2) mf (kw_pow _ K2) Lm Lf t0 Iv Rm (assoc (F ++ G)) Tb Nat) as (_ & _ & _ & Fx & _).
    specialize (Fx _ _ _ _ _ Xf [] [] (fun _ => VNil) None None [] 0 (k_w k) (k_w k1) E1 Scd).
    destruct Fx as (t1 & w & t' & Sp & Fe & Nw & It & He & Of & Wt & W & mm & Wd' & Gl'); try exact I; auto.
    { lia. }
    { rewrite Es. discriminate. }
    { rewrite U0, Lo. reflexivity. }
    { rewrite Lo. split; [reflexivity|]. intros i o' Hz. apply znth_some_range in Hz. change (zlen []) with 0 in Hz. lia. }
    destruct (steps_crash _ _ _ _ _ _ Sp Fe Nw It He) as (n & Rn). exists n, t'. split; [exact Rn|]. split; [exact He|]. split; [exact Of|].
    split; [exists W; split; [exact (world_heap _ _ _ _ _ Wd')|exact Gl']|]. intro Lvl.
    assert (v_cur t' = 0) as Cu'. { pose proof (f_equal v_cur Of) as Q. unfold frame in Q. vsin Q. rewrite Q. exact (i_cur _ _ _ _ _ _ Iv). }
    assert (v_code t' = v_code t0) as Qc. { pose proof (f_equal v_code Of) as Q. unfold frame in Q. vsin Q. exact Q. }
    assert (v_cmask t' = v_cmask t0) as Qk. { pose proof (f_equal v_cmask Of) as Q. unfold frame in Q. vsin Q. exact Q. }
    assert (v_funcs t' = v_funcs t0) as Qf. { pose proof (f_equal v_funcs Of) as Q. unfold frame in Q. vsin Q. exact Q. }
    assert (v_smask t' = v_smask t0) as Qm. { pose proof (f_equal v_smask Of) as Q. unfold frame in Q. vsin Q. exact Q. }
    assert (v_globals t' = v_globals t0) as Qg. { pose proof (f_equal v_globals Of) as Q. unfold frame in Q. vsin Q. exact Q. }
    assert (v_left t' = INVALID) as Ql. { pose proof (f_equal v_left Of) as Q. unfold frame in Q. vsin Q. rewrite Q. exact (i_left _ _ _ _ _ _ Iv). }
    assert (v_hlist t' = []) as Qh. { pose proof (f_equal v_hlist Of) as Q. unfold frame in Q. vsin Q. rewrite Q. exact (i_hlist _ _ _ _ _ _ Iv). }
    assert (2 * lim - 2 <= v_maxstack t') as Qs. { pose proof (f_equal v_maxstack Of) as Q. unfold frame in Q. vsin Q. rewrite Q. exact (i_max _ _ _ _ _ _ Iv). }
    assert (mf <= v_maxfields t') as Qd. { pose proof (f_equal v_maxfields Of) as Q. unfold frame in Q. vsin Q. rewrite Q. exact (i_fields _ _ _ _ _ _ Iv). }
    destruct (w_chain _ _ _ Wt) as (ls & Ch & _). rewrite Cu' in Ch. inversion Ch as [c Hr0 Hp X1 X2|? ? ? ? Nz]; [subst ls|congruence].
    assert (0 <= k_w k < zlen (v_code t')) as Rw0 by (rewrite Qc; unfold kcode in *; fold t0 in Rw1; lia).
    destruct (clear_run (set_k_vm t' k2) (k_w k) [0]) as (cs & Ec & Zc & H0 & _ & Out); [ks; rewrite Cu'; exact Ch|ks; exact Rw0|]. ksin Ec.
    ksin Zc. ksin Out. eexists. split; [exact Ec|]. split; [exact Qg|]. split; [exact Qm|].
    set (t3 := set_cur 0 (set_ctxs cs (set_errs [] (set_code (zupd (v_code t') (k_w k) OP_END) t')))).
    assert (cs = zupd (v_ctxs t') 0 (Some (set_c_ip (k_w k) ctx_init))) as Ecs.
    { pose proof (znth_some_range _ _ _ Hr0) as Rg. apply znth_ext; [rewrite zlen_zupd; exact Zc|]. intro j. destruct (Z.eq_dec j 0) as [->|N'].
      - rewrite H0, znth_zupd_same by exact Rg. reflexivity.
      - rewrite Out by (intros [Q|[]]; congruence). rewrite znth_zupd_other by congruence. reflexivity. }
    assert (wf true 0 t3) as Wt3.
    { assert (wf true 0 (set_errs [] (set_code (zupd (v_code t') (k_w k) OP_END) t'))) as Wc.
      { destruct Wt. split; auto; try discriminate. vs. rewrite zlen_zupd. assumption. }
      assert (znth (v_ctxs t') (v_cur t') = Some (Some c)) as Hr1 by (rewrite Cu'; exact Hr0).
      pose proof (wf_upd_cur true 0 _ (fun _ => set_c_ip (k_w k) ctx_init) c Wc Hr1 (eq_sym Hp) (eq_sym (w_root _ _ _ Wt _ Hr0)) (stack_init_wf)) as Q.
      replace t3 with (upd_cur (fun _ => set_c_ip (k_w k) ctx_init) (set_errs [] (set_code (zupd (v_code t') (k_w k) OP_END) t'))); [exact Q|].
      unfold upd_cur. vs. rewrite Hr1. unfold t3. rewrite Ecs. clear - Cu'. destruct t'; cbn in *; subst; reflexivity. }
    assert (forall i, @lit (kept_of t3) i = @lit (kept_of t') i) as Lt by reflexivity.
    assert (forall i t, lit i = Some t -> @lit (kept_of t3) i = Some t) as More2.
    { intros i t Li. rewrite Lt. destruct (wd_lit _ _ _ _ _ Wd' _ _ Li) as (e & A & B & Cq). unfold lit, kept_of. rewrite A, B. congruence. }
    assert (world (@lit (kept_of t3)) t3 W mm (m_heap m')) as Wd3.
    { assert (world lit t3 W mm (m_heap m')) as [Q1 Q2 Q3 Q4 Q5 Q6].
      { apply (world_same lit t' t3); auto; [eexists; exact H0|exact (wd_static _ _ _ _ _ Wd')]. }
      split; try assumption. intros i t Li. exact (kept_entry _ _ _ Li). }
    destruct (w_static _ _ _ Wt) as [St1 St2].
    assert (zlen (v_static t') = zlen (v_static t0)) as Zst by (pose proof (kw_smask _ K2) as Q; fold t0 in Q; lia).
    constructor.
    - constructor; ks.
      + destruct K2 as [A1 A2 A3 A4 A5 A6 A7]. fold t0 in A1, A2, A3, A4, A5, A6, A7. unfold kcode in A1, A2, A3, A4, A5, A6, A7. fold t0 in A1, A2, A3, A4, A5, A6, A7.
        constructor; unfold kcode, t3; ks; vs; rewrite ?zlen_zupd, ?Qc, ?Qm, ?Qk, ?Zst; try assumption; try lia.
        apply (w_str _ _ _ Wt).
      + exists c', s'. split; [exact Cc|]. split; [|split; [exact Cl1|]; split; [exact Cf1|]; split; [exact Es2|exact S1]].
        unfold level in Lvl. rewrite Cc in Lvl. inversion Lvl; assumption.
      + rewrite (after_used l E sc Es). exact U0.
      + rewrite Ns2, Ns. destruct Sm as (_ & _ & Q). exact Q.
      + unfold t3. vs. rewrite Qf. fold t0. rewrite Fu. exact Fz.
    - exists s'. auto.
    - reflexivity.
    - exact Wt3.
    - reflexivity.
    - exact Ql.
    - exact Qh.
    - exists (set_c_ip (k_w k) ctx_init). split; [exact H0|reflexivity].
    - exists (set_c_ip (k_w k) ctx_init). split; [exact H0|]. split; [exact stack_init_wf|reflexivity].
    - exact Qs.
    - exact Qd.
    - exact Nd.
    - intros id I. unfold t3. ks. vs. rewrite Qf. unfold t0. fold t0. rewrite Fu. specialize (Id _ I). lia.
    - ks. intros mw ng Om Gn Tn id fd I. apply (fn_more LT); [exact More2|].
      pose proof (fn_more _ LT More _ _ _ _ _ (Fns mw ng ltac:(intros i Hi; rewrite Om by lia; unfold kmem, kcode, t3; ks; vs; rewrite Qc, znth_zupd_other by lia; change (kmem k2 i = kmem k i); rewrite Bl by lia; apply Bw, Hi) ltac:(lia) Tn id fd I)) as (f & F1 & F2 & F3 & F4 & F5).
      exists f. unfold t3. ks. vs. rewrite Qf. fold t0. rewrite Fu. split; [apply Ff, F1|]. split; [exact F2|]. split; [exact F3|]. split; [lia|exact F5].
    - ks. exists W, mm. split; [exact Wd3|]. exact Gl'.
    - reflexivity. }
  intros o m' Ex.
  destruct (simulation hostmark host (kcode k2) (v_funcs (k_vm k2)) lim (k_nstat k2) mf (kw_pow _ K2) Lm Lf t0 Iv Rm (assoc (F ++ G)) Tb Nat) as (_ & _ & _ & Sx & _).
  specialize (Sx _ _ _ _ _ _ Ex [] [] (fun _ => VNil) None None [] 0 (k_w k) (k_w k1) E1 Scd).
  destruct Sx as [Nx Hb]; try exact I; auto.
  { lia. }
  { rewrite Es. discriminate. }
  { rewrite U0, Lo. reflexivity. }
  { rewrite Lo. split; [reflexivity|]. intros i o' Hz. apply znth_some_range in Hz. change (zlen []) with 0 in Hz. lia. }
  assert (o = Next) as ->.
  { destruct o as [| |v]; [reflexivity|contradiction|]. exfalso. destruct (run_returns (assoc (F ++ G)) lim mf) as (_ & _ & _ & Rr & _).
    apply (Rr _ _ _ _ _ _ Ex (proj2 (code_returns _ _) _ _ _ _ _ _ _ Scd eq_refl) v). reflexivity. }
  split; [reflexivity|]. destruct Hb as (fr' & (t' & Sp & Ht) & Fr).
  destruct (Nx eq_refl) as (Lw' & Bs & _). cbn [app] in Ht.
  assert (e_used E1 = 0) as U1.
  { unfold base, locals_of in Bs. rewrite Es, Es1, (all_global_locals _ _ Ag), (all_global_locals _ _ Ag2) in Bs. lia. }
  assert (zlen fr' = 0) as Zf by (destruct Fr as [-> _]; rewrite Lw'; lia).
  assert (m_local m' = []) as Lo'. { destruct Fr as [Q _]. destruct (m_local m') as [|y q]; [reflexivity|]. rewrite zlen_cons in Q. pose proof (zlen_nonneg q). lia. }
  assert (fr' = []) as ->. { destruct fr'; [reflexivity|]. rewrite zlen_cons in Zf. pose proof (zlen_nonneg fr'). lia. }
  destruct (steps_run _ _ _ _ Sp (fetch_at hostmark host _ _ _ _ _ (kw_pow _ K2) _ Iv Rm _ _ _ _ _ Ht Me)) as [Ot (n & Rn)].
  exists n, t'. split; [exact Rn|]. split; [exact Ot|].
  destruct Ht as [_ Wt Ipt (W & mm & lx & Wd' & Gl' & Rl & Sl)]. inversion Rl; subst lx.
  pose proof (inv_frame _ _ _ _ _ _ _ Ot Iv) as Iv'.
  assert (E1 = afters l E) as Ea.
  { destruct Sm as (_ & _ & Q). pose proof (after_used l E sc Es) as Ua. destruct E1 as [q1 q2 q3], (afters l E) as [r1 r2 r3]. cbn [e_scopes e_used e_globals] in *. congruence. }
  destruct (w_static _ _ _ Wt) as [St1 St2].
  assert (v_smask t' = v_smask t0) as Qm by exact (f_equal v_smask Ot).
  assert (v_static t' = v_static t' /\ zlen (v_static t') = zlen (v_static t0)) as [_ Zst] by (split; [reflexivity|pose proof (kw_smask _ K2) as Q; fold t0 in Q; lia]).
  pose proof (i_code _ _ _ _ _ _ Iv') as Qc. pose proof (i_funcs _ _ _ _ _ _ Iv') as Qf.
  assert (forall i t, lit i = Some t -> @lit (kept_of t') i = Some t) as More2.
  { intros i t Li. destruct (wd_lit _ _ _ _ _ Wd' _ _ Li) as (e & A & B & C). unfold lit, kept_of. rewrite A, B. congruence. }
  constructor.
  - constructor; ks.
    + destruct K2 as [A1 A2 A3 A4 A5 A6 A7]. constructor; unfold kcode in *; ks; fold t0 in A1, A2, A3, A4, A5, A6, A7; rewrite ?Qc, ?Qm, ?Zst; try assumption.
      * exact (i_cmask _ _ _ _ _ _ Iv').
      * apply (w_str _ _ _ Wt).
    + exists c', s'. split; [exact Cc|]. split; [rewrite Co1, U1; reflexivity|]. split; [exact Cl1|]. split; [exact Cf1|]. split; [exact Es2|exact S1].
    + rewrite <- Ea. exact U1.
    + rewrite <- Ea, Ns2. exact Ns.
    + rewrite Qf. fold t0. rewrite Fu. exact Fz.
  - exists s'. auto.
  - exact (i_errs _ _ _ _ _ _ Iv').
  - exact Wt.
  - exact (i_cur _ _ _ _ _ _ Iv').
  - exact (i_left _ _ _ _ _ _ Iv').
  - exact (i_hlist _ _ _ _ _ _ Iv').
  - ks. rewrite Kw. exact Ipt.
  - exact Sl.
  - exact (i_max _ _ _ _ _ _ Iv').
  - exact (i_fields _ _ _ _ _ _ Iv').
  - exact Nd2.
  - intros id I. ks. rewrite Qf. fold t0. rewrite Fu. rewrite map_app in I. apply in_app_or in I. destruct I as [I|I]; [specialize (Id _ I); lia|apply (Fi _ I)].
  - ks. intros mw ng Om Gn Tn id fd I. apply (fn_more LT); [exact More2|].
    destruct (Fall id fd I mw ng) as (f & F1 & F2 & F3 & F4 & F5); [|exact Gn|exact Tn|].
    { intros i Hi. rewrite (Om i Hi). unfold kmem, kcode. ks. rewrite Qc. reflexivity. }
    exists f. ks. rewrite Qf. auto.
  - ks. exists W, mm. split; [|exact Gl']. destruct Wd' as [Q1 Q2 Q3 Q4 Q5 Q6]. split; try assumption. intros i t Li. exact (kept_entry _ _ _ Li).
  - exact Lo'.
Qed.

(** A machine between scripts is one whose functions the host can call. *)
Lemma live_resting k E F m : live k E F m -> lim <= 65536 -> mf < W32 -> exists W, resting (LT := kept_of (k_vm k)) (assoc F) lim mf (k_vm k) W [] m.
Proof.
  intros [R (sc & Es & Ag) Er Wf Cu Le Hl Ip Sk Mx Mf Nd Id Fns (W0 & mm0 & Wd0 & Gl0) Lo] Lm Lf. pose proof (pm_wf _ _ R) as K. exists W0. split; auto.
  - exact (kw_pow _ K).
  - exists (k_nstat k). split.
    + destruct K as [A1 A2 A3 A4 A5 A6]. constructor; auto. lia.
    + intros id fd A. apply assoc_in in A. destruct (Fns (code (v_code (k_vm k))) (mkAround (k_nstat k) (assoc F)) ltac:(reflexivity) ltac:(cbn [g_n]; lia) (assoc_table _ Nd) id fd A) as (f & F1 & F2 & F3 & F4 & F5).
      exists f. pose proof (kw_w _ K) as Q. unfold kcode in Q. repeat split; auto; lia.
  - exists mm0, []. auto.
Qed.

(** And it stays one. *)
Lemma live_call k E F m t' W m' : live k E F m -> frame t' = frame (k_vm k) -> ip_is t' (k_w k) -> resting (LT := kept_of (k_vm k)) (assoc F) lim mf t' W [] m' ->
  live (set_k_vm t' k) E F (set_locals [] m').
Proof.
  intros [R Sc Er Wf Cu Le Hl Ip Sk Mx Mf Nd Id Fns _ Lo] Ot Ipt [_ _ _ (ng & Iv & _) Wt (mm & ls & Wd' & Gl' & Rl & Sl)].
  inversion Rl; subst ls. destruct (w_static _ _ _ Wt) as [St1 St2]. pose proof (pm_wf _ _ R) as K.
  assert (v_smask t' = v_smask (k_vm k)) as Qm by exact (f_equal v_smask Ot).
  assert (zlen (v_static t') = zlen (v_static (k_vm k))) as Zst by (pose proof (kw_smask _ K) as Q; lia).
  assert (v_code t' = v_code (k_vm k)) as Qc by exact (f_equal v_code Ot).
  assert (v_cmask t' = v_cmask (k_vm k)) as Qk by exact (f_equal v_cmask Ot).
  assert (v_funcs t' = v_funcs (k_vm k)) as Qf by exact (f_equal v_funcs Ot).
  assert (forall i t, @lit (kept_of (k_vm k)) i = Some t -> @lit (kept_of t') i = Some t) as More2.
  { intros i t Li. destruct (wd_lit _ _ _ _ _ Wd' _ _ Li) as (e & A & B & C). unfold lit, kept_of. rewrite A, B. congruence. }
  constructor; auto.
  - destruct R as [K' Cx Us Gb Fu]. constructor; ks; auto; [|rewrite Qf; exact Fu].
    destruct K as [A1 A2 A3 A4 A5 A6 A7]. constructor; unfold kcode in *; ks; rewrite ?Qc, ?Qm, ?Qk, ?Zst; try assumption. apply (w_str _ _ _ Wt).
  - exact (i_errs _ _ _ _ _ _ Iv).
  - exact (i_cur _ _ _ _ _ _ Iv).
  - exact (i_left _ _ _ _ _ _ Iv).
  - exact (i_hlist _ _ _ _ _ _ Iv).
  - exact (i_max _ _ _ _ _ _ Iv).
  - exact (i_fields _ _ _ _ _ _ Iv).
  - ks. rewrite Qf. exact Id.
  - ks. intros mw ng' Om Gn Tn id fd I. apply (fn_more (kept_of (k_vm k))); [exact More2|].
    destruct (Fns mw ng') with (id := id) (fd := fd) as (f & F1 & F2 & F3 & F4 & F5); [|exact Gn|exact Tn|exact I|].
    { intros i Hi. rewrite (Om i Hi). unfold kmem, kcode. ks. rewrite Qc. reflexivity. }
    exists f. ks. rewrite Qf. auto.
  - ks. exists W, mm. split; [|exact Gl']. destruct Wd' as [Q1 Q2 Q3 Q4 Q5 Q6]. split; try assumption. intros i t Li. exact (kept_entry _ _ _ Li).
Qed.

Lemma live_moved k E F m t' W mm m' : lim <= 65536 -> mf < W32 -> live k E F m -> frame t' = frame (k_vm k) -> wf true 0 t' -> ip_is t' (k_w k) -> stack_is t' [] ->
  world (@lit (kept_of (k_vm k))) t' W mm (m_heap m') -> globs t' W (m_global m') -> m_local m' = [] -> live (set_k_vm t' k) E F m'.
Proof.
  intros Lm Lf Lv Ot Wt Ipt Sl Wd Gl Lo. destruct (live_resting _ _ _ _ Lv Lm Lf) as (W0 & [P1 _ _ (ng & Iv & Fa) _ _]).
  assert (v_code t' = v_code (k_vm k)) as Qc by exact (f_equal v_code Ot).
  assert (v_funcs t' = v_funcs (k_vm k)) as Qf by exact (f_equal v_funcs Ot).
  replace m' with (set_locals [] m') by (destruct m'; cbn in *; subst; reflexivity). apply (live_call k E F m t' W); [exact Lv|exact Ot|exact Ipt|]. split; auto.
  - rewrite Qc. exact P1.
  - exists ng. rewrite Qc, Qf. split; [exact (inv_frame _ _ _ _ _ _ _ Ot Iv)|exact Fa].
  - exists mm, []. auto.
Qed.

(** Collecting garbage between scripts. *)
Lemma live_collect k E F m : lim <= 65536 -> mf < W32 -> live k E F m -> v_gcpass (k_vm k) < INVALID ->
  exists t', GcModel.garbage_collect hostmark (k_vm k) = Ok (tt, t') /\ frame t' = frame (k_vm k) /\ live (set_k_vm t' k) E F m.
Proof.
  intros Lm Lf Lv Rg. pose proof Lv as [R (sc & Es & Ag) Er Wf Cu Le Hl Ip Sk Mx Mf Nd Id Fns (W0 & mm0 & Wd0 & Gl0) Lo].
  destruct (GcProofs.garbage_collect_ok hostmark true _ Wf Rg) as (t' & Eg & Wt & Col). exists t'. split; [exact Eg|].
  assert (@here (kept_of (k_vm k)) (k_vm k) (k_vm k) [] m (k_w k)) as H by (split; auto; exists W0, mm0, []; auto).
  destruct (live_resting _ _ _ _ Lv Lm Lf) as (W1 & [P1 _ _ (ng & Iv & Fa) _ _]).
  destruct (collect_here hostmark (v_code (k_vm k)) (v_funcs (k_vm k)) lim ng mf (k_vm k) Iv _ _ _ _ _ H Col Wt) as [Fr _ Ipt (W & mm & l & D & G & Rl & St)].
  inversion Rl; subst l. split; [exact Fr|]. eapply live_moved; eauto.
Qed.

(** The host writes to a global. *)
Lemma live_assign k E F m i v x : lim <= 65536 -> mf < W32 -> live k E F m -> 0 <= i < zlen (v_static (k_vm k)) ->
  (forall W mm, world (@lit (kept_of (k_vm k))) (k_vm k) W mm (m_heap m) -> globs (k_vm k) W (m_global m) -> rep (k_vm k) W v x) ->
  live (set_k_vm (set_static (zupd (v_static (k_vm k)) i x) (k_vm k)) k) E F (write (Global i) v m).
Proof.
  intros Lm Lf Lv Ri Rx. pose proof Lv as [R (sc & Es & Ag) Er Wf Cu Le Hl Ip Sk Mx Mf Nd Id Fns (W0 & mm0 & Wd0 & Gl0) Lo].
  specialize (Rx _ _ Wd0 Gl0). destruct (w_static _ _ _ Wf) as [Ss _].
  eapply (live_moved k E F m _ W0 mm0); auto.
  - apply VmInv.wf_static_set; [exact Wf|apply zlen_zupd].
  - apply (world_same _ (k_vm k)); auto.
    + destruct Sk as (c & Hc & _). exists c. exact Hc.
    + intros z J. apply In_znth in J. destruct J as (j & J). vsin J. destruct (Z.eq_dec i j) as [->|Nj].
      * rewrite znth_zupd_same in J by exact Ri. injection J as <-. eauto.
      * rewrite znth_zupd_other in J by exact Nj. apply (wd_static _ _ _ _ _ Wd0). apply In_znth. eauto.
  - intros j w. cbn [write m_global]. vs. destruct (Z.eqb_spec j i) as [->|Nj]; intro Ej.
    + injection Ej as <-. split; [lia|]. exists x. split; [apply znth_zupd_same; exact Ri|exact Rx].
    + destruct (Gl0 j w Ej) as (Rj & z & Z1 & Rz). split; [exact Rj|]. exists z. split; [rewrite znth_zupd_other by auto; exact Z1|exact Rz].
Qed.
End Run.
