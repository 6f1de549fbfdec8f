(** * VmCall: calls and coroutine creation keep the VM well-formed *)
From Verif Require Import Base.
From Verif Require Export VmSafety.

Definition mask_is (m : Z) (s : vm) : Prop := exists k, at_stack s k /\ k_mask k = m.

Lemma masked_slot b x L O s m i : A b x L O s -> mask_is m s -> slot_ok s (Z.land i m).
Proof.
  intros (W & _) (k & At & <-). exists k. split; auto. pose proof (wf_kwf _ _ _ _ W At) as K.
  rewrite (kw_len _ K). apply land_mask. auto.
Qed.

Lemma get_masked b x L O s m i : A b x L O s -> mask_is m s -> exists v, get_slot (Z.land i m) s = Ok (v, s).
Proof.
  intros Hs Hm. destruct (masked_slot _ _ _ _ _ _ i Hs Hm) as (k & At & R).
  destruct (get_slot_ok s k _ At R) as (v & _ & E). eauto.
Qed.

Lemma set_masked b x L O s m i v : A b x L O s -> mask_is m s ->
  exists s', set_slot (Z.land i m) v s = Ok (tt, s') /\ A b x L O s' /\ mask_is m s'.
Proof.
  intros Hs Hm. destruct (masked_slot _ _ _ _ _ _ i Hs Hm) as (k & At & R).
  rewrite (set_slot_ok s k _ v At R). eexists. split; [reflexivity|]. split.
  - eapply A_with_stack; eauto; [apply poke_wf; eapply wf_kwf; eauto; apply Hs|]. cbn. rewrite zlen_zupd. lia.
  - exists (poke k (Z.land i m) v). split; [eapply with_stack_at; eauto|]. destruct Hm as (k' & (c' & H' & E') & M).
    destruct At as (c & H & E). cbn. congruence.
Qed.

Lemma shift_args_run b x L O base m n : forall s, A b x L O s -> mask_is m s ->
  exists s', shift_args n base m s = Ok (tt, s') /\ A b x L O s' /\ mask_is m s'.
Proof.
  induction n as [|n IH]; intros s Hs Hm; cbn [shift_args]; [eexists; split; [reflexivity|auto]|].
  destruct (get_masked _ _ _ _ _ _ (u32 (base + Z.of_nat (S n))) Hs Hm) as [v E]. rewrite (bind_run _ _ _ _ _ E).
  destruct (set_masked _ _ _ _ _ _ (u32 (base + Z.of_nat (S n) + 1)) v Hs Hm) as (s1 & E1 & H1 & M1).
  rewrite (bind_run _ _ _ _ _ E1). apply IH; auto.
Qed.

Lemma h_insert_data b x L O argc d : hoare (A b x L O) (insert_data argc d) (fun _ => A b x L O).
Proof.
  unfold insert_data. destruct (_ <? _); [hs; apply h_ret; auto|].
  hs. apply h_run. intros s Hs.
  assert (A b x L O s) as Hs'.
  { destruct Hs as (W & F & G). split; auto. inversion F; auto. }
  clear Hs. destruct (wf_live _ _ _ (proj1 Hs')) as [c Hc]. rewrite (cur_ctx_run _ _ _ Hc).
  assert (mask_is (k_mask (c_stack c)) s) as Hm by (exists (c_stack c); split; auto; exists c; auto).
  destruct (shift_args_run b x L O (u32 (k_size (c_stack c) - (argc + 1) - 2)) _ (Z.to_nat (argc + 1)) s Hs' Hm) as (s1 & E1 & H1 & M1).
  rewrite (bind_run _ _ _ _ _ E1).
  destruct (set_masked _ _ _ _ _ _ (u32 (k_size (c_stack c) - (argc + 1) - 1)) d H1 M1) as (s2 & E2 & H2 & M2).
  rewrite (bind_run _ _ _ _ _ E2).
  destruct (set_masked _ _ _ _ _ _ (u32 (k_size (c_stack c) - 1)) (vint (argc + 1)) H2 M2) as (s3 & E3 & H3 & M3).
  rewrite (bind_run _ _ _ _ _ E3). eexists _, _. split; [reflexivity|]. auto.
Qed.

(** Looking an entry up by value and reading it. *)
Lemma h_entry {T} b x L O v key (K : option value -> M T) Q :
  (forall r, hoare (A b x L O) (K r) Q) ->
  hoare (A b x L O) (p <- find_or_add_entry_public v key true ;; r <- entry_value p ;; K r) Q.
Proof.
  intros HK s Hs. pose proof Hs as (W & F & G). unfold find_or_add_entry_public.
  unfold mbind at 1. unfold mbind at 1, gets.
  destruct (obj_of_value s v) as [i|] eqn:Ov.
  - unfold obj_of_value in Ov. destruct (_ =? T_OBJ); [|discriminate].
    destruct (get_obj s (v_data v)) as [o|] eqn:Ho; [|discriminate]. inversion Ov; subst i.
    destruct (find_entry_run _ _ _ _ s (v_data v) o key Hs Ho) as (r & es & E & R).
    rewrite (bind_run _ _ _ _ _ E). unfold ret. pose proof (A_errs_more _ _ _ _ _ es Hs) as Hs'.
    destruct r as [q|].
    + destruct (R q eq_refl) as (c & kv & H1 & H2).
      destruct (el_get_run (set_errs (v_errs s ++ es) s) (v_data v) q) as [w Ew]; [exists o, c, kv; auto|].
      cbn [entry_value]. unfold mbind at 1. rewrite (bind_run _ _ _ _ _ Ew). unfold ret. apply HK. auto.
    + cbn [entry_value]. unfold mbind, ret. apply HK. auto.
  - destruct (add_error_ok s (bs "Bad object ID in nkiVmObjectFindOrAddEntry.") (wf_live _ _ _ W)) as [e Ee].
    rewrite (bind_run _ _ _ _ _ Ee). unfold ret, entry_value. unfold mbind, ret. apply HK. apply A_errs. auto.
Qed.

Lemma exec_text : is_text (bs "_exec"). Proof. repeat constructor; cbn; lia. Qed.
Lemma data_text : is_text (bs "_data"). Proof. repeat constructor; cbn; lia. Qed.
Global Hint Resolve exec_text data_text : vh.

(** The count keeps its range. *)
Lemma h_resolve b x fuel : forall fv argc, 0 <= argc -> 
  hoare (A b x [] []) (resolve_callee fuel fv argc)
    (fun r s => A b x [] [] s /\ forall f n, r = Some (f, n) -> 0 <= n).
Proof.
  assert (forall argc d, 0 <= argc -> hoare (A b x [] []) (insert_data argc d)
            (fun r s => A b x [] [] s /\ forall n, r = Some n -> 0 <= n)) as Ins.
  { intros argc d R s Hs. pose proof (h_insert_data b x [] [] argc d s Hs) as H.
    destruct (insert_data argc d s) as [[r s']|u] eqn:E; auto. split; auto.
    intros n Q. subst r. revert E. unfold insert_data. destruct (_ <? _).
    - intro E. apply bind_inv in E. destruct E as (u & s1 & _ & E). discriminate.
    - intro E. repeat (apply bind_inv in E; destruct E as (? & ? & _ & E)). unfold ret in E. injection E as E _. lia. }
  induction fuel as [|fuel IH]; intros fv argc R; cbn [resolve_callee].
  - destruct fv as [v|]; [|apply h_ret; intros s Hs; split; auto; intros f n Q; inversion Q; subst; auto].
    destruct (negb _); [apply h_ret; intros s Hs; split; auto; intros f n Q; inversion Q; subst; auto|].
    hs. apply h_ret; intros s Hs; split; auto; discriminate.
  - destruct fv as [v|]; [|apply h_ret; intros s Hs; split; auto; intros f n Q; inversion Q; subst; auto].
    destruct (negb _); [apply h_ret; intros s Hs; split; auto; intros f n Q; inversion Q; subst; auto|].
    hs. apply h_entry. intro r. hs. apply h_entry. intros [dv|]; [|apply IH; auto].
    eapply h_bind; [apply Ins; auto|]. intros [n|]; cbv beta iota.
    + intros s [Hs Hn]. apply IH; auto.
    + intros s [Hs _]. cbn. split; auto. discriminate.
Qed.

Lemma copy_args_ok k m argc idx : zlen (k_vals k) = m + 1 -> (exists e, 0 <= e /\ m + 1 = 2 ^ e) -> k_mask k = m ->
  exists l, copy_args k argc idx = Ok l.
Proof.
  intros H1 (e & He & E) H2. induction idx as [|i r IH]; cbn [copy_args]; [eauto|].
  destruct (rd_ok (k_vals k) (Z.land (k_mask k) (u32 (k_size k - argc - 1 + i)))) as [v Ev].
  { rewrite H1, H2, Z.land_comm. replace m with (2 ^ e - 1) by lia.
    replace (2 ^ e - 1 + 1) with (2 ^ e) by lia. apply land_mask_range. lia. }
  rewrite Ev. destruct IH as [l El]. cbn [bind]. rewrite El. cbn. eauto.
Qed.

Lemma copy_args_len k argc idx : forall l, copy_args k argc idx = Ok l -> zlen l = zlen idx.
Proof.
  induction idx as [|i r IH]; intros l H; cbn [copy_args] in H; [inversion H; reflexivity|].
  apply bind_ok in H. destruct H as (v & _ & H). apply bind_ok in H. destruct H as (vs & E & H).
  inversion H; subst. rewrite !zlen_cons. rewrite (IH vs); auto.
Qed.

Lemma h_check_args b x xf : forall args i, 0 <= i -> i + zlen args = zlen (x_types xf) ->
  hoare (A b x [] []) (check_args xf i args) (fun _ => A b x [] []).
Proof.
  induction args as [|a r IH]; intros i R E; cbn [check_args]; [apply h_ret; auto|].
  rewrite zlen_cons in E. pose proof (zlen_nonneg r).
  destruct (rd_ok (x_types xf) i) as [[t et] Et]; [lia|]. eapply h_lift_ok; [exact Et|]. cbv beta iota.
  destruct (t =? T_NIL); [apply IH; lia|].
  destruct (negb _); [hs; apply h_ret; auto|].
  destruct (t =? T_OBJ); [|apply IH; lia].
  apply h_self. intros s0 H0. destruct (get_obj s0 (v_data a)).
  - apply (h_eq (A b x [] [])); auto. destruct (_ && _); [hs; apply h_ret; auto|]. apply IH; lia.
  - apply (h_eq (A b x [] [])); auto. hs. apply h_ret; auto.
Qed.

(** Keeping well-formedness, possibly losing exact sizes with an error. *)
Definition okx (x : Z) (s : vm) : Prop := exists b, A b x [] [] s.
Lemma okx_of {T} b x (m : M T) : hoare (A b x [] []) m (fun _ => A b x [] []) -> hoare (A b x [] []) m (fun _ => okx x).
Proof. intro H. eapply h_post; [exact H|]. intros a s Hs. exists b. exact Hs. Qed.
Lemma okx_all {T} x (m : M T) : (forall b, hoare (A b x [] []) m (fun _ => A b x [] [])) -> hoare (okx x) m (fun _ => okx x).
Proof. intros H s [b Hb]. specialize (H b s Hb). destruct (m s) as [[a s']|u]; auto. exists b. auto. Qed.

Section Call.
Variable host : Z -> list value -> M value.
Hypothesis host_ok : forall cb args, hoare (A true 0 [] []) (host cb args) (fun _ => okx 0).

Lemma h_call_native f argc : 0 <= argc ->
  hoare (A true 0 [] []) (call_native host f argc) (fun _ => okx 0).
Proof.
  intro R. unfold call_native. apply h_self. intros s0 H0.
  assert (forall m, hoare (fun s => s = s0) (add_error m) (fun _ => okx 0)) as Er.
  { intro m. apply (h_eq (A true 0 [] [])); auto. apply okx_of. he. }
  destruct (znth (v_extfuncs s0) (f_ext f)) as [xf|] eqn:Ex; [|apply Er].
  destruct (x_cb xf) as [cb|]; [|apply Er].
  destruct (wf_live _ _ _ (proj1 H0)) as [c Hc]. intros s ->. rewrite (cur_ctx_run _ _ _ Hc).
  assert (kwf (c_stack c)) as K by (eapply w_stk; eauto; apply H0).
  destruct (copy_args_ok (c_stack c) (k_mask (c_stack c)) argc (zseq 0 (Z.to_nat argc))) as [args Ea]; auto.
  { rewrite (kw_len _ K). apply kw_mask; auto. }
  { destruct (kw_pow _ K) as (e & He & E). exists e. rewrite <- (kw_mask _ K). split; [lia|auto]. }
  rewrite Ea. unfold mbind at 1, lift.
  assert (zlen args = argc) as La.
  { rewrite (copy_args_len _ _ _ _ Ea). unfold zlen. rewrite zseq_length. lia. }
  pose proof (w_extfuncs _ _ _ (proj1 H0) _ _ Ex) as HX.
  match goal with |- match (mbind ?m ?k) s0 with _ => _ end =>
    assert (hoare (A true 0 [] []) (mbind m k) (fun _ => okx 0)) as HK end; [|apply HK; exact H0].
  eapply h_bind with (R := fun _ => A true 0 [] []).
  { destruct (Z.eqb_spec (x_argc xf) INVALID); [apply h_ret; auto|].
    destruct (Z.eqb_spec (x_argc xf) argc); cbn [negb]; [|hs; apply h_ret; auto].
    apply h_check_args; [lia|]. rewrite HX by auto. lia. }
  intros [|]; [|apply h_ret; intros s Hs; exists true; auto].
  eapply h_bind; [apply host_ok|]. intro r. eapply h_bind; [apply okx_all; intro; he|].
  intro. apply okx_all. intro. he.
Qed.

Lemma h_op_call : hoare (A true 0 [] []) (op_call host) (fun _ => okx 0).
Proof.
  unfold op_call. hs. hs. hs. hs. eapply h_bind; [apply h_resolve; apply u32_range|].
  intros [[fv n]|]; cbv beta iota; [|apply h_ret; intros s [Hs _]; exists true; auto].
  intros s [Hs Hn]. specialize (Hn fv n eq_refl). revert s Hs.
  match goal with |- forall s, A true 0 [] [] s -> match ?m s with _ => _ end => change (hoare (A true 0 [] []) m (fun _ => okx 0)) end.
  assert (forall m, hoare (A true 0 [] []) (add_error m) (fun _ => okx 0)) as Er by (intro m; apply okx_of; he).
  destruct fv as [v|]; [|apply Er]. destruct (negb _); [apply Er|].
  apply h_self. intros s0 H0. apply (h_eq (A true 0 [] [])); auto.
  destruct (znth (v_funcs s0) (v_data v)) as [f|]; [|apply Er].
  destruct (_ && _); [apply Er|]. destruct (negb _); [apply h_call_native; auto|].
  apply okx_of. hs. unfold push_int. hs. he.
Qed.

(** ** Coroutine creation *)

Lemma h_push_all b x vs : hoare (A b x [] []) (push_all vs) (fun _ => A b x [] []).
Proof. induction vs as [|v r IH]; cbn [push_all]; [apply h_ret; auto|]. hs. apply IH. Qed.

(** A new context, not yet attached to its object. *)
Lemma wf_new_ctx b s : wf b 0 s ->
  wf b (zlen (v_ctxs s)) (set_ctxs (v_ctxs s ++ [Some ctx_init]) s) /\ 0 < zlen (v_ctxs s).
Proof.
  intro W. destruct (w_chain _ _ _ W) as (l & C & I).
  assert (0 < zlen (v_ctxs s)) as Lp.
  { destruct (chain_live _ _ _ C) as [c H]. apply znth_some_range in H. lia. }
  assert (forall j, znth (v_ctxs s ++ [Some ctx_init]) j = if j =? zlen (v_ctxs s) then Some (Some ctx_init) else znth (v_ctxs s) j) as Zn.
  { intro j. destruct (Z.eqb_spec j (zlen (v_ctxs s))) as [->|N].
    - rewrite znth_app_r by lia. rewrite Z.sub_diag. reflexivity.
    - destruct (Z_lt_ge_dec j (zlen (v_ctxs s))); [apply znth_app_l; auto|].
      rewrite (znth_out (v_ctxs s)) by lia. apply znth_out. right. rewrite zlen_app, zlen_cons, zlen_nil. lia. }
  split; [|auto]. destruct W. split; unfold get_obj, get_str_entry in *; vs; auto.
  - exists l. split.
    + eapply chain_ext; [exact C|]. intros j c J H. exists c. split; auto. rewrite Zn.
      apply znth_some_range in H as R. destruct (Z.eqb_spec j (zlen (v_ctxs s))); [lia|auto].
    + intros j c H. rewrite Zn in H. destruct (Z.eqb_spec j (zlen (v_ctxs s))); [inversion H; subst; cbn; congruence|eauto].
  - intros j c H. rewrite Zn in H. destruct (j =? _); [inversion H; subst; apply stack_init_wf|eauto].
  - intros c H. rewrite Zn in H. destruct (Z.eqb_spec 0 (zlen (v_ctxs s))); [lia|auto].
  - intros j c N X H. rewrite Zn in H. destruct (Z.eqb_spec j (zlen (v_ctxs s))); [contradiction|]. eapply w_co1; eauto.
  - intros id o Ho E. destruct (w_co2 id o Ho E) as (i & c & A1 & A2 & A3 & A4 & A5). exists i, c. rewrite Zn.
    apply znth_some_range in A4 as R. destruct (Z.eqb_spec i (zlen (v_ctxs s))); [lia|]. sp; auto.
Qed.

(** Attaching context [ci] to its freshly created object [id]. *)
Lemma wf_attach b s ci c id : wf b ci s -> ci <> 0 -> ci <> v_cur s -> znth (v_ctxs s) ci = Some (Some c) ->
  c_parent c = None -> get_obj s id = Some (new_obj id) ->
  wf b 0 (put_obj id (set_o_data (Some ci) (set_o_ext (v_corotype s) (new_obj id)))
            (set_ctxs (zupd (v_ctxs s) ci (Some (set_c_state CO_CREATED (set_c_obj (vobj id) c)))) s)).
Proof.
  intros W N Nc H P Ho. pose proof (fun j y => znth_zupd_if (v_ctxs s) ci j y _ H) as Zn.
  destruct (put_obj_wf s id _ (set_o_data (Some ci) (set_o_ext (v_corotype s) (new_obj id))) (w_tab _ _ _ W) Ho) as [T G].
  unfold put_obj, get_obj in *. vsin T. vsin G. pose proof (w_stk _ _ _ W _ _ H) as Kc.
  destruct W. split; unfold get_obj, get_str_entry in *; vs; auto.
  - intros i o Hi. rewrite G in Hi. destruct (Z.eqb_spec i id) as [->|]; [|auto].
    inversion Hi; subst. split; cbn; auto; unfold W32; lia.
  - destruct w_chain as (l & C & I). exists l. split.
    + eapply chain_ext; [exact C|]. intros j d J D. rewrite Zn. destruct (Z.eqb_spec j ci) as [->|]; [|eauto].
      eexists. split; [reflexivity|]. assert (d = c) by congruence. subst. reflexivity.
    + intros j d D Q. rewrite Zn in D. destruct (Z.eqb_spec j ci) as [->|]; [|eauto].
      inversion D; subst. cbn in Q. congruence.
  - intros j d D. rewrite Zn in D. destruct (Z.eqb_spec j ci); [inversion D; subst; exact Kc|eauto].
  - intros d D. rewrite Zn in D. destruct (Z.eqb_spec 0 ci); [congruence|auto].
  - intros j d Nj _ D. rewrite Zn in D. destruct (Z.eqb_spec j ci) as [->|Q].
    + inversion D; subst. exists id. eexists. split; [reflexivity|]. rewrite G, Z.eqb_refl. split; [reflexivity|]. auto.
    + destruct (w_co1 j d Nj Q D) as (i & o & A1 & A2 & A3 & A4). exists i. rewrite G.
      destruct (Z.eqb_spec i id) as [->|]; [|exists o; auto]. rewrite Ho in A2. inversion A2; subst o.
      cbn in A4. discriminate.
  - intros i o Hi E. rewrite G in Hi. destruct (Z.eqb_spec i id) as [->|].
    + inversion Hi; subst. cbn. exists ci. eexists. rewrite Zn, Z.eqb_refl. sp; eauto.
    + destruct (w_co2 i o Hi E) as (j & d & A1 & A2 & A3 & A4 & A5). exists j, d. rewrite Zn.
      destruct (Z.eqb_spec j ci); [contradiction|]. sp; auto.
  - intro i. rewrite w_hlist. split; intros (o & A1 & A2).
    + exists o. split; auto. rewrite G. destruct (Z.eqb_spec i id) as [->|]; auto.
      rewrite Ho in A1. inversion A1; subst. cbn in A2. congruence.
    + rewrite G in A1. destruct (Z.eqb_spec i id) as [->|]; eauto. inversion A1; subst. cbn in A2. congruence.
Qed.

(** Giving up on an unattached context. *)
Lemma wf_drop b s ci : wf b ci s -> ci <> 0 -> ci <> v_cur s -> (exists c, znth (v_ctxs s) ci = Some (Some c) /\ c_parent c = None) ->
  wf b 0 (set_ctxs (zupd (v_ctxs s) ci None) s).
Proof.
  intros W N Nc (c & H & P). pose proof (fun j y => znth_zupd_if (v_ctxs s) ci j y _ H) as Zn.
  destruct (w_chain _ _ _ W) as (l & C & I).
  assert (~ In ci l) as NI by (intro J; destruct (chain_parent _ _ _ C ci c J N H) as (q & Q & _); congruence).
  destruct W. split; unfold get_obj, get_str_entry in *; vs; auto.
  - exists l. split.
    + eapply chain_ext; [exact C|]. intros j d J D. exists d. split; auto. rewrite Zn.
      destruct (Z.eqb_spec j ci) as [->|]; auto. contradiction.
    + intros j d D Q. rewrite Zn in D. destruct (Z.eqb_spec j ci); [discriminate|eauto].
  - intros j d D. rewrite Zn in D. destruct (Z.eqb_spec j ci); [discriminate|eauto].
  - intros d D. rewrite Zn in D. destruct (Z.eqb_spec 0 ci); [discriminate|eauto].
  - intros j d Nj _ D. rewrite Zn in D. destruct (Z.eqb_spec j ci); [discriminate|eauto].
  - intros i o Hi E. destruct (w_co2 i o Hi E) as (j & d & A1 & A2 & A3 & A4 & A5). exists j, d. rewrite Zn.
    destruct (Z.eqb_spec j ci); [contradiction|]. sp; auto.
Qed.

Lemma land_INVALID z : 0 <= z < W32 -> Z.land INVALID z = z.
Proof.
  intro H. rewrite Z.land_comm. change INVALID with (Z.ones 32). rewrite Z.land_ones by lia. apply Z.mod_small. exact H.
Qed.

Lemma copy_args_plain k argc idx : kwf k -> 0 <= argc <= k_size k -> (forall i, In i idx -> 0 <= i < argc) ->
  exists l, copy_args (mkK (k_vals k) (k_size k) (k_cap k) INVALID) (argc - 1) idx = Ok l.
Proof.
  intros K R. pose proof (kwf_cap _ K) as C. pose proof (kw_size _ K) as Sz. pose proof (kw_len _ K) as Ln.
  induction idx as [|i r IH]; intro H; cbn [copy_args]; [eauto|]. cs.
  assert (0 <= i < argc) as Ri by (apply H; left; auto).
  replace (k_size k - (argc - 1) - 1 + i) with (k_size k - argc + i) by lia.
  rewrite (u32_id (k_size k - argc + i)) by (unfold is_u32, W32, W31 in *; lia).
  rewrite land_INVALID by (unfold W32, W31 in *; lia).
  destruct (rd_ok (k_vals k) (k_size k - argc + i)) as [v Ev]; [lia|]. rewrite Ev. cbn [bind].
  destruct IH as [l El]; [intros; apply H; right; auto|]. csin El. rewrite El. cbn. eauto.
Qed.

Lemma push_run_cur b x s v : A b x [] [] s -> exists s', push v s = Ok (tt, s') /\ A b x [] [] s' /\ v_cur s' = v_cur s.
Proof.
  intro Hs. pose proof (h_push b x [] [] v s Hs) as H. destruct (wf_at _ _ _ (proj1 Hs)) as (k & At & K).
  destruct (room s k) eqn:R.
  - destruct (push_ok s k v At K R) as (k' & E & _). rewrite E in *. eexists. split; [reflexivity|]. split; auto.
    apply upd_cur_cur.
  - destruct (push_full s k v At K R) as (e & E). rewrite E in *. eexists. split; [reflexivity|]. split; auto.
    unfold with_stack. rewrite upd_cur_cur. reflexivity.
Qed.

Lemma push_all_run_cur b x vs : forall s, A b x [] [] s ->
  exists s', push_all vs s = Ok (tt, s') /\ A b x [] [] s' /\ v_cur s' = v_cur s.
Proof.
  induction vs as [|v r IH]; intros s Hs; cbn [push_all]; [eexists; split; [reflexivity|auto]|].
  destruct (push_run_cur b x s v Hs) as (s1 & E1 & H1 & C1). rewrite (bind_run _ _ _ _ _ E1).
  destruct (IH s1 H1) as (s2 & E2 & H2 & C2). exists s2. sp; auto. congruence.
Qed.

Lemma set_slot_keep b x L O s i v : A b x L O s -> In i L ->
  exists s', set_slot i v s = Ok (tt, s') /\ A b x L O s' /\ v_cur s' = v_cur s /\ v_objs s' = v_objs s /\
    v_corotype s' = v_corotype s /\
    forall j, j <> v_cur s -> znth (v_ctxs s') j = znth (v_ctxs s) j.
Proof.
  intros Hs I. pose proof Hs as (W & F & G). rewrite Forall_forall in F. destruct (F i I) as (k & At & R).
  pose proof (h_set_slot b x L O i v I s Hs) as H. rewrite (set_slot_ok s k i v At R) in *.
  eexists. split; [reflexivity|]. split; auto. destruct At as (c & Hc & _).
  destruct (upd_cur_objs (set_c_stack (poke k i v)) s) as (E1 & _ & _ & _ & _ & _ & _ & _ & _ & E10 & _).
  split; [apply upd_cur_cur|]. split; [exact E1|]. split; [exact E10|]. intros j N.
  unfold with_stack. rewrite (znth_upd_cur _ _ _ _ Hc). destruct (Z.eqb_spec j (v_cur s)); [contradiction|auto].
Qed.

Lemma coroutine_object_run b s ci out : A b ci [out] [] s -> ci <> 0 -> ci <> v_cur s ->
  znth (v_ctxs s) ci = Some (Some ctx_init) ->
  exists ok s', coroutine_object ci out s = Ok (ok, s') /\ wf b 0 s' /\
    (ok = true -> exists c, znth (v_ctxs s') ci = Some (Some c) /\ c_parent c = None).
Proof.
  intros Hs N Nc Hc. unfold coroutine_object. pose proof Hs as (W & F & _). inversion F as [|? ? F1 _]; subst.
  destruct F1 as (k & At & R). destruct (get_slot_ok s k out At R) as (old & _ & E0). rewrite (bind_run _ _ _ _ _ E0).
  destruct (set_slot_keep b ci [out] [] s out (mkV T_OBJ (v_data old)) Hs) as (s1 & E1 & H1 & C1 & O1 & T1 & Z1); [left; auto|].
  rewrite (bind_run _ _ _ _ _ E1).
  destruct (create_object_ok s1 (w_tab _ _ _ (proj1 H1)) (wf_live _ _ _ (proj1 H1))) as (id & s2 & E2 & Cr).
  rewrite (bind_run _ _ _ _ _ E2). pose proof (h_create_object b ci [out] [] s1 H1) as H2. rewrite E2 in H2.
  assert (v_ctxs s2 = v_ctxs s1 /\ v_cur s2 = v_cur s1) as [X2 C2].
  { destruct Cr as [(t & n & -> & _)|(-> & (e & ->) & _)]; auto. }
  destruct (set_slot_keep b ci [out] [] s2 out (vobj id) H2) as (s3 & E3 & H3 & C3 & O3 & T3 & Z3); [left; auto|].
  rewrite (bind_run _ _ _ _ _ E3).
  assert (ci <> v_cur s3) as Nc3 by congruence.
  assert (znth (v_ctxs s3) ci = Some (Some ctx_init)) as Hc3.
  { rewrite Z3 by congruence. rewrite X2. rewrite Z1 by auto. auto. }
  rewrite (bind_run _ _ _ _ _ (get_ctx_ok _ _ _ Hc3)). rewrite (bind_run _ _ _ _ _ (put_ctx_ok _ _ _ _ Hc3)).
  remember (set_c_state CO_CREATED (set_c_obj (vobj id) ctx_init)) as cn eqn:Ecn.
  remember (set_ctxs (zupd (v_ctxs s3) ci (Some cn)) s3) as s4 eqn:Es4.
  unfold mbind at 1, gets at 1.
  destruct Cr as [(t & n & Es2 & Tw & Fr & Ri & Gt)|(Ei & (e & Es2) & _)].
  - assert (get_obj s3 id = Some (new_obj id)) as G3.
    { unfold get_obj. rewrite O3, Es2. vs. rewrite Gt, Z.eqb_refl. reflexivity. }
    assert (get_obj s4 id = Some (new_obj id)) as G4 by (subst s4; exact G3).
    assert (forall s', get_obj s' id <> None -> obj_of_value s' (vobj id) = Some id) as Ov.
    { intros s' Hn. unfold obj_of_value, vobj. cbn [v_type v_data]. rewrite Z.eqb_refl. destruct (get_obj s' id); congruence. }
    pose proof (wf_attach b s3 ci ctx_init id (proj1 H3) N Nc3 Hc3 eq_refl G3) as Wa. rewrite <- Ecn, <- Es4 in Wa.
    destruct (put_obj_wf s4 id (new_obj id) (set_o_ext (v_corotype s4) (new_obj id))) as [_ G5]; auto.
    { subst s4. apply (w_tab _ _ _ (proj1 H3)). }
    remember (put_obj id (set_o_ext (v_corotype s4) (new_obj id)) s4) as s5 eqn:Es5.
    assert (get_obj s5 id = Some (set_o_ext (v_corotype s4) (new_obj id))) as G5' by (rewrite G5, Z.eqb_refl; reflexivity).
    assert (set_ext_type (vobj id) (v_corotype s4) s4 = Ok (true, s5)) as E5.
    { unfold set_ext_type. unfold mbind at 1, gets at 1. rewrite Ov by congruence.
      rewrite (bind_run _ _ _ _ _ (rd_obj_ok _ _ _ G4)). rewrite (bind_run _ _ _ _ _ (wr_obj_ok _ _ _ _ G4)). subst s5. reflexivity. }
    rewrite (bind_run _ _ _ _ _ E5).
    assert (set_ext_data (vobj id) (Some ci) s5 = Ok (true, put_obj id (set_o_data (Some ci) (set_o_ext (v_corotype s4) (new_obj id))) s4)) as E6.
    { unfold set_ext_data. unfold mbind at 1, gets at 1. rewrite Ov by congruence.
      rewrite (bind_run _ _ _ _ _ (rd_obj_ok _ _ _ G5')). rewrite (bind_run _ _ _ _ _ (wr_obj_ok _ _ _ _ G5')).
      subst s5. rewrite put_obj_twice. reflexivity. }
    rewrite (bind_run _ _ _ _ _ E6). cbn [negb]. eexists _, _. split; [reflexivity|].
    replace (v_corotype s3) with (v_corotype s4) in Wa by (subst s4; reflexivity). split; [exact Wa|]. intros _.
    exists cn. subst s4. unfold put_obj. vs. split; [apply znth_zupd_same, (znth_some_range _ _ _ Hc3)|]. subst cn. reflexivity.
  - subst id. assert (forall es, obj_of_value (set_errs es s4) (vobj INVALID) = None) as Ov.
    { intro es. unfold obj_of_value, vobj. cbn [v_type v_data]. rewrite Z.eqb_refl.
      destruct (get_obj (set_errs es s4) INVALID) as [o|] eqn:G; auto. exfalso.
      assert (get_obj s3 INVALID = Some o) as G3 by (subst s4; exact G).
      pose proof (obj_range _ _ _ (w_tab _ _ _ (proj1 H3)) G3) as Q. unfold INVALID, W31 in Q. lia. }
    assert (forall es, live_ctx (set_errs es s4) (v_cur (set_errs es s4))) as Lv.
    { intro es. destruct (wf_live _ _ _ (proj1 H3)) as [d Hd]. exists d. subst s4. vs. rewrite znth_zupd_other; auto. }
    assert (s4 = set_errs (v_errs s4) s4) as Eq4 by (destruct s4; reflexivity).
    assert (obj_of_value s4 (vobj INVALID) = None) as Ov4 by (rewrite Eq4; apply Ov).
    unfold set_ext_type. unfold mbind at 1. unfold mbind at 1, gets at 1. rewrite Ov4.
    destruct (add_error_ok s4 (bs "Bad object ID in nkiVmObjectSetExternalType.")) as [e1 Ee1].
    { rewrite Eq4. apply Lv. }
    rewrite (bind_run _ _ _ _ _ Ee1). unfold ret at 1. unfold mbind at 1, ret at 1. cbn [negb].
    unfold clear_ext. unfold mbind at 1. unfold mbind at 1, gets at 1. rewrite Ov.
    destruct (add_error_ok (set_errs (v_errs s4 ++ [e1]) s4) (bs "Bad object ID in nkiVmObjectClearExternalType.") (Lv _)) as [e2 Ee2].
    rewrite (bind_run _ _ _ _ _ Ee2). unfold ret at 1.
    match goal with |- context[mbind (free_ctx ci) _ ?t] => remember t as s5 eqn:Es5 end.
    assert (znth (v_ctxs s5) ci = Some (Some cn)) as Hc5.
    { subst s5 s4. vs. apply znth_zupd_same, (znth_some_range _ _ _ Hc3). }
    assert (free_ctx ci s5 = Ok (tt, set_ctxs (zupd (v_ctxs s5) ci None) s5)) as E6.
    { unfold free_ctx. rewrite Hc5. reflexivity. }
    rewrite (bind_run _ _ _ _ _ E6). remember (set_ctxs (zupd (v_ctxs s5) ci None) s5) as s6 eqn:Es6.
    assert (wf b 0 s6) as W6.
    { subst s6 s5 s4. vs. rewrite zupd_zupd.
      pose proof (wf_drop b s3 ci (proj1 H3) N Nc3 (ex_intro _ ctx_init (conj Hc3 eq_refl))) as Wd.
      pose proof (wf_errs_more b 0 _ [e1; e2] Wd) as We. vsin We. rewrite <- app_assoc. exact We. }
    destruct (add_error_ok s6 (bs "Failed to set execution context for coroutine.") (wf_live _ _ _ W6)) as [e3 Ee3].
    rewrite (bind_run _ _ _ _ _ Ee3). eexists _, _. split; [reflexivity|]. split; [apply wf_errs; auto|discriminate].
Qed.

Lemma h_op_coroutine_create : hoare (A true 0 [] []) (op_coroutine_create host) (fun _ => okx 0).
Proof.
  unfold op_coroutine_create. hs. hs.
  match goal with |- context[if ?z <? 0 then _ else _] => rename z into argc end.
  destruct (Z.ltb_spec argc 0); [apply okx_of; he|].
  intros s Hs. destruct (wf_live _ _ _ (proj1 Hs)) as [c Hc]. rewrite (bind_run _ _ _ _ _ (cur_ctx_ok _ _ Hc)).
  cbv zeta. destruct (Z.ltb_spec (k_size (c_stack c)) argc).
  { apply (okx_of true 0 (add_error _)); auto. he. }
  assert (kwf (c_stack c)) as K by (eapply w_stk; eauto; apply Hs).
  destruct (copy_args_plain (c_stack c) argc (zseq 0 (Z.to_nat argc))) as [args Ea]; auto; [intros i I; apply In_zseq in I; lia|].
  unfold mbind at 1, lift. rewrite Ea. revert s Hs Hc.
  match goal with |- forall s, A true 0 [] [] s -> _ -> match ?m s with _ => _ end =>
    assert (hoare (A true 0 [] []) m (fun _ => okx 0)) as HK; [|intros s Hs _; exact (HK s Hs)] end.
  hs. hs. eapply h_bind; [apply h_push_slot|]. intro out. cbv beta. apply h_self. intros s0 Hs0.
  destruct (wf_new_ctx _ _ (proj1 Hs0)) as [W1 Lp]. set (ci := zlen (v_ctxs s0)) in *.
  intros s ->. unfold mbind at 1, modify at 1.
  assert (A true ci [out] [] (set_ctxs (v_ctxs s0 ++ [Some ctx_init]) s0)) as H1.
  { split; [exact W1|]. split; [|constructor]. destruct Hs0 as (_ & F & _). inversion F as [|? ? F1 _]; subst.
    constructor; [|constructor]. destruct F1 as (k & (d & Hd & Hk) & R). exists k. split; [|exact R].
    exists d. split; [|exact Hk]. vs. rewrite znth_app_l; [exact Hd|apply znth_some_range in Hd; lia]. }
  destruct (coroutine_object_run true _ ci out H1) as (okb & s2 & E2 & W2 & C2).
  - lia.
  - vs. destruct (wf_live _ _ _ (proj1 Hs0)) as [d Hd]. apply znth_some_range in Hd. unfold ci. lia.
  - vs. rewrite znth_app_r by (unfold ci; lia). unfold ci. rewrite Z.sub_diag. reflexivity.
  - rewrite (bind_run _ _ _ _ _ E2). destruct okb; [|cbn; exists true; split; auto].
    destruct (C2 eq_refl) as (c2 & Hc2 & P2).
    assert (ci <> 0) as Nci by lia.
    destruct (push_context_run true 0 s2 ci c2 W2 Nci Hc2 P2) as [E3 W3]. rewrite (bind_run _ _ _ _ _ E3).
    match type of W3 with wf _ _ ?t => remember t as s3 eqn:Es3 end.
    assert (v_cur s3 = ci) as C3 by (subst s3; reflexivity).
    assert (A true 0 [] [] s3) as H3 by (split; auto).
    match goal with |- context[mbind (push ?v) _ s3] => destruct (push_run_cur true 0 s3 v H3) as (s4 & E4 & H4 & C4) end. rewrite (bind_run _ _ _ _ _ E4).
    destruct (push_all_run_cur true 0 args s4 H4) as (s5 & E5 & H5 & C5). rewrite (bind_run _ _ _ _ _ E5).
    destruct (push_run_cur true 0 s5 (vint argc) H5) as (s6 & E6 & H6 & C6). unfold push_int. rewrite (bind_run _ _ _ _ _ E6).
    destruct (wf_live _ _ _ (proj1 H6)) as [d Hd]. replace (v_cur s6) with ci in Hd by congruence.
    rewrite (bind_run _ _ _ _ _ (get_ctx_ok _ _ _ Hd)). rewrite (bind_run _ _ _ _ _ (put_ctx_ok _ _ _ _ Hd)).
    match goal with |- match mbind ?m ?k ?t with _ => _ end =>
      assert (hoare (A true 0 [] []) (mbind m k) (fun _ => okx 0)) as HK;
      [|apply HK; split; [apply wf_put_ctx with d; auto; apply H6|auto]] end.
    eapply h_bind; [apply h_op_call|]. intro. apply okx_all. intro. apply h_pop_context.
Qed.
End Call.
