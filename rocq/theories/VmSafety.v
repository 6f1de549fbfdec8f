(** * VmSafety: every instruction keeps the VM well-formed *)
From Verif Require Import Base.
From Verif Require Export VmInv.

Create HintDb vh.
Global Hint Resolve h_add_error h_get_slot h_set_slot h_push_slot h_push h_pop h_pop_n h_peek_idx h_peek
  h_stack_size h_get_ip h_set_ip h_find_or_add h_create_object h_to_int h_to_float h_value_compare h_clear_entry : vh.
Global Hint Extern 1 (In _ _) => (cbn; tauto) : vh.
Global Hint Extern 1 (0 <= u32 _) => apply u32_range : vh.
Global Hint Extern 1 (0 <= _) => lia : vh.

Ltac hs := eapply h_bind; [solve [eauto 3 with vh]|intro; cbv beta].
Ltac he := eapply h_nil; solve [eauto 3 with vh].

Lemma A_nil b x L O s : A b x L O s -> A b x [] [] s.
Proof. intros (W & _). split; auto. Qed.

Section Safety.
Variables (b : bool) (x : Z).
Notation Inv := (A b x [] []).
Notation ok m := (hoare Inv m (fun _ => Inv)).

Lemma h_push_int z : ok (push_int z).
Proof. apply h_push. Qed.
Lemma h_push_float z : ok (push_float z).
Proof. apply h_push. Qed.
Hint Resolve h_push_int h_push_float : vh.

Lemma h_push_signed z : ok (push_signed z).
Proof. unfold push_signed. destruct (in_s32 z); [he|]. apply h_arith. left. reflexivity. Qed.
Lemma h_unimplemented w t : ok (unimplemented w t).
Proof. unfold unimplemented. he. Qed.
Hint Resolve h_push_signed h_unimplemented : vh.

Lemma h_push_string t : is_text t -> ok (push_string t).
Proof. intro T. unfold push_string. hs. hs. hs. hs. he. Qed.

Lemma h_op_add : ok op_add.
Proof.
  unfold op_add. hs. hs. destruct (_ =? T_INT); [hs; he|]. destruct (_ =? T_FLOAT); [hs; he|].
  destruct (_ =? T_STRING); [|he].
  apply h_self. intros s0 H. apply (h_eq Inv); auto.
  assert (is_text (null_text (get_str s0 (v_data a0)))) as Tx.
  { apply null_text_text with s0; [apply H|]. intros t E. eapply get_str_text; eauto. apply H. }
  eapply h_bind; [apply h_to_string|]. intro r. cbv beta.
  intros s [Hs Tr]. apply h_push_string; auto. apply is_text_app; auto.
Qed.

Lemma h_op_subtract : ok op_subtract.
Proof. unfold op_subtract. hs. hs. destruct (_ =? T_INT); [hs; he|]. destruct (_ =? T_FLOAT); [hs; he|he]. Qed.

Lemma h_op_multiply : ok op_multiply.
Proof. unfold op_multiply. hs. hs. destruct (_ =? T_INT); [hs; he|]. destruct (_ =? T_FLOAT); [hs; he|he]. Qed.

Lemma h_op_divide : ok op_divide.
Proof.
  unfold op_divide. hs. hs. destruct (_ =? T_INT).
  { hs. destruct (_ || _) eqn:E; [he|]. unfold c_div. apply orb_false_iff in E. destruct E as [E1 E2].
    rewrite E1. replace ((v_int a0 =? - W31) && (a1 =? -1)) with false by (symmetry; unfold W31; lia).
    eapply h_lift_ok; [reflexivity|]. he. }
  destruct (_ =? T_FLOAT); [hs; he|he].
Qed.

Lemma h_op_modulo : ok op_modulo.
Proof.
  unfold op_modulo. hs. hs. destruct (_ =? T_INT); [|he].
  hs. destruct (_ || _) eqn:E; [he|]. unfold c_rem. apply orb_false_iff in E. destruct E as [E1 E2].
  rewrite E1. replace ((v_int a0 =? - W31) && (a1 =? -1)) with false by (symmetry; unfold W31; lia).
  eapply h_lift_ok; [reflexivity|]. he.
Qed.

Lemma h_op_negate : ok op_negate.
Proof. unfold op_negate. hs. destruct (_ =? T_INT); [he|]. destruct (_ =? T_FLOAT); he. Qed.

(** Reading code and static space through their masks. *)
Lemma masked_rd {T} (l : list T) m i : zlen l = m + 1 -> pow2 (zlen l) -> exists v, rd l (Z.land i m) = Ok v.
Proof.
  intros H P. apply rd_ok. destruct P as (e & He & E). replace m with (2 ^ e - 1) by lia. rewrite E.
  apply land_mask_range. lia.
Qed.

Lemma h_op_push_literal t : ok (op_push_literal t).
Proof.
  unfold op_push_literal. hs. hs. hs. apply h_self. intros s0 H.
  apply (h_eq (A b x [a] [])); auto. destruct (w_code _ _ _ (proj1 H)) as [E P].
  destruct (masked_rd (v_code s0) (v_cmask s0) (u32 (a0 + 1)) E P) as [w Ew].
  eapply h_lift_ok; [exact Ew|]. he.
Qed.

Lemma h_op_pop : ok op_pop.
Proof. unfold op_pop. hs. apply h_ret; auto. Qed.
Lemma h_op_popn : ok op_popn.
Proof. unfold op_popn. hs. hs. he. Qed.

Lemma h_stack_addr v : ok (stack_addr v).
Proof. unfold stack_addr. hs. apply h_ret; auto. Qed.
Hint Resolve h_stack_addr : vh.

Lemma h_op_stack_peek : ok op_stack_peek.
Proof. unfold op_stack_peek. hs. destruct (negb _); [he|]. hs. hs. he. Qed.
Lemma h_op_stack_poke : ok op_stack_poke.
Proof. unfold op_stack_poke. hs. destruct (negb _); [he|]. hs. hs. hs. hs. he. Qed.

Lemma h_op_static_peek : ok op_static_peek.
Proof.
  unfold op_static_peek. hs. destruct (negb _); [he|]. apply h_self. intros s0 H. apply (h_eq Inv); auto.
  destruct (w_static _ _ _ (proj1 H)) as [E P].
  destruct (masked_rd (v_static s0) (v_smask s0) (u32 (v_int a)) E P) as [w Ew].
  eapply h_lift_ok; [exact Ew|]. he.
Qed.

Lemma h_op_static_poke : ok op_static_poke.
Proof.
  unfold op_static_poke. hs. destruct (negb _); [he|]. hs. hs. apply h_self. intros s0 H.
  destruct (w_static _ _ _ (proj1 H)) as [E P].
  rewrite wr_ok.
  2:{ destruct P as (e & He & Q). replace (v_smask s0) with (2 ^ e - 1) by lia. rewrite Q. apply land_mask_range. lia. }
  eapply h_lift_ok; [reflexivity|]. apply h_modify. intros s ->. destruct H as (W & _). split; auto.
  apply wf_static_set; auto. apply zlen_zupd.
Qed.

Lemma h_op_push_nil : ok op_push_nil.
Proof. unfold op_push_nil. hs. hs. he. Qed.

Lemma h_op_jump : ok op_jump.
Proof. unfold op_jump. hs. hs. hs. he. Qed.
Lemma h_op_jz : ok op_jz.
Proof. unfold op_jz. hs. hs. hs. destruct (_ =? 0); [hs; hs; he|]. apply h_ret; auto. Qed.

Lemma h_op_end : ok op_end.
Proof.
  unfold op_end. hs. eapply h_bind with (R := fun _ => Inv); [|intro; hs; he].
  destruct (_ =? 0); [apply h_ret; auto|he].
Qed.

Lemma h_internal_compare : ok internal_compare.
Proof. unfold internal_compare. hs. hs. he. Qed.
Hint Resolve h_internal_compare : vh.

Lemma h_op_gt : ok op_gt. Proof. unfold op_gt. hs. he. Qed.
Lemma h_op_lt : ok op_lt. Proof. unfold op_lt. hs. he. Qed.
Lemma h_op_ge : ok op_ge. Proof. unfold op_ge. hs. he. Qed.
Lemma h_op_le : ok op_le. Proof. unfold op_le. hs. he. Qed.
Lemma h_op_eq : ok op_eq. Proof. unfold op_eq. hs. he. Qed.
Lemma h_op_ne : ok op_ne. Proof. unfold op_ne. hs. he. Qed.
Lemma h_op_eqsame : ok op_eqsame.
Proof. unfold op_eqsame. hs. hs. hs. destruct (_ =? _); hs; he. Qed.
Lemma h_op_not : ok op_not. Proof. unfold op_not. hs. hs. he. Qed.
Lemma h_op_and : ok op_and. Proof. unfold op_and. hs. hs. hs. hs. he. Qed.
Lemma h_op_or : ok op_or. Proof. unfold op_or. hs. hs. hs. hs. he. Qed.

Lemma h_op_create_object : ok op_create_object.
Proof. unfold op_create_object. hs. hs. hs. hs. he. Qed.

Lemma h_op_field_get p : ok (op_field_get p).
Proof.
  unfold op_field_get. hs. eapply h_bind with (R := fun _ => Inv).
  { destruct p; [he|]. hs. he. }
  intro ob. destruct (negb _); [he|]. apply h_self. intros s0 H.
  destruct (get_obj s0 (v_data ob)) as [o|] eqn:G; [|apply (h_eq Inv); auto; he].
  apply (h_eq (A b x [] [v_data ob])); [apply A_obj; auto; exists o; auto|].
  hs. eapply h_bind; [apply h_find_entry; cbn; auto|]. intros [q|]; cbv beta iota.
  - eapply h_bind; [eapply h_pre; [apply h_el_get|]|].
    + intros s [Hs Hq]. split; [exact Hs|]. apply Hq. reflexivity.
    + intro v. he.
  - eapply h_pre; [|intros s [Hs _]; exact Hs]. he.
Qed.

Lemma h_op_prepare_self_call : ok op_prepare_self_call.
Proof. unfold op_prepare_self_call. hs. hs. hs. hs. hs. hs. hs. hs. hs. hs. he. Qed.

Lemma h_get_obj_size v L : hoare (A b x L []) (get_obj_size v) (fun _ => A b x L []).
Proof.
  unfold get_obj_size. apply h_self. intros s0 H. destruct (obj_of_value s0 v) as [i|] eqn:E.
  - unfold obj_of_value in E. destruct (_ =? T_OBJ); [|discriminate].
    destruct (get_obj s0 (v_data v)) as [o|] eqn:G; [|discriminate]. inversion E; subst i.
    intros s ->. rewrite (bind_run _ _ _ _ _ (rd_obj_ok _ _ _ G)). cbn. auto.
  - apply (h_eq (A b x L [])); auto. hs. apply h_ret; auto.
Qed.

Lemma h_op_len : ok op_len.
Proof.
  unfold op_len. hs. hs. destruct (negb _); [he|]. eapply h_bind; [apply h_get_obj_size|]. intro. he.
Qed.

End Safety.

Lemma h_op_field_set x : hoare (A true x [] []) op_field_set (fun _ s => exists b, A b x [] [] s).
Proof.
  unfold op_field_set. hs. hs. hs.
  assert (forall m, hoare (A true x [] []) (add_error m) (fun _ s => exists b, A b x [] [] s)) as Er.
  { intro m. eapply h_post; [apply h_add_error|]. intros ? s H. exists true. exact H. }
  destruct (negb _); [apply Er|].
  apply h_self. intros s0 H. destruct (get_obj s0 (v_data a0)) as [o|] eqn:G; [|apply (h_eq (A true x [] [])); auto].
  apply (h_eq (A true x [] [v_data a0])); [apply A_obj; auto; exists o; auto|].
  eapply h_bind with (R := fun _ s => exists b, A b x [] [v_data a0] s).
  - destruct (_ =? T_NIL).
    + eapply h_post; [apply h_clear_entry; cbn; auto|]. intros ? s Hs. exists true. exact Hs.
    + apply h_store. cbn. auto.
  - intros u0 s [b Hb]. pose proof (h_push b x [] [v_data a0] a1 s Hb) as Q.
    destruct (push a1 s) as [[u s']|u]; auto. exists b. eapply A_nil; eauto.
Qed.

(** ** Switching contexts *)

Lemma znth_zupd_if {T} (l : list T) i j y z : znth l i = Some z ->
  znth (zupd l i y) j = if j =? i then Some y else znth l j.
Proof.
  intro H. destruct (Z.eqb_spec j i) as [->|N].
  - apply znth_zupd_same. apply (znth_some_range _ _ _ H).
  - apply znth_zupd_other. auto.
Qed.

(** Changing the context list and the current context only. *)
Lemma wf_ctxs b x s cs cur :
  wf b x s ->
  (forall j c', znth cs j = Some (Some c') -> exists c, znth (v_ctxs s) j = Some (Some c) /\
     c_obj c' = c_obj c /\ kwf (c_stack c')) ->
  (forall j c, znth (v_ctxs s) j = Some (Some c) -> exists c', znth cs j = Some (Some c') /\ c_obj c' = c_obj c) ->
  (exists l, chain cs cur l /\ forall i c, znth cs i = Some (Some c) -> c_parent c <> None -> In i l) ->
  wf b x (set_ctxs cs (set_cur cur s)).
Proof.
  intros W H1 H2 H3. destruct W. split; unfold get_obj, get_str_entry in *; vs; auto.
  - intros j c' Hj. destruct (H1 _ _ Hj) as (c & _ & _ & K). exact K.
  - intros c' Hj. destruct (H1 _ _ Hj) as (c & A1 & A2 & _). rewrite A2. auto.
  - intros j c' N X Hj. destruct (H1 _ _ Hj) as (c & A1 & A2 & _). rewrite A2. eapply w_co1; eauto.
  - intros id o Ho E. destruct (w_co2 _ _ Ho E) as (i & c & A1 & A2 & A3 & A4 & A5).
    destruct (H2 _ _ A4) as (c' & B1 & B2). exists i, c'. rewrite B2. auto.
Qed.

Lemma pop_context_run b x s : wf b x s ->
  (exists e, pop_context s = Ok (tt, set_errs (v_errs s ++ [e]) s)) \/
  (exists c p, znth (v_ctxs s) (v_cur s) = Some (Some c) /\ c_parent c = Some p /\ v_cur s <> 0 /\
     pop_context s = Ok (tt, set_ctxs (zupd (v_ctxs s) (v_cur s) (Some (set_c_parent None c))) (set_cur p s)) /\
     wf b x (set_ctxs (zupd (v_ctxs s) (v_cur s) (Some (set_c_parent None c))) (set_cur p s))).
Proof.
  intro W. destruct (wf_live _ _ _ W) as [c H]. destruct (w_chain _ _ _ W) as (l & C & I).
  assert (pop_context s = match c_parent c with
    | None => add_error (bs "Cannot yield out of the root context." ++ [10])
    | Some p => modify (set_cur p) ;;; put_ctx (v_cur s) (set_c_parent None c)
    end s) as Ep.
  { unfold pop_context. unfold mbind at 1, gets at 1. rewrite (bind_run _ _ _ _ _ (get_ctx_ok _ _ _ H)). reflexivity. }
  rewrite Ep. destruct (c_parent c) as [p|] eqn:P; [right|left; apply add_error_ok; exists c; auto].
  exists c, p. inversion C as [c0 H0 P0|i c0 q l' N H0 P0 C' NI]; subst.
  { rewrite <- H1 in H. congruence. }
  rewrite H in H0. inversion H0; subst c0. assert (q = p) by congruence. subst q.
  sp; auto.
  - exact (put_ctx_ok (set_cur p s) _ c _ H).
  - apply wf_ctxs; auto.
    + intros j c' Hj. rewrite (znth_zupd_if _ _ _ _ _ H) in Hj. destruct (Z.eqb_spec j (v_cur s)) as [->|Nj].
      * inversion Hj; subst. exists c. sp; auto. cs. eapply w_stk; eauto.
      * exists c'. sp; auto. eapply w_stk; eauto.
    + intros j d Hj. rewrite (znth_zupd_if _ _ _ _ _ H). destruct (Z.eqb_spec j (v_cur s)) as [->|Nj].
      * eexists. split; [reflexivity|]. assert (d = c) by congruence. subst d. reflexivity.
      * eauto.
    + exists l'. split.
      * eapply chain_ext; [exact C'|]. intros j d J D. exists d. split; auto.
        rewrite (znth_zupd_if _ _ _ _ _ H). destruct (Z.eqb_spec j (v_cur s)) as [->|]; auto. contradiction.
      * intros j d D Q. rewrite (znth_zupd_if _ _ _ _ _ H) in D. destruct (Z.eqb_spec j (v_cur s)) as [->|Nj].
        -- inversion D; subst. cbn in Q. congruence.
        -- destruct (I j d D Q) as [E|J]; [congruence|auto].
Qed.

Lemma h_pop_context b x : hoare (A b x [] []) pop_context (fun _ => A b x [] []).
Proof.
  intros s (W & _). destruct (pop_context_run b x s W) as [[e E]|(c & p & _ & _ & _ & E & W')]; rewrite E.
  - split; auto. apply wf_errs; auto.
  - split; auto.
Qed.

Lemma push_context_run b x s i c : wf b x s -> i <> 0 -> znth (v_ctxs s) i = Some (Some c) -> c_parent c = None ->
  let s' := set_cur i (set_ctxs (zupd (v_ctxs s) i (Some (set_c_parent (Some (v_cur s)) c))) s) in
  push_context i s = Ok (tt, s') /\ wf b x s'.
Proof.
  intros W N H P s'. destruct (w_chain _ _ _ W) as (l & C & I). split.
  - unfold push_context. rewrite (bind_run _ _ _ _ _ (get_ctx_ok _ _ _ H)). rewrite P.
    unfold mbind at 1, gets at 1. rewrite (bind_run _ _ _ _ _ (put_ctx_ok _ _ _ _ H)). reflexivity.
  - assert (~ In i l) as NI.
    { intro J. destruct (chain_parent _ _ _ C i c J N H) as (q & Q & _). congruence. }
    change s' with (set_ctxs (zupd (v_ctxs s) i (Some (set_c_parent (Some (v_cur s)) c))) (set_cur i s)).
    apply wf_ctxs; auto.
    + intros j c' Hj. rewrite (znth_zupd_if _ _ _ _ _ H) in Hj. destruct (Z.eqb_spec j i) as [->|Nj].
      * inversion Hj; subst. exists c. sp; auto. cs. eapply w_stk; eauto.
      * exists c'. sp; auto. eapply w_stk; eauto.
    + intros j d Hj. rewrite (znth_zupd_if _ _ _ _ _ H). destruct (Z.eqb_spec j i) as [->|Nj].
      * eexists. split; [reflexivity|]. assert (d = c) by congruence. subst d. reflexivity.
      * eauto.
    + exists (i :: l). split.
      * eapply ch_cons; [auto|apply znth_zupd_same, (znth_some_range _ _ _ H)|reflexivity| |auto].
        eapply chain_ext; [exact C|]. intros j d J D. exists d. split; auto.
        rewrite (znth_zupd_if _ _ _ _ _ H). destruct (Z.eqb_spec j i) as [->|]; auto. contradiction.
      * intros j d D Q. rewrite (znth_zupd_if _ _ _ _ _ H) in D. destruct (Z.eqb_spec j i) as [->|Nj]; [left; auto|].
        right. eauto.
Qed.

(** Overwriting instruction pointer and state of some live context. *)
Lemma wf_put_ctx b x s i c c' : wf b x s -> znth (v_ctxs s) i = Some (Some c) ->
  c_obj c' = c_obj c -> c_parent c' = c_parent c -> c_stack c' = c_stack c ->
  wf b x (set_ctxs (zupd (v_ctxs s) i (Some c')) s).
Proof.
  intros W H O P K. destruct (w_chain _ _ _ W) as (l & C & I).
  change (wf b x (set_ctxs (zupd (v_ctxs s) i (Some c')) (set_cur (v_cur s) s))).
  apply wf_ctxs; auto.
  - intros j d Hj. rewrite (znth_zupd_if _ _ _ _ _ H) in Hj. destruct (Z.eqb_spec j i) as [->|Nj].
    + inversion Hj; subst. exists c. sp; auto. rewrite K. eapply w_stk; eauto.
    + exists d. sp; auto. eapply w_stk; eauto.
  - intros j d Hj. rewrite (znth_zupd_if _ _ _ _ _ H). destruct (Z.eqb_spec j i) as [->|Nj].
    + eexists. split; [reflexivity|]. congruence.
    + eauto.
  - exists l. split.
    + eapply chain_ext; [exact C|]. intros j d J D. rewrite (znth_zupd_if _ _ _ _ _ H).
      destruct (Z.eqb_spec j i) as [->|]; eauto. exists c'. split; auto. congruence.
    + intros j d D Q. rewrite (znth_zupd_if _ _ _ _ _ H) in D. destruct (Z.eqb_spec j i) as [->|]; eauto.
      inversion D; subst. apply (I i c); auto. congruence.
Qed.

(** ** Yield, return, resume, is-finished *)

Lemma h_op_yield b x : hoare (A b x [] []) op_yield (fun _ => A b x [] []).
Proof.
  unfold op_yield. eapply h_bind; [apply h_gets with (Q := fun _ => A b x [] []); auto|]. intro i.
  destruct (_ =? 0); [he|]. hs. eapply h_bind; [apply h_pop_context|]. intro. he.
Qed.

Lemma h_op_return b x : hoare (A b x [] []) op_return (fun _ => A b x [] []).
Proof.
  unfold op_return. hs. hs. hs. hs. hs. hs. hs. hs. hs. hs.
  destruct (_ =? INVALID).
  - eapply h_bind with (R := fun _ => A b x [] []).
    { apply h_run. intros s Hs. destruct (wf_live _ _ _ (proj1 Hs)) as [c H].
      rewrite mod_cur_upd by (exists c; auto). eexists _, _. split; [reflexivity|]. eapply A_upd_cur; eauto. }
    intro. eapply h_bind; [apply h_pop_context|]. intro. he.
  - hs. he.
Qed.

(** The coroutine context behind a value of the coroutine type. *)
Lemma coroutine_ctx b s v oty : A b 0 [] [] s ->
  get_ext_type v s = Ok (oty, s) -> v_corotype s = oty ->
  exists ci c, get_ext_data v s = Ok (Some ci, s) /\ ci <> 0 /\ znth (v_ctxs s) ci = Some (Some c).
Proof.
  intros (W & _) E T. unfold get_ext_type, get_ext_data in *. unfold mbind at 1, gets in E. unfold mbind at 1, gets.
  destruct (obj_of_value s v) as [i|] eqn:Ov.
  - unfold obj_of_value in Ov. destruct (_ =? T_OBJ); [|discriminate].
    destruct (get_obj s (v_data v)) as [o|] eqn:G; [|discriminate]. inversion Ov; subst i.
    rewrite (bind_run _ _ _ _ _ (rd_obj_ok _ _ _ G)) in E. rewrite (bind_run _ _ _ _ _ (rd_obj_ok _ _ _ G)). unfold ret in *. injection E as E.
    destruct (w_co2 _ _ _ W _ _ G) as (i & c & D & N & _ & H & _); [congruence|].
    exists i, c. rewrite D. auto.
  - destruct (add_error_ok s (bs "Bad object ID in nkiVmObjectGetExternalType.") (wf_live _ _ _ W)) as [e Ee].
    rewrite (bind_run _ _ _ _ _ Ee) in E. unfold ret in E. injection E as E1 E2. destruct (w_corotype _ _ _ W) as [Q _]. congruence.
Qed.

Lemma get_ext_type_run b x s v : wf b x s -> exists oty s', get_ext_type v s = Ok (oty, s') /\
  (s' = s \/ (oty = INVALID /\ exists e, s' = set_errs (v_errs s ++ [e]) s)).
Proof.
  intro W. unfold get_ext_type. unfold mbind at 1, gets.
  destruct (obj_of_value s v) as [i|] eqn:Ov.
  - unfold obj_of_value in Ov. destruct (_ =? T_OBJ); [|discriminate].
    destruct (get_obj s (v_data v)) as [o|] eqn:G; [|discriminate]. inversion Ov; subst i.
    rewrite (bind_run _ _ _ _ _ (rd_obj_ok _ _ _ G)). eexists _, _. split; [reflexivity|]. auto.
  - destruct (add_error_ok s (bs "Bad object ID in nkiVmObjectGetExternalType.") (wf_live _ _ _ W)) as [e Ee].
    rewrite (bind_run _ _ _ _ _ Ee). eexists _, _. split; [reflexivity|]. right. eauto.
Qed.

(** The check shared by resume and is-finished. *)
Lemma h_coroutine {T} b v msg (K : Z -> ctx -> M T) (Q : T -> vm -> Prop) (d : T) :
  (forall ci c, hoare (fun s => A b 0 [] [] s /\ ci <> 0 /\ znth (v_ctxs s) ci = Some (Some c)) (K ci c) Q) ->
  hoare (A b 0 [] []) (add_error msg) (fun _ => Q d) ->
  hoare (A b 0 [] [])
   (ty <- gets v_corotype ;; oty <- get_ext_type v ;;
    if negb (ty =? oty) then add_error msg ;;; ret d
    else
      d <- get_ext_data v ;;
      match d with
      | None => mub UbNull
      | Some ci => c <- get_ctx ci ;; K ci c
      end) Q.
Proof.
  intros HK HE s Hs. unfold mbind at 1, gets at 1.
  destruct (get_ext_type_run _ _ s v (proj1 Hs)) as (oty & s' & E & S). rewrite (bind_run _ _ _ _ _ E).
  destruct (Z.eqb_spec (v_corotype s) oty) as [Q1|Q1]; cbn [negb].
  - destruct S as [->|(-> & _)]; [|destruct (w_corotype _ _ _ (proj1 Hs)); congruence].
    destruct (coroutine_ctx b s v oty Hs E Q1) as (ci & c & D & N & H). rewrite (bind_run _ _ _ _ _ D).
    rewrite (bind_run _ _ _ _ _ (get_ctx_ok _ _ _ H)). apply HK. auto.
  - assert (A b 0 [] [] s') as Hs'. { destruct S as [->|(_ & e & ->)]; auto. apply A_errs; auto. }
    specialize (HE s' Hs'). unfold mbind. destruct (add_error msg s') as [[u s2]|u]; auto.
Qed.

Lemma h_op_is_finished b : hoare (A b 0 [] []) op_is_finished (fun _ => A b 0 [] []).
Proof.
  unfold op_is_finished. hs.
  eapply h_post with (Q' := fun _ => A b 0 [] []); [|auto].
  pose proof (h_coroutine b a (bs "Tried to check for a finished coroutine with the wrong object type.")
    (fun ci c => push (vint (b2z (c_state c =? CO_FINISHED)))) (fun _ => A b 0 [] []) tt) as H.
  intros s Hs. specialize (H ltac:(intros ci c; eapply h_pre; [apply h_push|intros ? X; exact (proj1 X)]) ltac:(he) s Hs).
  clear - H. unfold mbind, gets in *. destruct (get_ext_type a s) as [[oty s']|u]; auto.
  destruct (negb _); auto. destruct (add_error _ s') as [[[] s2]|]; auto.
Qed.

Lemma h_op_resume b : hoare (A b 0 [] []) op_resume (fun _ => A b 0 [] []).
Proof.
  unfold op_resume. hs. hs.
  pose proof (h_coroutine b a0 (bs "Tried to resume something that is not a coroutine.")
    (fun ci c =>
      if c_state c =? CO_INVALID then add_error (bs "Tried to resume an invalid coroutine.")
      else if c_state c =? CO_FINISHED then push vnil
      else
        match c_parent c with
        | Some _ => add_error (bs "Tried to recursively resume an active coroutine.")
        | None =>
          push_context ci ;;;
          if c_state c =? CO_CREATED then
            c' <- get_ctx ci ;; put_ctx ci (set_c_state CO_RUNNING c')
          else if c_state c =? CO_RUNNING then push a
          else ret tt
        end) (fun _ => A b 0 [] []) tt) as H.
  lapply H; clear H.
  2:{
    intros ci c. destruct (_ =? CO_INVALID); [eapply h_pre; [apply h_add_error|intros ? X; exact (proj1 X)]|].
    destruct (_ =? CO_FINISHED); [eapply h_pre; [apply h_push|intros ? X; exact (proj1 X)]|].
    destruct (c_parent c) eqn:P; [eapply h_pre; [apply h_add_error|intros ? X; exact (proj1 X)]|].
    intros s1 ((W & _) & N & Hc).
    destruct (push_context_run b 0 s1 ci c W N Hc P) as [E W']. rewrite (bind_run _ _ _ _ _ E).
    match type of W' with wf _ _ ?t => remember t as s2 eqn:Es2 end.
    assert (A b 0 [] [] s2) as H2 by (split; auto).
    destruct (_ =? CO_CREATED).
    - assert (znth (v_ctxs s2) ci = Some (Some (set_c_parent (Some (v_cur s1)) c))) as Hc2.
      { subst s2. vs. apply znth_zupd_same, (znth_some_range _ _ _ Hc). }
      rewrite (bind_run _ _ _ _ _ (get_ctx_ok _ _ _ Hc2)). rewrite (put_ctx_ok _ _ _ _ Hc2).
      split; auto. eapply wf_put_ctx; eauto.
    - destruct (_ =? CO_RUNNING); [apply h_push; auto|]. exact H2. }
  intro H.
  intros s Hs. specialize (H ltac:(he) s Hs).
  clear - H. unfold mbind at 1, gets at 1. unfold mbind at 1, gets at 1 in H.
  unfold mbind at 1 in H. unfold mbind at 1. destruct (get_ext_type a0 s) as [[oty s']|u]; auto.
  destruct (negb _); auto. unfold mbind in H at 1. destruct (add_error _ s') as [[[] s2]|]; auto.
Qed.
