(** * VmInv: the basic operations keep the VM well-formed *)
From Verif Require Import Base.
From Verif Require Export VmSpec TextProofs StackProofs ObjsProofs VmModel.

(** ** Contexts *)

Lemma chain_live cs i l : chain cs i l -> exists c, znth cs i = Some (Some c).
Proof. destruct 1; eauto. Qed.

Lemma chain_in cs i l : chain cs i l -> forall j, In j l -> exists c, znth cs j = Some (Some c).
Proof. induction 1 as [c H1 H2|i c p l N H1 H2 C IH NI]; intros j [<-|J]; eauto; try contradiction. Qed.

Lemma chain_head cs i l : chain cs i l -> In i l.
Proof. destruct 1; left; reflexivity. Qed.

Lemma chain_parent cs i l : chain cs i l -> forall j c, In j l -> j <> 0 -> znth cs j = Some (Some c) ->
  exists p, c_parent c = Some p /\ In p l.
Proof.
  induction 1 as [c0 H1 H2|i c0 p l N H1 H2 C IH NI]; intros j c [<-|J] Nj Hj.
  - congruence.
  - contradiction.
  - exists p. rewrite H1 in Hj. inversion Hj; subst. split; auto. right. eapply chain_head; eauto.
  - destruct (IH j c J Nj Hj) as (q & Q & I). exists q. split; auto. right; auto.
Qed.

Lemma chain_ext cs cs' i l : chain cs i l ->
  (forall j c, In j l -> znth cs j = Some (Some c) -> exists c', znth cs' j = Some (Some c') /\ c_parent c' = c_parent c) ->
  chain cs' i l.
Proof.
  induction 1 as [c0 H1 H2|i c0 p l N H1 H2 C IH NI]; intro E.
  - destruct (E 0 c0) as (c' & A & B); [left; auto|auto|]. apply (ch_root _ c'); congruence.
  - destruct (E i c0) as (c' & A & B); [left; auto|auto|].
    apply (ch_cons _ i c' p); auto; [congruence|]. apply IH. intros j c J. apply E. right; auto.
Qed.

Lemma wf_live b x s : wf b x s -> live_ctx s (v_cur s).
Proof. intro W. destruct (w_chain _ _ _ W) as (l & C & _). destruct (chain_live _ _ _ C) as [c H]. exists c; auto. Qed.

Lemma wf_at b x s : wf b x s -> exists k, at_stack s k /\ kwf k.
Proof.
  intro W. destruct (wf_live _ _ _ W) as [c H]. exists (c_stack c). split; [exists c; auto|].
  eapply w_stk; eauto.
Qed.

Lemma wf_kwf b x s k : wf b x s -> at_stack s k -> kwf k.
Proof. intros W (c & H & <-). eapply w_stk; eauto. Qed.

(** ** Changes of state that keep the invariant *)

Lemma wf_errs b x s e : wf b x s -> wf b x (set_errs (v_errs s ++ [e]) s).
Proof. intros []. split; auto. intros _. apply has_errors_app. Qed.

Lemma wf_errs_more b x s es : wf b x s -> wf b x (set_errs (v_errs s ++ es) s).
Proof.
  intro W. destruct W. split; auto. intro B. specialize (w_err B). unfold has_errors in *. vs.
  destruct (v_errs s); [discriminate|]. reflexivity.
Qed.

Lemma znth_upd_cur f s c j : znth (v_ctxs s) (v_cur s) = Some (Some c) ->
  znth (v_ctxs (upd_cur f s)) j = if j =? v_cur s then Some (Some (f c)) else znth (v_ctxs s) j.
Proof.
  intro H. unfold upd_cur. rewrite H. vs. destruct (Z.eqb_spec j (v_cur s)) as [->|N].
  - apply znth_zupd_same. apply (znth_some_range _ _ _ H).
  - apply znth_zupd_other. auto.
Qed.

Lemma upd_cur_objs f s : v_objs (upd_cur f s) = v_objs s /\ v_strs (upd_cur f s) = v_strs s /\
  v_byhash (upd_cur f s) = v_byhash s /\ v_errs (upd_cur f s) = v_errs s /\
  v_static (upd_cur f s) = v_static s /\ v_smask (upd_cur f s) = v_smask s /\
  v_code (upd_cur f s) = v_code s /\ v_cmask (upd_cur f s) = v_cmask s /\
  v_hlist (upd_cur f s) = v_hlist s /\ v_corotype (upd_cur f s) = v_corotype s /\
  v_exttypes (upd_cur f s) = v_exttypes s /\ v_extfuncs (upd_cur f s) = v_extfuncs s /\
  v_gcpass (upd_cur f s) = v_gcpass s.
Proof. unfold upd_cur. destruct (znth _ _) as [[c|]|]; vs; repeat split. Qed.

Lemma wf_upd_cur b x s f c : wf b x s -> znth (v_ctxs s) (v_cur s) = Some (Some c) ->
  c_parent (f c) = c_parent c -> c_obj (f c) = c_obj c -> kwf (c_stack (f c)) ->
  wf b x (upd_cur f s).
Proof.
  intros W H P O K. pose proof (znth_upd_cur f s c) as Z. specialize (fun j => Z j H).
  destruct (upd_cur_objs f s) as (E1 & E2 & E3 & E4 & E5 & E6 & E7 & E8 & E9 & E10 & E11 & E12 & E13).
  destruct W. split; unfold get_obj, get_str_entry, has_errors in *; rewrite ?E1, ?E2, ?E3, ?E4, ?E5, ?E6, ?E7, ?E8, ?E9, ?E10, ?E11, ?E12, ?E13; auto.
  - destruct w_chain as (l & C & I). exists l. rewrite upd_cur_cur. split.
    + eapply chain_ext; [exact C|]. intros j d J D. rewrite Z. destruct (Z.eqb_spec j (v_cur s)) as [->|N].
      * exists (f c). split; auto. congruence.
      * exists d. auto.
    + intros j d D Q. rewrite Z in D. destruct (Z.eqb_spec j (v_cur s)) as [->|N].
      * inversion D; subst. apply (I _ c); congruence.
      * eapply I; eauto.
  - intros j d D. rewrite Z in D. destruct (j =? v_cur s); [inversion D; subst; auto|eauto].
  - intros d D. rewrite Z in D. destruct (Z.eqb_spec 0 (v_cur s)) as [Q|Q]; [|eauto].
    inversion D; subst. rewrite O. apply w_root. rewrite Q. auto.
  - intros j d N X D. rewrite Z in D. destruct (Z.eqb_spec j (v_cur s)) as [->|Q]; [|eauto].
    inversion D; subst. rewrite O. eapply w_co1; eauto.
  - intros id o G Ex. destruct (w_co2 id o G Ex) as (i & d & A & B & B' & C & D). exists i.
    rewrite Z. destruct (Z.eqb_spec i (v_cur s)) as [->|Q]; [|exists d; auto].
    exists (f c). rewrite H in C. inversion C; subst. sp; auto. congruence.
Qed.

Lemma wf_with_stack b x s k : wf b x s -> kwf k -> wf b x (with_stack k s).
Proof.
  intros W K. destruct (wf_live _ _ _ W) as [c H]. unfold with_stack. eapply wf_upd_cur; eauto.
Qed.

Lemma wf_interned b x s t i s' : wf b x s -> str_wf (v_strs s') (v_byhash s') -> interned s t i s' -> wf b x s'.
Proof.
  intros W S [(e & E & Et & ->)|[(t' & bh & -> & N & R & G & _)|(-> & (e & ->) & _)]]; auto.
  - destruct W. split; auto. intros j e Hj. unfold get_str_entry in Hj. vsin Hj. rewrite G in Hj.
    destruct (j =? i); [inversion Hj; subst; cbn; vs; lia|]. apply w_sgc in Hj. auto.
  - apply wf_errs. auto.
Qed.

Lemma new_obj_wf b pass i : 0 <= pass -> owf b pass i (new_obj i).
Proof. intro H. split; cbn; auto; unfold W32; lia. Qed.

Lemma wf_created b x s i s' : wf b x s -> created s i s' -> wf b x s'.
Proof.
  intros W [(t & n & -> & T & N & R & G)|(-> & (e & ->) & _)]; [|apply wf_errs; auto].
  destruct W. split; unfold get_obj in *; vs; auto.
  - intros j o Hj. rewrite G in Hj. destruct (Z.eqb_spec j i) as [->|Q]; [|auto].
    inversion Hj; subst. apply new_obj_wf. lia.
  - intros j c Nj Xj Hj. destruct (w_co1 j c Nj Xj Hj) as (id & o & A & B & C & D). exists id, o. sp; auto.
    rewrite G. destruct (Z.eqb_spec id i) as [->|]; auto. congruence.
  - intros id o Ho Ex. rewrite G in Ho. destruct (Z.eqb_spec id i) as [->|]; [|eauto].
    inversion Ho; subst. cbn in Ex. destruct w_corotype as [Q _]. congruence.
  - intro j. rewrite w_hlist. split; intros (o & Ho & Q).
    + exists o. split; auto. rewrite G. destruct (Z.eqb_spec j i) as [->|]; auto. congruence.
    + rewrite G in Ho. destruct (Z.eqb_spec j i) as [->|]; eauto.
      inversion Ho; subst. cbn in Q. lia.
Qed.

(** Overwriting an object, same handles and external data. *)
Lemma wf_put_obj b x s i o o' : wf b x s -> get_obj s i = Some o -> owf b (v_gcpass s) i o' ->
  o_ext o' = o_ext o -> o_data o' = o_data o -> o_handles o' = o_handles o -> wf b x (put_obj i o' s).
Proof.
  intros W Ho O Ex Da Ha. destruct (put_obj_wf s i o o' (w_tab _ _ _ W) Ho) as [T G].
  unfold get_obj in *. destruct W. split; unfold get_obj in *; auto.
  - intros j p Hj. rewrite G in Hj. destruct (Z.eqb_spec j i) as [->|]; [inversion Hj; subst; auto|auto].
  - intros j c Nj Xj Hj. destruct (w_co1 j c Nj Xj Hj) as (id & p & A & B & C & D). exists id.
    rewrite G. destruct (Z.eqb_spec id i) as [->|]; [|exists p; auto].
    assert (p = o) by congruence. subst p. exists o'. sp; auto; [rewrite Ex|rewrite Da]; auto.
  - intros id p Hp E. rewrite G in Hp. destruct (Z.eqb_spec id i) as [->|]; [|eauto].
    inversion Hp; subst. rewrite Ex in E. destruct (w_co2 _ _ Ho E) as (j & c & A & B & C). exists j, c. rewrite Da. auto.
  - intro j. unfold put_obj. vs. rewrite w_hlist. change (v_objs (put_obj i o' s)) with (v_objs (put_obj i o' s)).
    split; intros (p & Hp & Q).
    + rewrite G. destruct (Z.eqb_spec j i) as [->|]; [|eauto]. exists o'. split; auto. congruence.
    + rewrite G in Hp. destruct (Z.eqb_spec j i) as [->|]; [|eauto]. inversion Hp; subst. exists o. split; auto. congruence.
Qed.

Lemma wf_static_set b x s st : wf b x s -> zlen st = zlen (v_static s) -> wf b x (set_static st s).
Proof. intros [] E. split; auto. vs. rewrite E. auto. Qed.
Lemma wf_gccount b x s n : wf b x s -> wf b x (set_gccount n s).
Proof. intros []. split; auto. Qed.
Lemma wf_newcount b x s n : wf b x s -> wf b x (set_newcount n s).
Proof. intros []. split; auto. Qed.
Lemma wf_left b x s n : wf b x s -> wf b x (set_left n s).
Proof. intros []. split; auto. Qed.
Lemma wf_cleanups b x s n : wf b x s -> wf b x (set_cleanups n s).
Proof. intros []. split; auto. Qed.

(** ** Assertions and triples

    [A b x L O]: well-formed, the slot indices [L] lie inside the current
    stack buffer, the objects [O] exist. *)

Definition slot_ok (s : vm) (i : Z) : Prop := exists k, at_stack s k /\ 0 <= i < zlen (k_vals k).
Definition obj_live (s : vm) (i : Z) : Prop := exists o, get_obj s i = Some o.
Definition A (b : bool) (x : Z) (L O : list Z) (s : vm) : Prop :=
  wf b x s /\ Forall (slot_ok s) L /\ Forall (obj_live s) O.

Lemma h_eq {T} (P : vm -> Prop) s0 (m : M T) Q : P s0 -> hoare P m Q -> hoare (fun s => s = s0) m Q.
Proof. intros H Hm s ->. apply Hm. auto. Qed.

Lemma h_self {T} (k : vm -> M T) (P : vm -> Prop) Q :
  (forall s0, P s0 -> hoare (fun s => s = s0) (k s0) Q) -> hoare P (mbind self k) Q.
Proof. apply (h_gets_bind (fun s => s)). Qed.

Lemma h_lift_ok {T B} (r : res T) v (k : T -> M B) P Q : r = Ok v -> hoare P (k v) Q -> hoare P (mbind (lift r) k) Q.
Proof. intros -> H s Hs. cbn. apply H. auto. Qed.

Lemma h_weak {T} P (m : M T) b x L O L' O' :
  hoare P m (fun _ => A b x L O) -> incl L' L -> incl O' O -> hoare P m (fun _ => A b x L' O').
Proof.
  intros H IL IO. eapply h_post; [exact H|]. intros _ s (W & F & G). split; [auto|].
  split; eapply incl_Forall; eauto.
Qed.
Lemma h_nil {T} P (m : M T) b x L O :
  hoare P m (fun _ => A b x L O) -> hoare P m (fun _ => A b x [] []).
Proof. intro H. eapply h_weak; eauto using incl_nil_l. Qed.

(** A computation that always succeeds and keeps the slots and objects. *)
Lemma h_run {T} b x L O (m : M T) (Q : T -> vm -> Prop) :
  (forall s, A b x L O s -> exists r s', m s = Ok (r, s') /\ Q r s') -> hoare (A b x L O) m Q.
Proof. intros H s Hs. destruct (H s Hs) as (r & s' & E & R). rewrite E. auto. Qed.

Lemma slot_ok_same s s' : v_ctxs s' = v_ctxs s -> v_cur s' = v_cur s -> forall i, slot_ok s i -> slot_ok s' i.
Proof. intros E1 E2 i (k & (c & H & E) & R). exists k. split; auto. exists c. rewrite E1, E2. auto. Qed.

Lemma A_errs b x L O s e : A b x L O s -> A b x L O (set_errs (v_errs s ++ [e]) s).
Proof. intros (W & F & G). split; [apply wf_errs; auto|]. split; auto. Qed.
Lemma A_errs_more b x L O s e : A b x L O s -> A b x L O (set_errs (v_errs s ++ e) s).
Proof. intros (W & F & G). split; [apply wf_errs_more; auto|]. split; auto. Qed.

(** Replacing the stack by one with at least as large a buffer. *)
Lemma A_with_stack b x L O s k k' : A b x L O s -> at_stack s k -> kwf k' -> zlen (k_vals k) <= zlen (k_vals k') ->
  A b x L O (with_stack k' s).
Proof.
  intros (W & F & G) At K Le. split; [apply wf_with_stack; auto|]. split.
  - eapply Forall_impl; [|exact F]. intros i (k0 & (c & H & E) & R). exists k'.
    split; [eapply with_stack_at; eauto|]. destruct At as (c' & H' & E'). replace c' with c in * by congruence. subst. lia.
  - eapply Forall_impl; [|exact G]. intros i [o Ho]. exists o. unfold get_obj, with_stack in *.
    rewrite (proj1 (upd_cur_objs _ s)). auto.
Qed.

Lemma A_slot b x L O s i : A b x L O s -> slot_ok s i -> A b x (i :: L) O s.
Proof. intros (W & F & G) H. split; [auto|]. split; auto. Qed.
Lemma A_obj b x L O s i : A b x L O s -> obj_live s i -> A b x L (i :: O) s.
Proof. intros (W & F & G) H. split; [auto|]. split; auto. Qed.

Lemma h_add_error b x L O m : hoare (A b x L O) (add_error m) (fun _ => A b x L O).
Proof.
  apply h_run. intros s Hs. destruct (add_error_ok s m (wf_live _ _ _ (proj1 Hs))) as [e E].
  eexists _, _. split; [exact E|]. apply A_errs. auto.
Qed.

Lemma h_get_slot b x L O i : In i L -> hoare (A b x L O) (get_slot i) (fun _ => A b x L O).
Proof.
  intro I. apply h_run. intros s Hs. pose proof Hs as (W & F & G). rewrite Forall_forall in F.
  destruct (F i I) as (k & At & R). destruct (get_slot_ok s k i At R) as (v & _ & E). eauto.
Qed.

Lemma h_set_slot b x L O i v : In i L -> hoare (A b x L O) (set_slot i v) (fun _ => A b x L O).
Proof.
  intro I. apply h_run. intros s Hs. pose proof Hs as (W & F & G). rewrite Forall_forall in F.
  destruct (F i I) as (k & At & R). rewrite (set_slot_ok s k i v At R). eexists _, _. split; [reflexivity|].
  eapply A_with_stack; eauto.
  - apply poke_wf. eapply wf_kwf; eauto.
  - cbn. rewrite zlen_zupd. lia.
Qed.

Lemma h_push_slot b x L O : hoare (A b x L O) push_slot (fun i => A b x (i :: L) O).
Proof.
  apply h_run. intros s Hs. pose proof Hs as (W & F & G). destruct (wf_at _ _ _ W) as (k & At & K).
  pose proof (kwf_cap _ K) as C. pose proof (kw_len _ K) as Ln. pose proof (kw_size _ K) as Sz.
  destruct (room s k) eqn:R.
  - rewrite (push_slot_room s k At K R). eexists _, _. split; [reflexivity|].
    pose proof (grown_wf s k K R) as Kg. pose proof (kw_size _ Kg) as Sg. rewrite grown_size in Sg. pose proof (kw_len _ Kg) as Lg.
    apply A_slot.
    + eapply A_with_stack; eauto. unfold grown. destruct (Z.eqb_spec (k_size k) (k_cap k)); cs; [|lia].
      pose proof (contents_len _ K) as CL. unfold contents in CL. rewrite zlen_app, CL, zlen_repeat. lia.
    + exists (grown k). split; [eapply with_stack_at; eauto|]. lia.
  - destruct (push_slot_full s k At K R) as [e E]. eexists _, _. split; [exact E|].
    apply A_slot; [apply A_errs; auto|]. exists k. split; [|lia]. destruct At as (c & H & Q). exists c. auto.
Qed.

Lemma h_push b x L O v : hoare (A b x L O) (push v) (fun _ => A b x L O).
Proof.
  unfold push. eapply h_bind; [apply h_push_slot|]. intro i.
  eapply h_weak; [apply h_set_slot; left; reflexivity| |apply incl_refl]. apply incl_tl, incl_refl.
Qed.

Lemma h_pop b x L O : hoare (A b x L O) pop (fun _ => A b x L O).
Proof.
  apply h_run. intros s Hs. pose proof Hs as (W & F & G). destruct (wf_at _ _ _ W) as (k & At & K).
  pose proof (kw_size _ K) as Sz. destruct (Z.eq_dec (k_size k) 0) as [E|E].
  - destruct (pop_empty s k At K E) as (e & v & P). eexists _, _. split; [exact P|]. apply A_errs; auto.
  - assert (contents k <> []) as N.
    { intro Q. pose proof (contents_len _ K) as CL. rewrite Q, zlen_nil in CL. lia. }
    destruct (exists_last N) as (st & v & Q). destruct (pop_run s k st v At K Q) as (P & K' & _).
    eexists _, _. split; [exact P|]. eapply A_with_stack; eauto. cbn. lia.
Qed.

Lemma h_pop_n b x L O n : 0 <= n -> hoare (A b x L O) (pop_n n) (fun _ => A b x L O).
Proof.
  intro Hn. apply h_run. intros s Hs. pose proof Hs as (W & F & G). destruct (wf_at _ _ _ W) as (k & At & K).
  pose proof (kw_size _ K) as Sz. destruct (Z_le_gt_dec n (k_size k)) as [E|E].
  - rewrite (pop_n_ok s k n At K) by lia. eexists _, _. split; [reflexivity|].
    eapply A_with_stack; eauto; [apply shrunk_wf; auto|cbn; lia].
  - destruct (pop_n_under s k n At K) as [e P]; [lia|]. eexists _, _. split; [exact P|].
    eapply A_with_stack with (k := k); [apply A_errs; auto| |apply shrunk_wf; auto; lia|cbn; lia].
    destruct At as (c & H & Q). exists c. auto.
Qed.

Lemma h_peek_idx b x L O i : hoare (A b x L O) (peek_idx i) (fun j => A b x (j :: L) O).
Proof.
  apply h_run. intros s Hs. pose proof Hs as (W & F & G). destruct (wf_at _ _ _ W) as (k & At & K).
  rewrite (peek_idx_ok s k i At). eexists _, _. split; [reflexivity|]. apply A_slot; auto.
  exists k. split; auto. rewrite (kw_len _ K). apply land_mask. auto.
Qed.

Lemma h_peek b x L O i : hoare (A b x L O) (peek i) (fun _ => A b x L O).
Proof.
  apply h_run. intros s Hs. pose proof Hs as (W & F & G). destruct (wf_at _ _ _ W) as (k & At & K).
  destruct (peek_ok s k i At K) as (v & _ & E). eauto.
Qed.

Lemma h_stack_size b x L O : hoare (A b x L O) stack_size (fun _ => A b x L O).
Proof.
  apply h_run. intros s Hs. pose proof Hs as (W & F & G). destruct (wf_at _ _ _ W) as (k & At & K).
  rewrite (stack_size_ok s k At). eauto.
Qed.

Lemma h_get_ip b x L O : hoare (A b x L O) get_ip (fun _ => A b x L O).
Proof.
  apply h_run. intros s Hs. destruct (wf_live _ _ _ (proj1 Hs)) as [c H].
  unfold get_ip. rewrite (cur_ctx_run _ _ _ H). eexists _, _. split; [reflexivity|]. auto.
Qed.

Lemma A_upd_cur b x L O s f c : A b x L O s -> znth (v_ctxs s) (v_cur s) = Some (Some c) ->
  c_parent (f c) = c_parent c -> c_obj (f c) = c_obj c -> c_stack (f c) = c_stack c ->
  A b x L O (upd_cur f s).
Proof.
  intros (W & F & G) H P Ob K. split; [|split].
  - eapply wf_upd_cur; eauto. rewrite K. eapply w_stk; eauto.
  - eapply Forall_impl; [|exact F]. intros i (k & (c' & H' & E) & R). exists k. split; auto.
    exists (f c). rewrite upd_cur_cur, (upd_cur_znth _ _ _ H). split; auto. rewrite K. congruence.
  - eapply Forall_impl; [|exact G]. intros i [o Ho]. exists o. unfold get_obj in *.
    rewrite (proj1 (upd_cur_objs f s)). auto.
Qed.

Lemma h_set_ip b x L O i : hoare (A b x L O) (set_ip i) (fun _ => A b x L O).
Proof.
  apply h_run. intros s Hs. destruct (wf_live _ _ _ (proj1 Hs)) as [c H].
  unfold set_ip. rewrite mod_cur_upd by (exists c; auto). eexists _, _. split; [reflexivity|].
  eapply A_upd_cur; eauto.
Qed.

(** ** Strings, conversions, comparison *)

Lemma h_find_or_add b x L O t : is_text t -> hoare (A b x L O) (find_or_add_string t) (fun _ => A b x L O).
Proof.
  intro T. apply h_run. intros s Hs. pose proof Hs as (W & F & G).
  destruct (find_or_add_ok s t (w_str _ _ _ W) (wf_live _ _ _ W) T) as (i & s' & E & S & I).
  eexists _, _. split; [exact E|]. destruct (interned_obj _ _ _ _ I) as (I1 & I2 & I3 & _).
  split; [eapply wf_interned; eauto|]. split.
  - eapply Forall_impl; [|exact F]. apply slot_ok_same; auto.
  - eapply Forall_impl; [|exact G]. intros j [o Ho]. exists o. unfold get_obj in *. rewrite I1. auto.
Qed.

Lemma h_create_object b x L O : hoare (A b x L O) create_object (fun _ => A b x L O).
Proof.
  apply h_run. intros s Hs. pose proof Hs as (W & F & G).
  destruct (create_object_ok s (w_tab _ _ _ W) (wf_live _ _ _ W)) as (i & s' & E & C).
  eexists _, _. split; [exact E|]. pose proof (wf_created _ _ _ _ _ W C) as W'. split; auto.
  destruct C as [(t & n & -> & T & N & R & Gt)|(-> & (e & ->) & _)]; [|split; auto]. split; auto.
  eapply Forall_impl; [|exact G]. intros j [o Ho]. unfold obj_live, get_obj in *. vs. rewrite Gt.
  destruct (j =? i); eauto.
Qed.

Lemma h_to_int b x L O v : hoare (A b x L O) (to_int v) (fun _ => A b x L O).
Proof.
  unfold to_int. destruct (v_type v =? T_INT); [apply h_ret; auto|].
  destruct (v_type v =? T_FLOAT). { destruct (f_trunc _); cbn [of_opt]; [apply h_ret; auto|apply h_arith; right; reflexivity]. }
  destruct (v_type v =? T_STRING). { apply h_self. intros s0 H. destruct (get_str _ _); apply h_ret; intros s Es; rewrite Es; auto. }
  destruct (v_type v =? T_OBJ); [apply h_ret; auto|]. destruct (v_type v =? T_NIL); [apply h_ret; auto|].
  eapply h_bind; [apply h_add_error|]. intro. apply h_ret; auto.
Qed.

Lemma h_to_float b x L O v : hoare (A b x L O) (to_float v) (fun _ => A b x L O).
Proof.
  unfold to_float. destruct (v_type v =? T_INT); [apply h_ret; auto|]. destruct (v_type v =? T_FLOAT); [apply h_ret; auto|].
  destruct (v_type v =? T_STRING). { apply h_self. intros s0 H. destruct (get_str _ _); apply h_ret; intros s Es; rewrite Es; auto. }
  destruct (v_type v =? T_NIL); [apply h_ret; auto|].
  eapply h_bind; [apply h_add_error|]. intro. apply h_ret; auto.
Qed.

Lemma type_name_text t : is_text (type_name t).
Proof.
  unfold type_name. repeat destruct (_ =? _); repeat constructor; cbn; lia.
Qed.

Lemma is_text_app a b : is_text a -> is_text b -> is_text (a ++ b).
Proof. intros. apply Forall_app. auto. Qed.

Lemma value_text_text s v : is_text (value_text s v).
Proof.
  unfold value_text. destruct (_ =? T_INT); [apply i_to_str_text|]. destruct (_ =? T_FLOAT); [apply f_to_str_text|].
  apply is_text_app; [repeat constructor; cbn; lia|]. apply is_text_app; [apply type_name_text|].
  apply is_text_app; [repeat constructor; cbn; lia|]. apply is_text_app; [apply i_to_str_text|].
  repeat constructor; cbn; lia.
Qed.

Lemma null_text_text s o : str_wf (v_strs s) (v_byhash s) -> (forall t, o = Some t -> is_text t) -> is_text (null_text o).
Proof. intros _ H. destruct o; cbn [null_text]; auto. repeat constructor; cbn; lia. Qed.

Lemma h_to_string b x L O v :
  hoare (A b x L O) (to_string v) (fun r s => A b x L O s /\ is_text (null_text r)).
Proof.
  unfold to_string. destruct (v_type v =? T_STRING).
  - apply h_gets. intros s H. split; auto. apply null_text_text with s; [apply H|].
    intros t E. eapply get_str_text; eauto. apply H.
  - apply h_self. intros s0 H. apply (h_eq (A b x L O)); auto. eapply h_bind; [apply h_find_or_add, value_text_text|].
    intro i. apply h_gets. intros s Hs. split; auto. apply null_text_text with s; [apply Hs|].
    intros t E. eapply get_str_text; eauto. apply Hs.
Qed.

Lemma h_value_compare b x L O u v st : hoare (A b x L O) (value_compare u v st) (fun _ => A b x L O).
Proof.
  unfold value_compare. destruct (_ && _); [apply h_ret; auto|]. destruct (_ && _); [apply h_ret; auto|].
  destruct (v_type u =? T_NIL); [apply h_ret; auto|]. destruct (v_type v =? T_NIL); [apply h_ret; auto|].
  destruct (v_type u =? T_INT). { eapply h_bind; [apply h_to_int|]. intro. apply h_ret; auto. }
  destruct (v_type u =? T_FLOAT). { eapply h_bind; [apply h_to_float|]. intro. apply h_ret; auto. }
  destruct (v_type u =? T_STRING).
  { eapply h_bind; [apply h_to_string|]. intro a. eapply h_bind; [eapply h_pre; [apply (h_to_string b x L O)|tauto]|].
    intro c. destruct a, c; try (apply h_ret; tauto);
      (eapply h_bind; [eapply h_pre; [apply h_add_error|intros s Hs; exact (proj1 Hs)]|]; intro; apply h_ret; auto). }
  destruct (_ || _); [apply h_ret; auto|].
  eapply h_bind; [apply h_add_error|]. intro. apply h_ret; auto.
Qed.

(** ** Object entries *)

(** Strict comparison changes nothing but the error list and never stops. *)
Lemma strict_compare_run s u v : live_ctx s (v_cur s) ->
  exists r es, value_compare u v true s = Ok (r, set_errs (v_errs s ++ es) s).
Proof.
  intro Lv. assert (forall r : Z, exists r' es, ret r s = Ok (r', set_errs (v_errs s ++ es) s)) as Rt.
  { intro r. exists r, []. rewrite app_nil_r. destruct s; reflexivity. }
  assert (forall m (r : Z), exists r' es, (add_error m ;;; ret r) s = Ok (r', set_errs (v_errs s ++ es) s)) as Er.
  { intros m r. destruct (add_error_ok s m Lv) as [e E]. rewrite (bind_run _ _ _ _ _ E). exists r, [e]. reflexivity. }
  unfold value_compare. cbn [andb].
  destruct (Z.ltb_spec (v_type u) (v_type v)); [apply Rt|]. destruct (Z.ltb_spec (v_type v) (v_type u)); [apply Rt|].
  assert (v_type v = v_type u) as E by lia. 
  destruct (v_type u =? T_NIL); [apply Rt|]. rewrite E. destruct (Z.eqb_spec (v_type u) T_NIL); [apply Rt|].
  destruct (Z.eqb_spec (v_type u) T_INT) as [Q|Q].
  { unfold to_int. rewrite E, Q. cbn [Z.eqb T_INT]. apply Rt. }
  destruct (Z.eqb_spec (v_type u) T_FLOAT) as [Q2|Q2].
  { unfold to_float. rewrite E, Q2. cbn [Z.eqb T_INT T_FLOAT]. apply Rt. }
  destruct (Z.eqb_spec (v_type u) T_STRING) as [Q3|Q3].
  { unfold to_string. rewrite E, Q3. cbn [Z.eqb Pos.eqb T_STRING]. unfold mbind at 1 2, gets.
    destruct (get_str s (v_data v)), (get_str s (v_data u)); try apply Rt; apply Er. }
  destruct (_ || _); [apply Rt|apply Er].
Qed.

Lemma find_key_run key chain : forall s pos, live_ctx s (v_cur s) ->
  exists r es, find_key key chain pos s = Ok (r, set_errs (v_errs s ++ es) s) /\
    forall p, r = Some p -> pos <= p < pos + zlen chain.
Proof.
  induction chain as [|[k v] r IH]; intros s pos Lv; cbn [find_key].
  - exists None, []. rewrite app_nil_r. split; [destruct s; reflexivity|discriminate].
  - destruct (strict_compare_run s key k Lv) as (c & es & E). rewrite (bind_run _ _ _ _ _ E).
    pose proof (zlen_nonneg r). rewrite zlen_cons. destruct (c =? 0).
    + exists (Some pos), es. split; [reflexivity|]. intros p Q. inversion Q. lia.
    + destruct (IH (set_errs (v_errs s ++ es) s) (pos + 1) Lv) as (q & es' & E' & R).
      exists q, (es ++ es'). rewrite E'. vs. rewrite app_assoc. split; [reflexivity|].
      intros p Q. apply R in Q. lia.
Qed.

(** The common start of clear_entry and find_or_add_entry. *)
Lemma find_prefix b x L O s ob o key : A b x L O s -> get_obj s ob = Some o ->
  exists c r es, znth (o_buckets o) (key_bucket s key) = Some c /\
    (forall p, r = Some p -> 0 <= p < zlen c) /\
    (forall T (K : vm -> nkobj -> list (value * value) -> option Z -> M T),
      (s0 <- gets (fun s => s) ;; o <- rd_obj ob ;;
       chain <- lift (rd (o_buckets o) (key_bucket s0 key)) ;;
       found <- find_key key chain 0 ;; K s0 o chain found) s = K s o c r (set_errs (v_errs s ++ es) s)).
Proof.
  intros (W & F & G) Ho. pose proof (w_obj _ _ _ W _ _ Ho) as Ow.
  destruct (znth_in_range (o_buckets o) (key_bucket s key)) as [c Hc].
  { rewrite (ow_len _ _ _ _ Ow). apply key_bucket_range. }
  destruct (find_key_run key c s 0 (wf_live _ _ _ W)) as (r & es & E & R).
  exists c, r, es. split; [auto|]. split; [intros p Q; apply R in Q; lia|].
  intros T K. unfold mbind at 1, gets. rewrite (bind_run _ _ _ _ _ (rd_obj_ok _ _ _ Ho)).
  unfold lift at 1, rd. rewrite Hc. unfold mbind at 1. rewrite (bind_run _ _ _ _ _ E). reflexivity.
Qed.

Lemma A_put_obj b x L O s i o o' : A b x L O s -> get_obj s i = Some o -> owf b (v_gcpass s) i o' ->
  o_ext o' = o_ext o -> o_data o' = o_data o -> o_handles o' = o_handles o -> A b x L O (put_obj i o' s).
Proof.
  intros (W & F & G) Ho Ow E1 E2 E3. split; [eapply wf_put_obj; eauto|]. split; [exact F|].
  eapply Forall_impl; [|exact G]. intros j [p Hp]. unfold obj_live.
  destruct (put_obj_wf s i o o' (w_tab _ _ _ W) Ho) as [_ Gt]. rewrite Gt. destruct (j =? i); eauto.
Qed.

Lemma h_clear_entry x L O ob key : In ob O -> hoare (A true x L O) (clear_entry ob key) (fun _ => A true x L O).
Proof.
  intro I. apply h_run. intros s Hs. pose proof Hs as (W & F & G). rewrite Forall_forall in G.
  destruct (G ob I) as [o Ho]. destruct (find_prefix _ _ _ _ s ob o key Hs Ho) as (c & r & es & Hc & R & K).
  unfold clear_entry. rewrite K. pose proof (A_errs_more _ _ _ _ _ es Hs) as Hs'.
  destruct r as [p|]; [|eexists _, _; split; [reflexivity|auto]]. specialize (R p eq_refl).
  pose proof (w_obj _ _ _ W _ _ Ho) as Ow. pose proof (ow_size _ _ _ _ Ow eq_refl) as Sz.
  pose proof (zlen_concat_pos _ _ _ Hc). destruct (Z.eqb_spec (o_size o) 0); [lia|].
  rewrite (wr_obj_ok _ _ o) by exact Ho. eexists _, _. split; [reflexivity|].
  eapply A_put_obj; [exact Hs'|exact Ho| |reflexivity|reflexivity|reflexivity]. destruct Ow. split; cbn; auto.
  - rewrite zlen_zupd. auto.
  - intros _. rewrite (concat_zupd _ _ _ _ Hc). rewrite zlen_remove by auto. lia.
  - lia.
Qed.

(** Looking up without adding. *)
Lemma find_entry_run b x L O s ob o key : A b x L O s -> get_obj s ob = Some o ->
  exists r es, find_or_add_entry ob key true s = Ok (r, set_errs (v_errs s ++ es) s) /\
    forall q, r = Some q -> exists c kv, znth (o_buckets o) (fst q) = Some c /\ znth c (snd q) = Some kv.
Proof.
  intros Hs Ho. destruct (find_prefix _ _ _ _ s ob o key Hs Ho) as (c & r & es & Hc & R & K).
  unfold find_or_add_entry. rewrite K. destruct r as [p|].
  - eexists _, es. split; [reflexivity|]. intros q Q. inversion Q; subst. cbn.
    destruct (znth_in_range c p (R p eq_refl)) as [kv H]. eauto.
  - eexists _, es. split; [reflexivity|]. discriminate.
Qed.

(** [el_ok]: an element reference into object [ob]. *)
Definition el_ok (s : vm) (ob : Z) (q : Z * Z) : Prop :=
  exists o c kv, get_obj s ob = Some o /\ znth (o_buckets o) (fst q) = Some c /\ znth c (snd q) = Some kv.

Lemma h_find_entry b x L O ob key : In ob O ->
  hoare (A b x L O) (find_or_add_entry ob key true)
    (fun r s => A b x L O s /\ forall q, r = Some q -> el_ok s ob q).
Proof.
  intro I. apply h_run. intros s Hs. pose proof Hs as (W & F & G). rewrite Forall_forall in G.
  destruct (G ob I) as [o Ho]. destruct (find_entry_run _ _ _ _ s ob o key Hs Ho) as (r & es & E & R).
  eexists _, _. split; [exact E|]. split; [apply A_errs_more; auto|]. intros q Q.
  destruct (R q Q) as (c & kv & H1 & H2). exists o, c, kv. auto.
Qed.

Lemma el_get_run s ob q : el_ok s ob q -> exists v, el_get ob q s = Ok (v, s).
Proof.
  intros (o & c & kv & Ho & H1 & H2). unfold el_get. rewrite (bind_run _ _ _ _ _ (rd_obj_ok _ _ _ Ho)).
  unfold lift, rd. unfold mbind. rewrite H1, H2. unfold ret. eauto.
Qed.

Lemma h_el_get b x L O ob q : hoare (fun s => A b x L O s /\ el_ok s ob q) (el_get ob q) (fun _ => A b x L O).
Proof. intros s [Hs E]. destruct (el_get_run s ob q E) as [v R]. rewrite R. auto. Qed.

(** A lookup that may add, followed by storing into the element: exact sizes
    may be lost only together with an error. *)
Lemma h_store x L O ob key v : In ob O ->
  hoare (A true x L O)
    (p <- find_or_add_entry ob key false ;; match p with Some q => el_set ob q v | None => ret tt end)
    (fun _ s => exists b, A b x L O s).
Proof.
  intro I. intros s Hs. pose proof Hs as (W & F & G). rewrite Forall_forall in G.
  destruct (G ob I) as [o Ho]. destruct (find_prefix _ _ _ _ s ob o key Hs Ho) as (c & r & es & Hc & R & K).
  pose proof (A_errs_more _ _ _ _ _ es Hs) as Hs'. remember (set_errs (v_errs s ++ es) s) as s1 eqn:Es1.
  assert (get_obj s1 ob = Some o) as Ho1 by (subst s1; exact Ho).
  pose proof (w_obj _ _ _ (proj1 Hs') _ _ Ho1) as Ow.
  assert (find_or_add_entry ob key false s =
    match r with
    | Some p => ret (Some (key_bucket s key, p))
    | None =>
      let o1 := set_o_buckets (zupd (o_buckets o) (key_bucket s key) ((key, mkV 0 0) :: c)) o in
      let sz := u32 (o_size o + 1) in
      if (sz =? 0) || (v_maxfields s <? sz) then
        wr_obj ob (set_o_size (u32 (sz - 1)) o1) ;;;
        add_error (bs "Reached object field count limit.") ;;;
        ret None
      else
        wr_obj ob (set_o_size sz o1) ;;; ret (Some (key_bucket s key, 0))
    end s1) as E by (unfold find_or_add_entry; rewrite K; reflexivity).
  unfold mbind at 1. rewrite E. clear E K.
  assert (forall s2 o2 q c2 kv, A true x L O s2 -> get_obj s2 ob = Some o2 -> znth (o_buckets o2) (fst q) = Some c2 ->
    znth c2 (snd q) = Some kv -> exists s3, el_set ob q v s2 = Ok (tt, s3) /\ A true x L O s3) as Set_.
  { intros s2 o2 q c2 kv H2 Ho2 Hq Hkv. unfold el_set. rewrite (bind_run _ _ _ _ _ (rd_obj_ok _ _ _ Ho2)).
    unfold lift, rd. unfold mbind. rewrite Hq, Hkv. rewrite (wr_obj_ok _ _ _ _ Ho2). eexists. split; [reflexivity|].
    pose proof (w_obj _ _ _ (proj1 H2) _ _ Ho2) as Ow2.
    eapply A_put_obj; eauto. destruct Ow2. split; cbn; auto.
    - rewrite zlen_zupd. auto.
    - intros _. rewrite (concat_zupd _ _ _ _ Hq), zlen_zupd. rewrite ow_size by auto. lia. }
  destruct r as [p|].
  - unfold ret. destruct (znth_in_range c p (R p eq_refl)) as [kv Hkv].
    destruct (Set_ s1 o (key_bucket s key, p) c kv Hs' Ho1 Hc Hkv) as (s3 & E & H3). rewrite E. exists true. auto.
  - cbv zeta. remember (set_o_buckets (zupd (o_buckets o) (key_bucket s key) ((key, mkV 0 0) :: c)) o) as o1 eqn:Eo1.
    destruct (_ || _) eqn:Q.
    + rewrite (bind_run _ _ _ _ _ (wr_obj_ok _ _ _ _ Ho1)).
      match goal with |- context[mbind _ _ ?s2] => remember s2 as s2' eqn:Es2 end.
      destruct (add_error_ok s2' (bs "Reached object field count limit.")) as [e E].
      { subst s2'. apply (wf_live _ _ _ (proj1 Hs')). }
      rewrite (bind_run _ _ _ _ _ E). unfold ret. exists false.
      assert (forall P : Prop, (A false x L O (set_errs (v_errs s1 ++ [e]) s1) -> P) -> P) as Fl.
      { intros P HP. apply HP. destruct (A_errs _ _ _ _ s1 e Hs') as (W1 & F1 & G1). split; [|auto].
        destruct W1. split; auto; [intros _; apply has_errors_app|].
        intros i oi Hi. destruct (w_obj i oi Hi). split; auto. }
      apply Fl. intro Hf. subst s2'. unfold put_obj. vs.
      change (A false x L O (put_obj ob (set_o_size (u32 (u32 (o_size o + 1) - 1)) o1) (set_errs (v_errs s1 ++ [e]) s1))).
      eapply A_put_obj; [exact Hf|exact Ho1| | | |]; subst o1; auto. destruct Ow. split; cbn; auto.
      * rewrite zlen_zupd. auto.
      * discriminate.
      * apply u32_range.
    + apply orb_false_iff in Q. destruct Q as [Q1 Q2]. apply Z.eqb_neq in Q1. apply Z.ltb_ge in Q2.
      rewrite (bind_run _ _ _ _ _ (wr_obj_ok _ _ _ _ Ho1)). unfold ret.
      remember (set_o_size (u32 (o_size o + 1)) o1) as o2 eqn:Eo2.
      destruct (put_obj_wf s1 ob o o2 (w_tab _ _ _ (proj1 Hs')) Ho1) as [_ Gt].
      assert (zlen (concat (o_buckets o2)) = zlen (concat (o_buckets o)) + 1) as Zl.
      { subst o2 o1. cbn. rewrite (concat_zupd _ _ _ _ Hc), zlen_cons. lia. }
      pose proof (ow_max _ _ _ _ Ow) as Mx. assert (u32 (o_size o + 1) = o_size o + 1) as U.
      { unfold u32, W32 in *. destruct (Z.eq_dec (o_size o + 1) 4294967296) as [E|E]; [rewrite E in Q1; cbn in Q1; lia|].
        apply Z.mod_small. lia. }
      assert (A true x L O (put_obj ob o2 s1)) as H2.
      { eapply A_put_obj; eauto; subst o2 o1; auto. destruct Ow. split; cbn; auto.
        - rewrite zlen_zupd. auto.
        - intros _. rewrite ow_size in * by auto. cbn in Zl. lia.
        - rewrite U. pose proof (u32_range (o_size o + 1)) as V. rewrite U in V. exact V. }
      destruct (Set_ (put_obj ob o2 s1) o2 (key_bucket s key, 0) ((key, mkV 0 0) :: c) (key, mkV 0 0)) as (s3 & E & H3); auto.
      * rewrite Gt, Z.eqb_refl. reflexivity.
      * subst o2 o1. cbn. apply znth_zupd_same. apply (znth_some_range _ _ _ Hc).
      * rewrite E. exists true. auto.
Qed.
