(** * HostProofs: API calls keep the VM well-formed *)
From Verif Require Import Base.
From Verif Require Export VmStep HostModel.

Lemma obj_of_value_some s v i : obj_of_value s v = Some i -> v_type v = T_OBJ /\ i = v_data v /\ exists o, get_obj s i = Some o.
Proof.
  unfold obj_of_value. destruct (Z.eqb_spec (v_type v) T_OBJ); [|discriminate].
  destruct (get_obj s (v_data v)) eqn:E; [|discriminate]. intro H. injection H as <-. eauto.
Qed.

(** Changing the handle count without crossing zero. *)
Lemma wf_put_handles b s i o n : wf b 0 s -> get_obj s i = Some o -> 0 <= n < W32 ->
  (n = 0 <-> o_handles o = 0) -> wf b 0 (put_obj i (set_o_handles n o) s).
Proof.
  intros W Ho R Hn. destruct (put_obj_wf s i o (set_o_handles n o) (w_tab _ _ _ W) Ho) as [T G].
  pose proof (wf_put_obj b 0 s i o o W Ho (w_obj _ _ _ W _ _ Ho) eq_refl eq_refl eq_refl) as _.
  destruct W. split; unfold get_obj in *; auto.
  - intros j q Hj. rewrite G in Hj. destruct (Z.eqb_spec j i) as [->|]; [|auto]. injection Hj as <-.
    destruct (w_obj i o Ho). split; os; auto.
  - intros j c Nj Xj Hj. destruct (w_co1 j c Nj Xj Hj) as (id & q & A1 & B & C & D). exists id.
    rewrite G. destruct (Z.eqb_spec id i) as [->|]; [|exists q; auto].
    assert (q = o) by congruence. subst q. exists (set_o_handles n o). auto.
  - intros id q Hj E. rewrite G in Hj. destruct (Z.eqb_spec id i) as [->|]; [|eauto]. injection Hj as <-.
    apply (w_co2 i o Ho E).
  - intro j. rewrite G. rewrite w_hlist. destruct (Z.eqb_spec j i) as [->|]; [|reflexivity]. split; intros (q & Q & N).
    + exists (set_o_handles n o). split; auto. os. assert (q = o) by congruence. subst q. tauto.
    + injection Q as <-. exists o. split; auto. osin N. tauto.
Qed.

Lemma wf_acquire_first b s i o : wf b 0 s -> get_obj s i = Some o -> o_handles o = 0 ->
  wf b 0 (set_hlist (i :: v_hlist s) (put_obj i (set_o_handles 1 o) s)).
Proof.
  intros W Ho Z0. destruct (put_obj_wf s i o (set_o_handles 1 o) (w_tab _ _ _ W) Ho) as [T G].
  assert (~ In i (v_hlist s)) as NI.
  { intro J. apply (w_hlist _ _ _ W) in J. destruct J as (q & Q & N). congruence. }
  destruct W. split; unfold get_obj in *; auto.
  - intros j q Hj. change (tab_get (v_objs (put_obj i (set_o_handles 1 o) s)) j = Some q) in Hj.
    rewrite G in Hj. destruct (Z.eqb_spec j i) as [->|]; [|auto]. injection Hj as <-.
    destruct (w_obj i o Ho). split; os; auto. unfold W32. lia.
  - intros j c Nj Xj Hj. destruct (w_co1 j c Nj Xj Hj) as (id & q & A1 & B & C & D). exists id.
    change (exists o0, c_obj c = vobj id /\ tab_get (v_objs (put_obj i (set_o_handles 1 o) s)) id = Some o0 /\
      o_ext o0 = v_corotype s /\ o_data o0 = Some j).
    rewrite G. destruct (Z.eqb_spec id i) as [->|]; [|exists q; auto].
    assert (q = o) by congruence. subst q. exists (set_o_handles 1 o). auto.
  - intros id q Hj E. change (tab_get (v_objs (put_obj i (set_o_handles 1 o) s)) id = Some q) in Hj.
    rewrite G in Hj. destruct (Z.eqb_spec id i) as [->|]; [|eapply w_co2; eauto]. injection Hj as <-.
    apply (w_co2 i o Ho E).
  - constructor; auto.
  - intro j. change (In j (i :: v_hlist s) <-> exists q, tab_get (v_objs (put_obj i (set_o_handles 1 o) s)) j = Some q /\ o_handles q <> 0).
    rewrite G. cbn [In]. rewrite w_hlist. destruct (Z.eqb_spec j i) as [->|N]; split.
    + intros _. exists (set_o_handles 1 o). split; auto. os. lia.
    + intros _. left. auto.
    + intros [X|X]; [congruence|auto].
    + intro X. right. auto.
Qed.

Lemma wf_release_last b s i o : wf b 0 s -> get_obj s i = Some o ->
  wf b 0 (set_hlist (filter (fun j => negb (j =? i)) (v_hlist s)) (put_obj i (set_o_handles 0 o) s)).
Proof.
  intros W Ho. destruct (put_obj_wf s i o (set_o_handles 0 o) (w_tab _ _ _ W) Ho) as [T G].
  destruct W. split; unfold get_obj in *; auto.
  - intros j q Hj. change (tab_get (v_objs (put_obj i (set_o_handles 0 o) s)) j = Some q) in Hj.
    rewrite G in Hj. destruct (Z.eqb_spec j i) as [->|]; [|auto]. injection Hj as <-.
    destruct (w_obj i o Ho). split; os; auto. unfold W32. lia.
  - intros j c Nj Xj Hj. destruct (w_co1 j c Nj Xj Hj) as (id & q & A1 & B & C & D). exists id.
    change (exists o0, c_obj c = vobj id /\ tab_get (v_objs (put_obj i (set_o_handles 0 o) s)) id = Some o0 /\
      o_ext o0 = v_corotype s /\ o_data o0 = Some j).
    rewrite G. destruct (Z.eqb_spec id i) as [->|]; [|exists q; auto].
    assert (q = o) by congruence. subst q. exists (set_o_handles 0 o). auto.
  - intros id q Hj E. change (tab_get (v_objs (put_obj i (set_o_handles 0 o) s)) id = Some q) in Hj.
    rewrite G in Hj. destruct (Z.eqb_spec id i) as [->|]; [|eapply w_co2; eauto]. injection Hj as <-.
    apply (w_co2 i o Ho E).
  - apply NoDup_filter. auto.
  - intro j. change (In j (filter (fun j => negb (j =? i)) (v_hlist s)) <-> exists q, tab_get (v_objs (put_obj i (set_o_handles 0 o) s)) j = Some q /\ o_handles q <> 0).
    rewrite G, filter_In, w_hlist. destruct (Z.eqb_spec j i) as [->|N]; cbn [negb]; split.
    + intros [_ X]. discriminate.
    + intros (q & Q & N). injection Q as <-. osin N. congruence.
    + intros [X _]. auto.
    + intro X. auto.
Qed.

(** Exact runs of acquire and release. *)
Lemma acquire_run b s i o : wf b 0 s -> get_obj s i = Some o -> o_handles o < INVALID ->
  exists s', acquire_handle (vobj i) s = Ok (tt, s') /\ wf b 0 s' /\ v_objs s' = v_objs (put_obj i (set_o_handles (o_handles o + 1) o) s) /\
    s' = set_hlist (v_hlist s') (set_objs (v_objs s') s).
Proof.
  intros W Ho R. destruct (w_obj _ _ _ W _ _ Ho).
  assert (obj_of_value s (vobj i) = Some i) as Ov by (unfold obj_of_value; cbn; rewrite Ho; reflexivity).
  unfold acquire_handle. unfold mbind at 1, gets at 1. rewrite Ov. rewrite (bind_run _ _ _ _ _ (rd_obj_ok _ _ _ Ho)). cbv zeta.
  rewrite u32_id by (unfold is_u32, INVALID, W32 in *; lia).
  destruct (Z.ltb_spec 1 (o_handles o + 1)).
  - rewrite (wr_obj_ok _ _ _ _ Ho). eexists. split; [reflexivity|]. split; [|split; [reflexivity|unfold put_obj; destruct s; reflexivity]].
    apply wf_put_handles; auto; unfold INVALID, W32 in *; lia.
  - replace (o_handles o + 1) with 1 by lia. change (1 =? 0) with false. cbv iota.
    destruct (existsb (Z.eqb i) (v_hlist s)) eqn:X.
    { exfalso. apply existsb_exists in X. destruct X as (j & J & Ej). apply Z.eqb_eq in Ej. subst j.
      apply (w_hlist _ _ _ W) in J. destruct J as (q & Q & N). assert (q = o) by congruence. subst q. lia. }
    rewrite (bind_run _ _ _ _ _ (wr_obj_ok _ _ _ _ Ho)). unfold modify. eexists. split; [reflexivity|]. split; [|split; [reflexivity|unfold put_obj; destruct s; reflexivity]].
    apply (wf_acquire_first b s i o); auto. lia.
Qed.

Lemma acquire_full b s i o : wf b 0 s -> get_obj s i = Some o -> o_handles o = INVALID ->
  exists s', acquire_handle (vobj i) s = Ok (tt, s') /\ wf b 0 s' /\ has_errors s' = true.
Proof.
  intros W Ho R.
  assert (obj_of_value s (vobj i) = Some i) as Ov by (unfold obj_of_value; cbn; rewrite Ho; reflexivity).
  unfold acquire_handle. unfold mbind at 1, gets at 1. rewrite Ov. rewrite (bind_run _ _ _ _ _ (rd_obj_ok _ _ _ Ho)). cbv zeta.
  rewrite R. change (u32 (INVALID + 1)) with 0. change (1 <? 0) with false. change (0 =? 0) with true. cbv iota.
  rewrite (bind_run _ _ _ _ _ (wr_obj_ok _ _ _ _ Ho)).
  assert (wf b 0 (put_obj i (set_o_handles INVALID o) s)) as W1.
  { apply wf_put_handles; auto; unfold INVALID, W32 in *; lia. }
  destruct (add_error_ok _ (bs "Integer overflow in handle count.") (wf_live _ _ _ W1)) as [e E]. rewrite E.
  eexists. split; [reflexivity|]. split; [apply wf_errs; auto|apply has_errors_app].
Qed.

Lemma release_run b s i o : wf b 0 s -> get_obj s i = Some o -> o_handles o <> 0 ->
  exists s', release_handle (vobj i) s = Ok (tt, s') /\ wf b 0 s' /\ v_objs s' = v_objs (put_obj i (set_o_handles (o_handles o - 1) o) s) /\
    s' = set_hlist (v_hlist s') (set_objs (v_objs s') s).
Proof.
  intros W Ho R. destruct (w_obj _ _ _ W _ _ Ho).
  assert (obj_of_value s (vobj i) = Some i) as Ov by (unfold obj_of_value; cbn; rewrite Ho; reflexivity).
  unfold release_handle. unfold mbind at 1, gets at 1. rewrite Ov. rewrite (bind_run _ _ _ _ _ (rd_obj_ok _ _ _ Ho)). cbv zeta.
  destruct (Z.eqb_spec (o_handles o) 0); [contradiction|]. unfold mbind at 1, ret at 1.
  rewrite u32_id by (unfold is_u32, INVALID, W32 in *; lia).
  rewrite (bind_run _ _ _ _ _ (wr_obj_ok _ _ _ _ Ho)).
  destruct (Z.ltb_spec 0 (o_handles o - 1)).
  - unfold ret. eexists. split; [reflexivity|]. split; [|split; [reflexivity|unfold put_obj; destruct s; reflexivity]].
    apply wf_put_handles; auto; unfold INVALID, W32 in *; lia.
  - replace (o_handles o - 1) with 0 by lia.
    destruct (existsb (Z.eqb i) (v_hlist s)) eqn:X.
    + unfold modify. eexists. split; [reflexivity|]. split; [|split; [reflexivity|unfold put_obj; destruct s; reflexivity]].
      apply (wf_release_last b s i o); auto.
    + exfalso. assert (In i (v_hlist s)) as J by (apply (w_hlist _ _ _ W); eauto).
      assert (existsb (Z.eqb i) (v_hlist s) = true); [|congruence]. apply existsb_exists. exists i. split; auto. apply Z.eqb_refl.
Qed.

(** ** Triples *)
Notation T0 := (A true 0 [] []).
Notation safe m := (hoare T0 m (fun _ => okx 0)).

Lemma h_obj_of_value {T} (v : value) (f : vm -> option Z -> M T) Q :
  (forall s0, T0 s0 -> obj_of_value s0 v = None -> hoare (fun s => s = s0) (f s0 None) Q) ->
  (forall s0 i o, T0 s0 -> v = vobj i -> get_obj s0 i = Some o -> hoare (fun s => s = s0) (f s0 (Some i)) Q) ->
  hoare T0 (s <- gets (fun s => s) ;; f s (obj_of_value s v)) Q.
Proof.
  intros H1 H2. apply h_self. intros s0 H0. destruct (obj_of_value s0 v) as [i|] eqn:E; [|auto].
  destruct (obj_of_value_some _ _ _ E) as (Ty & -> & o & Ho). eapply H2; eauto. destruct v; cbn in *; subst; reflexivity.
Qed.

Lemma err_okx m : safe (add_error m).
Proof. apply okx_of. he. Qed.

Lemma h_acquire v : safe (acquire_handle v).
Proof.
  unfold acquire_handle. apply (h_obj_of_value v (fun s r => match r with None => _ | Some i => _ end)).
  - intros s0 H0 _. apply (h_eq T0); auto. apply err_okx.
  - intros s0 i o H0 -> Ho s ->.
    pose proof (ow_hnd _ _ _ _ (w_obj _ _ _ (proj1 H0) _ _ Ho)) as Rh.
    assert (obj_of_value s0 (vobj i) = Some i) as Ov by (unfold obj_of_value; cbn; rewrite Ho; reflexivity).
    destruct (Z_lt_ge_dec (o_handles o) INVALID).
    + destruct (acquire_run true s0 i o (proj1 H0) Ho l) as (s' & E & W & _).
      unfold acquire_handle in E. unfold mbind at 1, gets at 1 in E. rewrite Ov in E. rewrite E. exists true. split; auto.
    + destruct (acquire_full true s0 i o (proj1 H0) Ho) as (s' & E & W & _); [unfold INVALID, W32 in *; lia|].
      unfold acquire_handle in E. unfold mbind at 1, gets at 1 in E. rewrite Ov in E. rewrite E. exists true. split; auto.
Qed.

Lemma handle_count_run s v : T0 s -> exists n s', get_handle_count v s = Ok (n, s') /\ T0 s' /\
  (n <> 0 -> s' = s /\ exists i o, v = vobj i /\ get_obj s i = Some o /\ o_handles o = n).
Proof.
  intro Hs. unfold get_handle_count. unfold mbind at 1, gets at 1. destruct (obj_of_value s v) as [i|] eqn:E.
  - destruct (obj_of_value_some _ _ _ E) as (T & -> & o & Ho). rewrite (bind_run _ _ _ _ _ (rd_obj_ok _ _ _ Ho)).
    eexists _, s. split; [reflexivity|]. split; auto. intros _. split; auto. exists (v_data v), o. sp; auto. destruct v; cbn in *; subst; reflexivity.
  - destruct (add_error_ok s (bs "Bad object ID in nkiVmObjectGetExternalHandleCount.") (wf_live _ _ _ (proj1 Hs))) as [e Er].
    rewrite (bind_run _ _ _ _ _ Er). eexists _, _. split; [reflexivity|]. split; [apply A_errs; auto|congruence].
Qed.

Lemma h_erase ob key : safe (clear_entry_public ob key).
Proof.
  unfold clear_entry_public. 
  apply (h_obj_of_value ob (fun s r => match r with
    | Some i => clear_entry i key
    | None => add_error (bs "Bad object ID in nkiVmObjectClearEntry.") end)).
  - intros s0 H0 _. apply (h_eq T0); auto. apply err_okx.
  - intros s0 i o H0 _ Ho. apply (h_eq (A true 0 [] [i])); [apply A_obj; auto; exists o; auto|].
    eapply h_post; [apply (h_clear_entry 0 [] [i] i key); left; auto|]. intros u s Hs. exists true. eapply A_nil; exact Hs.
Qed.

Lemma h_host_read ob key : hoare T0 (host_read ob key) (fun _ => okx 0).
Proof.
  unfold host_read, find_or_add_entry_public. intros s Hs.
  destruct (obj_of_value s ob) as [i|] eqn:E.
  - destruct (obj_of_value_some _ _ _ E) as (T & -> & o & Ho).
    pose proof (h_find_entry true 0 [] [v_data ob] (v_data ob) key (or_introl eq_refl) s) as HF.
    specialize (HF ltac:(apply A_obj; auto; exists o; auto)).
    unfold mbind at 1. unfold mbind at 1, gets at 1. rewrite E. unfold mbind at 1.
    destruct (find_or_add_entry (v_data ob) key true s) as [[r s1]|u]; [|exact HF]. unfold ret at 1.
    destruct HF as [Hs1 Hr]. destruct r as [q|].
    + destruct (el_get_run s1 (v_data ob) q (Hr q eq_refl)) as [v R]. rewrite R. exists true. eapply A_nil; eauto.
    + exists true. eapply A_nil; eauto.
  - destruct (add_error_ok s (bs "Bad object ID in nkiVmObjectFindOrAddEntry.") (wf_live _ _ _ (proj1 Hs))) as [e Er].
    unfold mbind at 1. unfold mbind at 1, gets at 1. rewrite E. rewrite (bind_run _ _ _ _ _ Er). cbn.
    exists true. apply A_errs. auto.
Qed.

Lemma h_host_write ob key v : safe (host_write ob key v).
Proof.
  unfold host_write, find_or_add_entry_public. intros s Hs.
  destruct (obj_of_value s ob) as [i|] eqn:E.
  - destruct (obj_of_value_some _ _ _ E) as (T & -> & o & Ho).
    pose proof (h_store 0 [] [v_data ob] (v_data ob) key v (or_introl eq_refl) s) as HF.
    specialize (HF ltac:(apply A_obj; auto; exists o; auto)).
    unfold mbind at 1. unfold mbind at 1, gets at 1. rewrite E. unfold mbind at 1. unfold mbind at 1 in HF.
    destruct (find_or_add_entry (v_data ob) key false s) as [[r s1]|u]; [|exact HF]. unfold ret at 1.
    destruct r as [q|].
    + destruct (el_set (v_data ob) q v s1) as [[u s2]|u]; [|exact HF]. destruct HF as [b Hb]. exists b. eapply A_nil; eauto.
    + destruct HF as [b Hb]. exists b. eapply A_nil; eauto.
  - destruct (add_error_ok s (bs "Bad object ID in nkiVmObjectFindOrAddEntry.") (wf_live _ _ _ (proj1 Hs))) as [e Er].
    unfold mbind at 1. unfold mbind at 1, gets at 1. rewrite E. rewrite (bind_run _ _ _ _ _ Er). cbn.
    exists true. apply A_errs. auto.
Qed.

(** Changing the external type or data of an object that is no coroutine. *)
Lemma wf_put_ext b s i o o' : wf b 0 s -> get_obj s i = Some o -> owf b (v_gcpass s) i o' ->
  o_ext o <> v_corotype s -> o_ext o' <> v_corotype s -> o_handles o' = o_handles o -> wf b 0 (put_obj i o' s).
Proof.
  intros W Ho O N N' Ha. destruct (put_obj_wf s i o o' (w_tab _ _ _ W) Ho) as [T G].
  unfold get_obj in *. destruct W. split; unfold get_obj in *; auto.
  - intros j p Hj. rewrite G in Hj. destruct (Z.eqb_spec j i) as [->|]; [inversion Hj; subst; auto|auto].
  - intros j c Nj Xj Hj. destruct (w_co1 j c Nj Xj Hj) as (id & p & A & B & C & D). exists id.
    rewrite G. destruct (Z.eqb_spec id i) as [->|]; [|exists p; auto]. congruence.
  - intros id p Hp E. rewrite G in Hp. destruct (Z.eqb_spec id i) as [->|]; [|eauto].
    inversion Hp; subst. unfold put_obj in E. vsin E. contradiction.
  - intro j. unfold put_obj. vs. rewrite w_hlist.
    split; intros (p & Hp & Q).
    + rewrite G. destruct (Z.eqb_spec j i) as [->|]; [|eauto]. exists o'. split; auto. congruence.
    + rewrite G in Hp. destruct (Z.eqb_spec j i) as [->|]; [|eauto]. inversion Hp; subst. exists o. split; auto. congruence.
Qed.

Lemma set_ext_safe v (f : nkobj -> nkobj) msg s :
  (forall b p i o, owf b p i o -> owf b p i (f o)) -> (forall o, o_handles (f o) = o_handles o) ->
  (forall o, o_ext o <> v_corotype s -> o_ext (f o) <> v_corotype s) ->
  T0 s -> is_coroutine s v = false ->
  match (s <- gets (fun s => s) ;;
        match obj_of_value s v with
        | None => add_error msg ;;; ret false
        | Some i => o <- rd_obj i ;; wr_obj i (f o) ;;; ret true
        end) s with
  | Ok (_, s') => T0 s'
  | Ub _ => False
  end.
Proof.
  intros F1 F2 F3 Hs N. unfold mbind at 1, gets at 1. unfold is_coroutine in N. destruct (obj_of_value s v) as [i|] eqn:E.
  - destruct (obj_of_value_some _ _ _ E) as (Ty & -> & o & Ho). rewrite Ho in N. apply Z.eqb_neq in N.
    rewrite (bind_run _ _ _ _ _ (rd_obj_ok _ _ _ Ho)), (bind_run _ _ _ _ _ (wr_obj_ok _ _ _ _ Ho)). unfold ret.
    destruct Hs as (W & _). split; auto. eapply wf_put_ext; eauto. apply F1. apply (w_obj _ _ _ W _ _ Ho).
  - destruct (add_error_ok s msg (wf_live _ _ _ (proj1 Hs))) as [e Er]. rewrite (bind_run _ _ _ _ _ Er). apply A_errs. auto.
Qed.

Lemma wf_types b s l : wf b 0 s -> wf b 0 (set_exttypes (v_exttypes s ++ l) s).
Proof.
  intro W. destruct W. split; auto. destruct w_corotype as (N & et & E & C). split; auto.
  exists et. split; auto. vs. rewrite znth_app_l; auto. pose proof (znth_some_range _ _ _ E). lia.
Qed.
Lemma vm_ok_types s l : vm_ok s -> vm_ok (set_exttypes (v_exttypes s ++ l) s).
Proof. intros [b W]. exists b. apply wf_types. auto. Qed.

Section Run.
Variable hostmark : Z -> Z -> option Z -> list value.

Lemma h_unless k : hoare T0 k (fun _ => okx 0) -> hoare (okx 0) (unless_error k) (fun _ => okx 0).
Proof.
  intros H s Hs. unfold unless_error. unfold mbind at 1, self, gets. destruct (has_errors s) eqn:E; [exact Hs|].
  apply H. apply clean_exact; auto. apply vm_ok_iff. auto.
Qed.

Lemma h_then {B} (m : M B) k : hoare T0 m (fun _ => okx 0) -> (forall x, hoare T0 (k x) (fun _ => okx 0)) ->
  hoare T0 (x <- m ;; unless_error (k x)) (fun _ => okx 0).
Proof. intros H1 H2. eapply h_bind; [exact H1|]. intro x. apply h_unless. auto. Qed.

Lemma run_host_safe p : hoare T0 (run_host hostmark p) (fun _ => okx 0).
Proof.
  induction p as [v|m k IH|t k IH|k IH|ob key k IH|ob key v k IH|ob key k IH|v k IH|v k IH|k IH|v ty k IH|v d k IH]; cbn [run_host].
  - apply h_ret. intros s Hs. exists true. auto.
  - apply h_then; auto. apply err_okx.
  - apply h_then; auto. apply okx_of. apply h_find_or_add. unfold is_text. apply Forall_forall. intros c J.
    apply filter_In in J. unfold is_byte. lia.
  - apply h_then; auto. apply okx_of. eapply h_nil. apply h_create_object.
  - apply h_then; auto. apply h_host_read.
  - apply h_then; auto. apply h_host_write.
  - apply h_then; auto. apply h_erase.
  - apply h_then; auto. apply h_acquire.
  - intros s Hs. destruct (handle_count_run s v Hs) as (n & s1 & E & H1 & Hn). rewrite (bind_run _ _ _ _ _ E).
    destruct (Z.eqb_spec n 0) as [N|N].
    + apply h_unless; auto. exists true. auto.
    + destruct (Hn N) as (-> & i & o & -> & Ho & Hh).
      destruct (release_run true s i o (proj1 Hs) Ho) as (s2 & E2 & W2 & _); [lia|].
      rewrite (bind_run _ _ _ _ _ E2). apply h_unless; auto. exists true. split; auto.
  - apply h_self. intros s0 H0 s ->. destruct (Z.ltb_spec (v_gcpass s0) INVALID).
    + destruct (garbage_collect_ok hostmark true s0 (proj1 H0) H) as (s1 & E & W & _). rewrite (bind_run _ _ _ _ _ E).
      apply h_unless; auto. exists true. split; auto.
    + apply h_unless; auto. exists true. auto.
  - apply h_self. intros s0 H0 s ->. destruct (is_coroutine s0 v) eqn:C; [apply h_unless; auto; exists true; auto|].
    destruct (Z.eqb_spec ty (v_corotype s0)) as [E|E]; cbn [orb]; [apply h_unless; auto; exists true; auto|].
    unfold set_ext_type. pose proof (set_ext_safe v (set_o_ext ty) (bs "Bad object ID in nkiVmObjectSetExternalType.") s0) as K.
    specialize (K ltac:(intros ? ? ? ? []; split; auto) ltac:(reflexivity) ltac:(auto) H0 C).
    unfold mbind at 1. match goal with |- match match ?z with _ => _ end with _ => _ end => destruct z as [[x s1]|u] end; [|contradiction].
    apply h_unless; auto. exists true. auto.
  - apply h_self. intros s0 H0 s ->. destruct (is_coroutine s0 v) eqn:C; [apply h_unless; auto; exists true; auto|].
    unfold set_ext_data. pose proof (set_ext_safe v (set_o_data d) (bs "Bad object ID in nkiVmObjectSetExternalData.") s0) as K.
    specialize (K ltac:(intros ? ? ? ? []; split; auto) ltac:(reflexivity) ltac:(auto) H0 C).
    unfold mbind at 1. match goal with |- match match ?z with _ => _ end with _ => _ end => destruct z as [[x s1]|u] end; [|contradiction].
    apply h_unless; auto. exists true. auto.
Qed.
End Run.
