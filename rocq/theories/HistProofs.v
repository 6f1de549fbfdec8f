(** * HistProofs: every run is a history of object events *)
From Verif Require Import Base BaseFacts.
From Verif Require Import VmStep HostModel HostProofs.
From Verif Require Export HistSpec.
Ltac Zify.zify_post_hook ::= Z.div_mod_to_equations.

(** ** Object tables that make sense *)
Record sane (s : vm) : Prop := {
  sn_tab : tab_wf (v_objs s);
  sn_range : forall i o, get_obj s i = Some o -> 0 <= o_handles o < W32;
  sn_list : forall i, In i (v_hlist s) <-> handles_of s i <> 0
}.

Lemma vm_ok_sane s : vm_ok s -> sane s.
Proof.
  intros [b W]. split.
  - apply (w_tab _ _ _ W).
  - intros i o Ho. apply (ow_hnd _ _ _ _ (w_obj _ _ _ W _ _ Ho)).
  - intro i. rewrite (w_hlist _ _ _ W). unfold handles_of. destruct (get_obj s i) as [o|]; split.
    + intros (q & Q & N). congruence.
    + intro N. eauto.
    + intros (q & Q & _). discriminate.
    + congruence.
Qed.

(** ** Functions that do not touch the object table *)
Definition same (s s' : vm) : Prop :=
  v_objs s' = v_objs s /\ v_hlist s' = v_hlist s /\ v_cleanups s' = v_cleanups s /\ v_exttypes s' = v_exttypes s /\
  v_corotype s' = v_corotype s.
Definition calm {T} (m : M T) : Prop := forall s x s', m s = Ok (x, s') -> same s s'.

Lemma same_refl s : same s s. Proof. repeat split. Qed.
Lemma same_trans a b c : same a b -> same b c -> same a c.
Proof. unfold same. intuition congruence. Qed.

Lemma calm_ret {T} (x : T) : calm (ret x).
Proof. intros s y s' E. unfold ret in E. injection E as _ <-. apply same_refl. Qed.
Lemma calm_bind {T U} (m : M T) (k : T -> M U) : calm m -> (forall x, calm (k x)) -> calm (mbind m k).
Proof.
  intros Hm Hk s y s' E. destruct (bind_inv _ _ _ _ _ E) as (x & s1 & E1 & E2).
  eapply same_trans; [eapply Hm; eauto|eapply Hk; eauto].
Qed.
Lemma calm_gets {T} (f : vm -> T) : calm (gets f).
Proof. intros s y s' E. unfold gets in E. injection E as _ <-. apply same_refl. Qed.
Lemma calm_lift {T} (r : res T) : calm (lift r).
Proof. intros s y s' E. unfold lift in E. destruct r; [|discriminate]. injection E as _ <-. apply same_refl. Qed.
Lemma calm_mub {T} u : calm (@mub T u).
Proof. intros s y s' E. discriminate. Qed.
Lemma calm_modify f : (forall s, same s (f s)) -> calm (modify f).
Proof. intros H s y s' E. unfold modify in E. injection E as _ <-. apply H. Qed.
Lemma calm_get_ctx i : calm (get_ctx i).
Proof. intros s y s' E. unfold get_ctx in E. destruct (znth (v_ctxs s) i) as [[c|]|]; [|discriminate..]. injection E as _ <-. apply same_refl. Qed.
Lemma calm_put_ctx i c : calm (put_ctx i c).
Proof.
  intros s y s' E. unfold put_ctx in E. destruct (znth (v_ctxs s) i) as [[c'|]|]; [|discriminate..].
  injection E as _ <-. repeat split.
Qed.
Lemma calm_free_ctx i : calm (free_ctx i).
Proof.
  intros s y s' E. unfold free_ctx in E. destruct (znth (v_ctxs s) i) as [[c'|]|]; [|discriminate..].
  injection E as _ <-. repeat split.
Qed.
Lemma calm_rd_obj i : calm (rd_obj i).
Proof. intros s y s' E. unfold rd_obj in E. destruct (get_obj s i); [|discriminate]. injection E as _ <-. apply same_refl. Qed.
Lemma calm_of_opt {T} u (o : option T) : calm (of_opt u o).
Proof. unfold of_opt. destruct o; [apply calm_ret|apply calm_mub]. Qed.
Lemma calm_self : calm self. Proof. apply calm_gets. Qed.
Create HintDb calm.
#[export] Hint Resolve calm_self calm_of_opt calm_ret calm_gets calm_lift calm_mub calm_get_ctx calm_put_ctx calm_free_ctx calm_rd_obj : calm.

Ltac calm1 :=
  match goal with
  | |- calm _ => solve [auto with calm nocore]
  | |- calm (mbind _ _) => apply calm_bind; [|intro]
  | |- calm (modify _) => apply calm_modify; intro; solve [repeat split]
  | |- calm (match ?z with _ => _ end) => destruct z
  | |- calm (let _ := _ in _) => cbv zeta
  end.
Ltac calms := repeat calm1.

Lemma calm_cur : calm cur_ctx. Proof. unfold cur_ctx. calms. Qed.
Lemma calm_mod_cur f : calm (mod_cur f). Proof. unfold mod_cur. calms. Qed.
#[export] Hint Resolve calm_cur calm_mod_cur : calm.
Lemma calm_get_ip : calm get_ip. Proof. unfold get_ip. calms. Qed.
Lemma calm_set_ip z : calm (set_ip z). Proof. unfold set_ip. calms. Qed.
Lemma calm_error m : calm (add_error m). Proof. unfold add_error, add_error_ex. calms. Qed.
Lemma calm_get_slot i : calm (get_slot i). Proof. unfold get_slot. calms. Qed.
Lemma calm_set_slot i v : calm (set_slot i v). Proof. unfold set_slot. calms. Qed.
#[export] Hint Resolve calm_get_ip calm_set_ip calm_error calm_get_slot calm_set_slot : calm.
Lemma calm_stack_size : calm stack_size. Proof. unfold stack_size. calms. Qed.
Lemma calm_push_slot : calm push_slot. Proof. unfold push_slot. calms. Qed.
#[export] Hint Resolve calm_stack_size calm_push_slot : calm.
Lemma calm_push v : calm (push v). Proof. unfold push. calms. Qed.
Lemma calm_pop : calm pop. Proof. unfold pop. calms. Qed.
Lemma calm_pop_n n : calm (pop_n n). Proof. unfold pop_n. calms. Qed.
Lemma calm_peek_idx n : calm (peek_idx n). Proof. unfold peek_idx. calms. Qed.
#[export] Hint Resolve calm_push calm_pop calm_pop_n calm_peek_idx : calm.
Lemma calm_peek n : calm (peek n). Proof. unfold peek. calms. Qed.
Lemma calm_push_int n : calm (push_int n). Proof. unfold push_int. calms. Qed.
Lemma calm_push_float n : calm (push_float n). Proof. unfold push_float. calms. Qed.
Lemma calm_find_or_add t : calm (find_or_add_string t). Proof. unfold find_or_add_string. calms. Qed.
#[export] Hint Resolve calm_peek calm_push_int calm_push_float calm_find_or_add : calm.
Lemma calm_push_string t : calm (push_string t). Proof. unfold push_string. calms. Qed.
Lemma calm_to_int v : calm (to_int v). Proof. unfold to_int. calms. Qed.
Lemma calm_to_float v : calm (to_float v). Proof. unfold to_float. calms. Qed.
Lemma calm_to_string v : calm (to_string v). Proof. unfold to_string. calms. Qed.
#[export] Hint Resolve calm_push_string calm_to_int calm_to_float calm_to_string : calm.
Lemma calm_compare a b t : calm (value_compare a b t). Proof. unfold value_compare. calms. Qed.
Lemma calm_el_get i q : calm (el_get i q). Proof. unfold el_get. calms. Qed.
Lemma calm_push_signed z : calm (push_signed z). Proof. unfold push_signed. calms. Qed.
Lemma calm_unimpl t z : calm (unimplemented t z). Proof. unfold unimplemented. calms. Qed.
Lemma calm_push_all vs : calm (push_all vs). Proof. induction vs; cbn [push_all]; calms. Qed.
Lemma calm_stack_addr v : calm (stack_addr v). Proof. unfold stack_addr. calms. Qed.
#[export] Hint Resolve calm_compare calm_el_get calm_push_signed calm_unimpl calm_push_all calm_stack_addr : calm.
Lemma calm_find_key key c : forall p, calm (find_key key c p).
Proof. induction c as [|[k v] c IH]; intro p; cbn [find_key]; calms. Qed.
Lemma calm_icompare : calm internal_compare. Proof. unfold internal_compare. calms. Qed.
Lemma calm_pop_context : calm pop_context. Proof. unfold pop_context. calms. Qed.
Lemma calm_push_context i : calm (push_context i). Proof. unfold push_context. calms. Qed.
Lemma calm_shift n b m : calm (shift_args n b m). Proof. induction n; cbn [shift_args]; calms. Qed.
#[export] Hint Resolve calm_find_key calm_icompare calm_pop_context calm_push_context calm_shift : calm.
Lemma calm_insert_data n d : calm (insert_data n d). Proof. unfold insert_data. calms. Qed.
Lemma calm_entry p : calm (entry_value p). Proof. unfold entry_value. calms. Qed.
Lemma calm_get_ext_type v : calm (get_ext_type v). Proof. unfold get_ext_type. calms. Qed.
Lemma calm_get_ext_data v : calm (get_ext_data v). Proof. unfold get_ext_data. calms. Qed.
Lemma calm_get_size v : calm (get_obj_size v). Proof. unfold get_obj_size. calms. Qed.
Lemma calm_handle_count v : calm (get_handle_count v). Proof. unfold get_handle_count. calms. Qed.
Lemma calm_check_args xf args : forall i, calm (check_args xf i args).
Proof. induction args; intro i; cbn [check_args]; calms. Qed.
#[export] Hint Resolve calm_insert_data calm_entry calm_get_ext_type calm_get_ext_data calm_get_size calm_handle_count calm_check_args : calm.
Lemma calm_fetch : calm fetch. Proof. unfold fetch, self. calms. Qed.
#[export] Hint Resolve calm_fetch : calm.

(** ** Histories *)
Section Hist.
Variable hostmark : Z -> Z -> option Z -> list value.
Notation history := (history hostmark).

Definition hist {T} (m : M T) : Prop :=
  forall s x s', sane s -> m s = Ok (x, s') -> sane s' /\ exists l, history s l s'.

Lemma history_app s l1 s1 : history s l1 s1 -> forall l2 s2, history s1 l2 s2 -> history s (l1 ++ l2) s2.
Proof.
  intros H1 l2 s2 H2. induction H2.
  - rewrite app_nil_r. auto.
  - eapply hi_other; eauto.
  - rewrite app_assoc. eapply hi_create; eauto.
  - rewrite app_assoc. eapply hi_acquire; eauto.
  - rewrite app_assoc. eapply hi_release; eauto.
  - rewrite app_assoc. eapply hi_collect; eauto.
Qed.

Lemma same_handles s s' i : v_objs s' = v_objs s -> handles_of s' i = handles_of s i.
Proof. intro E. unfold handles_of, get_obj. rewrite E. reflexivity. Qed.

Lemma same_sane s s' : same s s' -> sane s -> sane s'.
Proof.
  intros (A & B & _) [T R L]. split.
  - rewrite A. auto.
  - intros i o H. unfold get_obj in H. rewrite A in H. eapply R; eauto.
  - intro i. rewrite B, (same_handles s s' i A). auto.
Qed.
Lemma same_uneventful s s' : same s s' -> uneventful s s'.
Proof.
  intros (A & B & C & D & _). split; auto.
  - intro i. unfold live, get_obj. rewrite A. tauto.
  - intro i. apply same_handles. auto.
  - rewrite A. auto.
Qed.

Lemma hist_one s s' : uneventful s s' -> exists l, history s l s'.
Proof. intro U. exists []. eapply hi_other; [constructor|auto]. Qed.

Lemma hist_calm {T} (m : M T) : calm m -> hist m.
Proof.
  intros C s x s' S E. specialize (C s x s' E). split; [eapply same_sane; eauto|]. apply hist_one, same_uneventful; auto.
Qed.
Lemma hist_bind {T U} (m : M T) (k : T -> M U) : hist m -> (forall x, hist (k x)) -> hist (mbind m k).
Proof.
  intros Hm Hk s y s' S E. destruct (bind_inv _ _ _ _ _ E) as (x & s1 & E1 & E2).
  destruct (Hm s x s1 S E1) as (S1 & l1 & H1). destruct (Hk x s1 y s' S1 E2) as (S2 & l2 & H2).
  split; auto. exists (l1 ++ l2). eapply history_app; eauto.
Qed.

(** Rewriting one live object without touching its handle count. *)
Lemma put_facts s i o o' : sane s -> get_obj s i = Some o -> o_handles o' = o_handles o ->
  sane (put_obj i o' s) /\ uneventful s (put_obj i o' s).
Proof.
  intros [T R L] Ho Hh. destruct (put_obj_wf s i o o' T Ho) as [T' G].
  assert (forall j, handles_of (put_obj i o' s) j = handles_of s j) as HH.
  { intro j. unfold handles_of. rewrite G. destruct (Z.eqb_spec j i) as [J|J]; auto. subst j. rewrite Ho. auto. }
  split; split; auto.
  - intros j q Q. rewrite G in Q. destruct (Z.eqb_spec j i); [|eauto]. injection Q as <-. rewrite Hh. eauto.
  - intro j. rewrite HH. apply L.
  - intro j. unfold live. rewrite G. destruct (Z.eqb_spec j i) as [J|J]; [|tauto]. subst j. split; eauto.
Qed.

(** The same after some calm prefix that read the object. *)
Lemma hist_wr s i o o' s' x : sane s -> get_obj s i = Some o -> o_handles o' = o_handles o ->
  wr_obj i o' s = Ok (x, s') -> sane s' /\ exists l, history s l s'.
Proof.
  intros S Ho Hh E. rewrite (wr_obj_ok _ _ _ _ Ho) in E. injection E as _ <-.
  destruct (put_facts s i o o' S Ho Hh). split; auto. apply hist_one; auto.
Qed.

Lemma same_get s s' i o : same s s' -> get_obj s i = Some o -> get_obj s' i = Some o.
Proof. intros (A & _) H. unfold get_obj in *. rewrite A. auto. Qed.

Lemma rd_inv s i o s' : rd_obj i s = Ok (o, s') -> s' = s /\ get_obj s i = Some o.
Proof. unfold rd_obj. destruct (get_obj s i); [|discriminate]. intro E. injection E as <- <-. auto. Qed.

Lemma calm_then {T U} s0 (m : M T) (k : T -> M U) s x s' : sane s -> (exists l, history s0 l s) ->
  mbind m k s = Ok (x, s') -> calm m ->
  (forall y s1, same s s1 -> m s = Ok (y, s1) -> sane s1 -> k y s1 = Ok (x, s') -> sane s' /\ exists l, history s1 l s') ->
  sane s' /\ exists l, history s0 l s'.
Proof.
  intros S (l0 & H0) E C K. destruct (bind_inv _ _ _ _ _ E) as (y & s1 & E1 & E2). pose proof (C _ _ _ E1) as Sm.
  destruct (K y s1 Sm E1 (same_sane _ _ Sm S) E2) as (S' & l & H). split; auto. exists (l0 ++ l).
  eapply history_app; [|exact H]. eapply hi_other; [exact H0|]. apply same_uneventful. auto.
Qed.

Lemma hist_refl s : exists l, history s l s. Proof. exists []. constructor. Qed.


Ltac cst E y s1 Sm R S1 :=
  eapply calm_then in E; [exact E|eassumption|apply hist_refl|auto with calm nocore|]; clear E; intros y s1 Sm R S1 E; cbv zeta in E.
Ltac done_ret E := unfold ret in E; injection E as _ <-; split; [auto|apply hist_refl].

Lemma hist_clear_entry ob key : hist (clear_entry ob key).
Proof.
  intros s x s' S E. unfold clear_entry in E.
  cst E st s0 S0 R0 Sa0. cst E o s1 S1 R1 Sa1. destruct (rd_inv _ _ _ _ R1) as [-> Ho].
  cst E ch s2 S2 R2 Sa2. cst E f s3 S3 R3 Sa3.
  pose proof (same_get _ _ _ _ (same_trans _ _ _ S2 S3) Ho) as Ho'.
  destruct f; [|done_ret E].
  destruct (o_size o =? 0); [discriminate|]. eapply hist_wr; [auto|exact Ho'| |exact E]. reflexivity.
Qed.

Lemma hist_wr_then {T} s i o o' (k : M T) s' x : sane s -> get_obj s i = Some o -> o_handles o' = o_handles o ->
  (wr_obj i o' ;;; k) s = Ok (x, s') -> calm k -> sane s' /\ exists l, history s l s'.
Proof.
  intros S Ho Hh E C. destruct (bind_inv _ _ _ _ _ E) as (u & s1 & E1 & E2).
  destruct (hist_wr _ _ _ _ _ _ S Ho Hh E1) as (S1 & l & H1). destruct (hist_calm _ C _ _ _ S1 E2) as (S2 & l2 & H2).
  split; auto. exists (l ++ l2). eapply history_app; eauto.
Qed.

Lemma hist_find ob key b : hist (find_or_add_entry ob key b).
Proof.
  intros s x s' S E. unfold find_or_add_entry in E.
  cst E st s0 S0 R0 Sa0. cst E o s1 S1 R1 Sa1. destruct (rd_inv _ _ _ _ R1) as [-> Ho].
  cst E ch s2 S2 R2 Sa2. cst E f s3 S3 R3 Sa3.
  pose proof (same_get _ _ _ _ (same_trans _ _ _ S2 S3) Ho) as Ho'.
  destruct f; [done_ret E|]. destruct b; [done_ret E|].
  destruct (_ || _).
  - eapply hist_wr_then; [auto|exact Ho'| |exact E|]; [reflexivity|]. calms.
  - eapply hist_wr_then; [auto|exact Ho'| |exact E|]; [reflexivity|]. calms.
Qed.

Lemma hist_el_set ob q v : hist (el_set ob q v).
Proof.
  intros s x s' S E. unfold el_set in E.
  cst E o s1 S1 R1 Sa1. destruct (rd_inv _ _ _ _ R1) as [-> Ho].
  cst E ch s2 S2 R2 Sa2. cst E f s3 S3 R3 Sa3.
  pose proof (same_get _ _ _ _ (same_trans _ _ _ S2 S3) Ho) as Ho'.
  eapply hist_wr; [auto|exact Ho'| |exact E]. reflexivity.
Qed.

Lemma hist_upd v (f : nkobj -> nkobj) msg : (forall o, o_handles (f o) = o_handles o) ->
  hist (s <- gets (fun s => s) ;;
        match obj_of_value s v with
        | None => add_error msg ;;; ret false
        | Some i => o <- rd_obj i ;; wr_obj i (f o) ;;; ret true
        end).
Proof.
  intros F s x s' S E. cst E st s0 S0 R0 Sa0. destruct (obj_of_value st v).
  - cst E o s1 S1 R1 Sa1. destruct (rd_inv _ _ _ _ R1) as [-> Ho].
    eapply hist_wr_then; [auto|exact Ho|apply F|exact E|calms].
  - eapply hist_calm; [|exact Sa0|exact E]. calms.
Qed.
Lemma hist_set_ext_type v t : hist (set_ext_type v t).
Proof. unfold set_ext_type. apply (hist_upd v (set_o_ext t)). reflexivity. Qed.
Lemma hist_set_ext_data v t : hist (set_ext_data v t).
Proof. unfold set_ext_data. apply (hist_upd v (set_o_data t)). reflexivity. Qed.
Lemma hist_clear_ext v : hist (clear_ext v).
Proof. unfold clear_ext. apply (hist_upd v (fun o => set_o_data None (set_o_ext INVALID o))). reflexivity. Qed.

Lemma hist_create : hist create_object.
Proof.
  intros s i s' S E. destruct S as [T R L].
  destruct (tab_add (v_objs s) (new_obj 0)) as [[j t]|] eqn:A.
  2:{ assert (same s s') as Sm.
      { unfold create_object in E. unfold mbind at 1, gets at 1 in E. rewrite A in E.
        assert (calm (add_error (bs "Address space exhaustion when adding item to table.") ;;; ret INVALID)) as C by calms.
        eapply C; eauto. }
      split; [eapply same_sane; eauto; split; auto|]. apply hist_one, same_uneventful. auto. }
  destruct (tab_add_ok _ _ _ _ T A) as (T' & Fr & Ri & Ci & G).
  assert (i = j /\ tab_wf (v_objs s') /\ v_hlist s' = v_hlist s /\
    (forall j', get_obj s' j' = if j' =? j then Some (new_obj j) else get_obj s j')) as (-> & Ts & Hl & Gs).
  { unfold create_object in E. unfold mbind at 1, gets at 1 in E. rewrite A in E. unfold mbind at 1, modify at 1 in E.
    assert (get_obj (set_objs t s) j = Some (new_obj 0)) as Gi by (unfold get_obj; vs; rewrite G, Z.eqb_refl; auto).
    rewrite (bind_run _ _ _ _ _ (wr_obj_ok _ _ _ (new_obj j) Gi)) in E.
    destruct (put_obj_wf (set_objs t s) j _ (new_obj j) T' Gi) as [W2 G2].
    unfold mbind, modify, ret in E. injection E as <- Es. rewrite <- Es.
    assert (forall s1 n, v_objs (if n =? 0 then s1 else set_newcount (n - 1) s1) = v_objs s1 /\
      v_hlist (if n =? 0 then s1 else set_newcount (n - 1) s1) = v_hlist s1) as V
      by (intros s1 n; destruct (n =? 0); split; reflexivity).
    destruct (V (put_obj j (new_obj j) (set_objs t s)) (v_newcount s)) as [V1 V2]. unfold get_obj. rewrite V1, V2. sp; auto.
    intro j'. specialize (G2 j'). unfold get_obj in G2. rewrite G2. vs. rewrite G. destruct (j' =? j); auto. }
  assert (forall j', handles_of s' j' = handles_of s j') as HH.
  { intro j'. unfold handles_of. rewrite Gs. destruct (Z.eqb_spec j' j) as [J|J]; auto. subst j'. unfold get_obj. rewrite Fr. reflexivity. }
  split.
  - split; auto.
    + intros j' q Q. rewrite Gs in Q. destruct (Z.eqb_spec j' j); [|eauto]. injection Q as <-. cbn. unfold W32. lia.
    + intro j'. rewrite Hl, HH. auto.
  - exists ([] ++ [Created j]). eapply hi_create; [constructor|exact E|]. exists (new_obj j). rewrite Gs, Z.eqb_refl. reflexivity.
Qed.

(** Changing a handle count. *)
Lemma obj_of_vobj s i o : get_obj s i = Some o -> obj_of_value s (vobj i) = Some i.
Proof. intro H. unfold obj_of_value. cbn. rewrite H. reflexivity. Qed.

Lemma hist_acquire v : hist (acquire_handle v).
Proof.
  intros s x s' S E. pose proof S as [T R L]. destruct (obj_of_value s v) as [i|] eqn:O.
  2:{ unfold acquire_handle in E. unfold mbind at 1, gets at 1 in E. rewrite O in E. eapply hist_calm; [|exact S|exact E]. calms. }
  destruct (obj_of_value_some _ _ _ O) as (Ty & -> & o & Ho).
  assert (v = vobj (v_data v)) as Ev by (destruct v; cbn in *; subst; reflexivity).
  pose proof (R _ _ Ho) as Ro. set (i := v_data v) in *.
  pose proof E as E0. unfold acquire_handle in E. unfold mbind at 1, gets at 1 in E. rewrite O in E.
  rewrite (bind_run _ _ _ _ _ (rd_obj_ok _ _ _ Ho)) in E. cbv zeta in E.
  destruct (Z.eq_dec (o_handles o) INVALID) as [I|I].
  - rewrite I in E. change (u32 (INVALID + 1)) with 0 in E. change (1 <? 0) with false in E. change (0 =? 0) with true in E. cbv iota in E.
    eapply hist_wr_then; [exact S|exact Ho| |exact E|calms]. cbn. auto.
  - rewrite u32_id in E by (unfold is_u32, INVALID, W32 in *; lia).
    assert (forall n h, n <> 0 -> 0 <= n < W32 -> (forall j, In j h <-> j = i \/ In j (v_hlist s)) ->
      sane (set_hlist h (put_obj i (set_o_handles n o) s))) as K.
    { intros n h N Rn Hh. destruct (put_obj_wf s i o (set_o_handles n o) T Ho) as [T' G]. split.
      - exact T'.
      - intros j q Q. change (get_obj (put_obj i (set_o_handles n o) s) j = Some q) in Q. rewrite G in Q.
        destruct (Z.eqb_spec j i); [|eauto]. injection Q as <-. cbn. auto.
      - intro j. change (handles_of (set_hlist h (put_obj i (set_o_handles n o) s)) j) with (handles_of (put_obj i (set_o_handles n o) s) j).
        vs. rewrite Hh. unfold handles_of. rewrite G. rewrite L. destruct (Z.eqb_spec j i) as [J|J].
        + subst j. cbn. tauto.
        + unfold handles_of. tauto. }
    assert (s' = set_hlist (v_hlist s') (put_obj i (set_o_handles (o_handles o + 1) o) s) /\
       forall j, In j (v_hlist s') <-> j = i \/ In j (v_hlist s)) as [Es Hl].
    { destruct (Z.ltb_spec 1 (o_handles o + 1)).
      - rewrite (wr_obj_ok _ _ _ _ Ho) in E. injection E as _ <-. split; [destruct s; reflexivity|].
        intro j. unfold put_obj. vs. split; auto. intros [J|J]; auto. subst j. apply L. unfold handles_of. rewrite Ho. lia.
      - replace (o_handles o + 1) with 1 in * by lia. change (1 =? 0) with false in E. cbv iota in E.
        destruct (existsb (Z.eqb i) (v_hlist s)); [discriminate|].
        rewrite (bind_run _ _ _ _ _ (wr_obj_ok _ _ _ _ Ho)) in E. unfold modify in E. injection E as _ <-.
        split; [reflexivity|]. intro j. unfold put_obj. vs. cbn [In]. split; intros [J|J]; auto. }
    split.
    + rewrite Es. apply K; auto; unfold INVALID, W32 in *; lia.
    + exists ([] ++ [Acquired i]). rewrite Ev in E0. destruct x. eapply hi_acquire; [constructor| | |exact E0].
      * exists o. auto.
      * unfold handles_of. rewrite Ho. unfold INVALID, W32 in *. lia.
Qed.

Lemma hist_release v s x s' : sane s -> handles_of s (v_data v) <> 0 -> release_handle v s = Ok (x, s') ->
  sane s' /\ exists l, history s l s'.
Proof.
  intros S N E. pose proof S as [T R L]. destruct (obj_of_value s v) as [i|] eqn:O.
  2:{ unfold release_handle in E. unfold mbind at 1, gets at 1 in E. rewrite O in E. eapply hist_calm; [|exact S|exact E]. calms. }
  destruct (obj_of_value_some _ _ _ O) as (Ty & -> & o & Ho).
  assert (v = vobj (v_data v)) as Ev by (destruct v; cbn in *; subst; reflexivity).
  pose proof (R _ _ Ho) as Ro. set (i := v_data v) in *.
  pose proof E as E0. unfold release_handle in E. unfold mbind at 1, gets at 1 in E. rewrite O in E.
  rewrite (bind_run _ _ _ _ _ (rd_obj_ok _ _ _ Ho)) in E. cbv zeta in E.
  unfold handles_of in N. rewrite Ho in N. destruct (Z.eqb_spec (o_handles o) 0); [contradiction|].
  unfold mbind at 1, ret at 1 in E. rewrite u32_id in E by (unfold is_u32, INVALID, W32 in *; lia).
  rewrite (bind_run _ _ _ _ _ (wr_obj_ok _ _ _ _ Ho)) in E.
  destruct (put_obj_wf s i o (set_o_handles (o_handles o - 1) o) T Ho) as [T' G].
  assert (s' = set_hlist (v_hlist s') (put_obj i (set_o_handles (o_handles o - 1) o) s) /\
     forall j, In j (v_hlist s') <-> (j <> i \/ o_handles o <> 1) /\ In j (v_hlist s)) as [Es Hl].
  { destruct (Z.ltb_spec 0 (o_handles o - 1)).
    - unfold ret in E. injection E as _ <-. split; [destruct s; reflexivity|].
      intro j. unfold put_obj. vs. split; [|tauto]. intro J. split; auto. right. lia.
    - destruct (existsb (Z.eqb i) (v_hlist s)); [|discriminate]. unfold modify in E. injection E as _ <-.
      split; [reflexivity|]. intro j. unfold put_obj. vs. rewrite filter_In. destruct (Z.eqb_spec j i); cbn [negb].
      + split; [intros [_ X]; discriminate|]. intros [[X|X] _]; [congruence|lia].
      + split; [tauto|]. intros [_ X]. auto. }
  split.
  - rewrite Es. split; [exact T'| |].
    + intros j q Q. change (get_obj (put_obj i (set_o_handles (o_handles o - 1) o) s) j = Some q) in Q. rewrite G in Q.
      destruct (Z.eqb_spec j i); [|eauto]. injection Q as <-. cbn. unfold W32 in *. lia.
    + intro j. vs. rewrite Hl. unfold handles_of.
      change (get_obj (set_hlist (v_hlist s') (put_obj i (set_o_handles (o_handles o - 1) o) s)) j) with
        (get_obj (put_obj i (set_o_handles (o_handles o - 1) o) s) j). rewrite G, L. unfold handles_of.
      destruct (Z.eqb_spec j i) as [J|J]; [subst j; rewrite Ho; cbn|]; split; try tauto.
      * intros [[X|X] Y]; [congruence|lia].
      * intro X. split; [right|]; lia.
  - exists ([] ++ [Released i]). rewrite Ev in E0. destruct x. eapply hi_release; [constructor| | |exact E0].
    + exists o. auto.
    + unfold handles_of. rewrite Ho. auto.
Qed.

(** ** A collection, without assuming a well-formed VM *)
Record marked (p : Z) (s s' : vm) : Prop := {
  mk_hlist : v_hlist s' = v_hlist s;
  mk_cleanups : v_cleanups s' = v_cleanups s;
  mk_types : v_exttypes s' = v_exttypes s;
  mk_wf : tab_wf (v_objs s) -> tab_wf (v_objs s');
  mk_obj : forall i, match get_obj s i with
                     | None => get_obj s' i = None
                     | Some o => exists g, get_obj s' i = Some (set_o_gc g o) /\ (g = o_gc o \/ g = p)
                     end
}.
Lemma set_o_gc_id o : set_o_gc (o_gc o) o = o. Proof. destruct o; reflexivity. Qed.
Lemma same_marked p s s' : same s s' -> marked p s s'.
Proof.
  intros (A & B & C & D & _). split; auto.
  - rewrite A. auto.
  - intro i. unfold get_obj. rewrite A. destruct (tab_get (v_objs s) i) as [o|]; auto.
    exists (o_gc o). rewrite set_o_gc_id. auto.
Qed.
Lemma marked_trans p a b c : marked p a b -> marked p b c -> marked p a c.
Proof.
  intros [A1 B1 C1 D1 E1] [A2 B2 C2 D2 E2]. split; try congruence; auto.
  intro i. specialize (E1 i). specialize (E2 i). destruct (get_obj a i) as [o|].
  - destruct E1 as (g & G & Hg). rewrite G in E2. destruct E2 as (g2 & G2 & Hg2). exists g2. split; [rewrite G2; destruct o; reflexivity|].
    osin Hg2. destruct Hg2; [subst g2; auto|auto].
  - rewrite E1 in E2. auto.
Qed.
Definition marks {T} (p : Z) (m : M T) : Prop := forall s x s', tab_wf (v_objs s) -> m s = Ok (x, s') -> marked p s s'.
Lemma marks_calm {T} p (m : M T) : calm m -> marks p m.
Proof. intros C s x s' W E. apply same_marked. eapply C; eauto. Qed.
Lemma marks_bind {T U} p (m : M T) (k : T -> M U) : marks p m -> (forall x, marks p (k x)) -> marks p (mbind m k).
Proof.
  intros Hm Hk s y s' W E. destruct (bind_inv _ _ _ _ _ E) as (x & s1 & E1 & E2).
  pose proof (Hm _ _ _ W E1) as M1. eapply marked_trans; [exact M1|]. eapply Hk; [|exact E2]. apply (mk_wf _ _ _ M1 W).
Qed.
Lemma calm_mark_string p i : calm (mark_string p i). Proof. unfold mark_string. calms. Qed.
Lemma calm_gc_add p open i : calm (gc_add_object p open i). Proof. unfold gc_add_object. calms. Qed.
Lemma calm_mark_value p open v : calm (mark_value p open v).
Proof. unfold mark_value. pose proof calm_mark_string. pose proof calm_gc_add. calms; auto. Qed.
Lemma calm_mark_values p vs : forall open, calm (mark_values p open vs).
Proof. induction vs; intro open; cbn [mark_values]; pose proof calm_mark_value; calms; auto. Qed.
Lemma calm_coro_values d : calm (coro_values d). Proof. unfold coro_values. calms. Qed.

Lemma marks_wr p s i o s' x : tab_wf (v_objs s) -> get_obj s i = Some o -> wr_obj i (set_o_gc p o) s = Ok (x, s') -> marked p s s'.
Proof.
  intros W Ho E. rewrite (wr_obj_ok _ _ _ _ Ho) in E. injection E as _ <-.
  destruct (put_obj_wf s i o (set_o_gc p o) W Ho) as [T G]. split; auto.
  intro j. rewrite G. destruct (Z.eqb_spec j i) as [J|J].
  - subst j. rewrite Ho. exists p. auto.
  - destruct (get_obj s j) as [q|]; auto. exists (o_gc q). rewrite set_o_gc_id. auto.
Qed.

Lemma mark_object_marks p open i s x s' : tab_wf (v_objs s) -> mark_object hostmark p open i s = Ok (x, s') ->
  marked p s s' /\ exists o', get_obj s' i = Some o' /\ o_gc o' = p.
Proof.
  intros W E. unfold mark_object in E.
  destruct (bind_inv _ _ _ _ _ E) as (o & s1 & E1 & E2). destruct (rd_inv _ _ _ _ E1) as [-> Ho].
  destruct (Z.eqb_spec (o_gc o) p) as [Hp|Hp].
  - unfold ret in E2. injection E2 as _ <-. split; [apply same_marked, same_refl|eauto].
  - destruct (bind_inv _ _ _ _ _ E2) as (u & s2 & E3 & E4). clear E E1 E2.
    pose proof (marks_wr _ _ _ _ _ _ W Ho E3) as M1.
    assert (get_obj s2 i = Some (set_o_gc p o)) as G2.
    { rewrite (wr_obj_ok _ _ _ _ Ho) in E3. injection E3 as _ <-.
      destruct (put_obj_wf s i o (set_o_gc p o) W Ho) as [T G]. rewrite G, Z.eqb_refl. auto. }
    match type of E4 with ?m s2 = _ => assert (calm m) as C end.
    { pose proof calm_mark_values. pose proof calm_coro_values. calms; auto. }
    pose proof (C _ _ _ E4) as Sm. split; [eapply marked_trans; [exact M1|apply same_marked; auto]|].
    exists (set_o_gc p o). split; [eapply same_get; eauto|reflexivity].
Qed.

Lemma mark_objects_marks p ids : forall open s x s', tab_wf (v_objs s) -> mark_objects hostmark p open ids s = Ok (x, s') ->
  marked p s s' /\ forall i, In i ids -> exists o', get_obj s' i = Some o' /\ o_gc o' = p.
Proof.
  induction ids as [|a ids IH]; intros open s x s' W E; cbn [mark_objects] in E.
  - unfold ret in E. injection E as _ <-. split; [apply same_marked, same_refl|intros i []].
  - destruct (bind_inv _ _ _ _ _ E) as (o & s1 & E1 & E2). destruct (mark_object_marks _ _ _ _ _ _ W E1) as (M1 & q & Hq & Gq).
    destruct (IH _ _ _ _ (mk_wf _ _ _ M1 W) E2) as (M2 & K). split; [eapply marked_trans; eauto|].
    intros i [J|J]; [|auto]. subst i. pose proof (mk_obj _ _ _ M2 a) as Q. rewrite Hq in Q. destruct Q as (g & G & Hg).
    exists (set_o_gc g q). split; auto. os. destruct Hg; congruence.
Qed.

Lemma mark_referenced_marks p fuel : forall open, marks p (mark_referenced hostmark fuel p open).
Proof.
  induction fuel as [|f IH]; intros open; destruct open as [|i r]; cbn [mark_referenced]; try (apply marks_calm; calms; fail).
  apply marks_bind; [|auto]. intros s x s' W E. apply (mark_object_marks _ _ _ _ _ _ W E).
Qed.

Definition dies (p : Z) (s : vm) (i : Z) : bool :=
  match get_obj s i with Some o => negb (p =? o_gc o) | None => false end.
Definition calls (p : Z) (s : vm) (i : Z) : list (Z * Z * option Z) :=
  match get_obj s i with Some o => if negb (p =? o_gc o) then owed s i o else [] | None => [] end.
Definition inb (i : Z) (l : list Z) : bool := existsb (Z.eqb i) l.

Lemma calls_app s l i : calls_for (set_cleanups (v_cleanups s ++ l) s) i =
  calls_for s i ++ filter (fun c : Z * Z * option Z => snd (fst c) =? i) l.
Proof. unfold calls_for. vs. apply filter_app. Qed.
Definition whenb {T} (b : bool) (l : list T) : list T := if b then l else [].

Lemma cleanup_raw i o s x s' : get_obj s i = Some o -> cleanup_object i s = Ok (x, s') ->
  v_objs s' = v_objs s /\ v_hlist s' = v_hlist s /\ v_exttypes s' = v_exttypes s /\
  forall j, calls_for s' j = calls_for s j ++ whenb (j =? i) (owed s i o).
Proof.
  intros Ho E. unfold cleanup_object in E. unfold mbind at 1, gets at 1 in E. rewrite Ho in E.
  assert (forall s', same s s' -> forall j, calls_for s' j = calls_for s j) as K.
  { intros t (_ & _ & C & _) j. unfold calls_for. rewrite C. reflexivity. }
  assert (has_callback s o = false -> same s s' -> v_objs s' = v_objs s /\ v_hlist s' = v_hlist s /\ v_exttypes s' = v_exttypes s /\
    forall j, calls_for s' j = calls_for s j ++ whenb (j =? i) (owed s i o)) as Q.
  { intros H Sm. pose proof (K s' Sm) as K'. destruct Sm as (A & B & C & D & _). sp; auto. intro j.
    unfold owed. rewrite H, K'. destruct (j =? i); cbn; rewrite app_nil_r; auto. }
  destruct (Z.eqb_spec (o_ext o) INVALID) as [N|N].
  { unfold ret in E. injection E as _ <-. apply Q; [|apply same_refl]. unfold has_callback. rewrite N. reflexivity. }
  destruct (znth (v_exttypes s) (o_ext o)) as [et|] eqn:Et.
  2:{ apply Q; [unfold has_callback; rewrite Et; apply andb_false_r|]. eapply calm_error; eauto. }
  destruct (et_cleanup et) eqn:Ec.
  2:{ unfold ret in E. injection E as _ <-. apply Q; [|apply same_refl]. unfold has_callback. rewrite Et, Ec. apply andb_false_r. }
  unfold mbind at 1, modify at 1 in E. set (s1 := set_cleanups (v_cleanups s ++ [(o_ext o, i, o_data o)]) s) in *.
  assert (same s1 s') as Sm.
  { match type of E with ?m s1 = _ => assert (calm m) as C by calms end. eapply C; eauto. }
  assert (has_callback s o = true) as Hc.
  { unfold has_callback. destruct (Z.eqb_spec (o_ext o) INVALID); [contradiction|]. rewrite Et, Ec. reflexivity. }
  destruct Sm as (A & B & C & D & _). sp; auto. intro j. unfold owed. rewrite Hc.
  unfold calls_for at 1. rewrite C. pose proof (calls_app s [(o_ext o, i, o_data o)] j) as Q'. unfold calls_for in Q' at 1.
  unfold s1. rewrite Q'. cbn [filter fst snd]. rewrite Z.eqb_sym. destruct (j =? i); reflexivity.
Qed.

Lemma clean_loop_raw p idx : NoDup idx -> forall s x s', tab_wf (v_objs s) -> clean_old_objects_loop idx p s = Ok (x, s') ->
  v_hlist s' = v_hlist s /\ v_exttypes s' = v_exttypes s /\ tab_wf (v_objs s') /\
  (forall i, get_obj s' i = if inb i idx && dies p s i then None else get_obj s i) /\
  (forall i, calls_for s' i = calls_for s i ++ whenb (inb i idx) (calls p s i)).
Proof.
  induction idx as [|a idx IH]; intros ND s x s' W E; cbn [clean_old_objects_loop] in E.
  - unfold ret in E. injection E as _ <-. sp; auto. intro i. cbn. rewrite app_nil_r. auto.
  - apply NoDup_cons_iff in ND. destruct ND as [NI ND]. unfold mbind at 1, gets at 1 in E.
    destruct (bind_inv _ _ _ _ _ E) as (u & s1 & E1 & E2). clear E.
    assert (inb a idx = false) as Na.
    { unfold inb. destruct (existsb (Z.eqb a) idx) eqn:X; auto. exfalso. apply existsb_exists in X. destruct X as (y & Y & Ey).
      apply Z.eqb_eq in Ey. subst y. auto. }
    assert (v_hlist s1 = v_hlist s /\ v_exttypes s1 = v_exttypes s /\ tab_wf (v_objs s1) /\
      (forall i, get_obj s1 i = if (i =? a) && dies p s i then None else get_obj s i) /\
      (forall i, calls_for s1 i = calls_for s i ++ whenb (i =? a) (calls p s i))) as (H1 & T1 & W1 & G1 & C1).
    { assert (dies p s a = false -> calls p s a = []) as DC.
      { unfold dies, calls. destruct (get_obj s a); auto. intros ->. reflexivity. }
      assert (dies p s a = false -> s1 = s -> v_hlist s1 = v_hlist s /\ v_exttypes s1 = v_exttypes s /\ tab_wf (v_objs s1) /\
        (forall i, get_obj s1 i = if (i =? a) && dies p s i then None else get_obj s i) /\
        (forall i, calls_for s1 i = calls_for s i ++ whenb (i =? a) (calls p s i))) as Q.
      { intros D ->. sp; auto.
        - intro i. destruct (Z.eqb_spec i a) as [J|J]; auto. subst i. rewrite D. reflexivity.
        - intro i. destruct (Z.eqb_spec i a) as [J|J]; [subst i; rewrite (DC D)|]; cbn; rewrite app_nil_r; auto. }
      destruct (get_obj s a) as [o|] eqn:Ho.
      2:{ unfold ret in E1. injection E1 as _ <-. apply Q; auto. unfold dies. rewrite Ho. auto. }
      destruct (Z.eqb_spec p (o_gc o)) as [Hp|Hp].
      { unfold ret in E1. injection E1 as _ <-. apply Q; auto. unfold dies. rewrite Ho. destruct (Z.eqb_spec p (o_gc o)); [auto|contradiction]. }
      clear Q DC. assert (dies p s a = true) as D by (unfold dies; rewrite Ho; destruct (Z.eqb_spec p (o_gc o)); auto).
      assert (calls p s a = owed s a o) as Ca by (unfold calls; rewrite Ho; destruct (Z.eqb_spec p (o_gc o)); [contradiction|reflexivity]).
      destruct (bind_inv _ _ _ _ _ E1) as (u1 & s2 & E3 & E4). destruct (cleanup_raw _ _ _ _ _ Ho E3) as (A1 & A2 & A3 & A4).
      unfold mbind at 1, gets at 1 in E4. destruct (bind_inv _ _ _ _ _ E4) as (t & s3 & E5 & E6).
      unfold lift in E5. destruct (tab_erase (v_objs s2) a) as [t'|] eqn:Et; [|discriminate]. injection E5 as <- <-.
      unfold modify in E6. injection E6 as _ <-. rewrite A1 in Et.
      destruct (tab_erase_ok _ a o W Ho) as (t2 & Et2 & W2 & Hh & G2). assert (t2 = t') by congruence. subst t2.
      split; [exact A2|]. split; [exact A3|]. split; [exact W2|]. split.
      - intro i. unfold get_obj. vs. rewrite G2. destruct (Z.eqb_spec i a) as [J|J]; auto. subst i. rewrite D. reflexivity.
      - intro i. change (calls_for (set_objs t' s2) i) with (calls_for s2 i). rewrite A4.
        destruct (Z.eqb_spec i a) as [J|J]; auto. subst i. rewrite Ca. reflexivity. }
    destruct (IH ND _ _ _ W1 E2) as (H2 & T2 & W2 & G2 & C2).
    assert (forall i, i <> a -> dies p s1 i = dies p s i /\ calls p s1 i = calls p s i) as Other.
    { intros i J. unfold dies, calls, owed, has_callback. rewrite G1. destruct (Z.eqb_spec i a); [contradiction|]. cbn [andb]. rewrite T1. auto. }
    sp; auto; try congruence.
    + intro i. rewrite G2. cbn [inb existsb]. fold (inb i idx). destruct (Z.eqb_spec i a) as [J|J].
      * subst i. rewrite Na. cbn [andb orb]. rewrite G1, Z.eqb_refl. reflexivity.
      * cbn [orb]. destruct (Other i J) as [-> _]. rewrite G1. destruct (Z.eqb_spec i a); [contradiction|]. reflexivity.
    + intro i. rewrite C2, C1. cbn [inb existsb]. fold (inb i idx). destruct (Z.eqb_spec i a) as [J|J].
      * subst i. rewrite Na. cbn [whenb orb]. rewrite app_nil_r. reflexivity.
      * destruct (Other i J) as [_ ->]. cbn [whenb orb]. rewrite app_nil_r. reflexivity.
Qed.

Lemma marked_handles p s s' i : marked p s s' -> handles_of s' i = handles_of s i.
Proof.
  intro Mk. pose proof (mk_obj _ _ _ Mk i) as Q. unfold handles_of. destruct (get_obj s i) as [o|].
  - destruct Q as (g & -> & _). reflexivity.
  - rewrite Q. reflexivity.
Qed.

(** What a collection does, in terms of the table before it. *)
Lemma gc_raw s x s' : sane s -> garbage_collect hostmark s = Ok (x, s') ->
  sane s' /\ v_exttypes s' = v_exttypes s /\
  (forall i, handles_of s' i = handles_of s i) /\
  (forall i, live s' i -> live s i) /\
  (forall i o, get_obj s i = Some o ->
     (exists g, get_obj s' i = Some (set_o_gc g o)) /\ calls_for s' i = calls_for s i \/
     ~ live s' i /\ calls_for s' i = calls_for s i ++ owed s i o) /\
  (forall i, ~ live s i -> calls_for s' i = calls_for s i).
Proof.
  intros [T R L] E. unfold garbage_collect in E. unfold mbind at 1, modify at 1 in E. unfold mbind at 1, gets at 1 in E.
  unfold mbind at 1, gets at 1 in E. set (s0 := set_gcpass (u32 (v_gcpass s + 1)) s) in *.
  set (p := v_gcpass s0) in *. assert (same s s0) as Sm0 by (repeat split).
  destruct (bind_inv _ _ _ _ _ E) as (open1 & s1 & E1 & E2). clear E.
  destruct (mark_objects_marks p _ _ s0 _ _ T E1) as (M1 & K1).
  match type of E2 with ?m s1 = _ => assert (exists s4 s5, marked p s1 s4 /\ clean_old_strings p s4 = Ok (tt, s5) /\ clean_old_objects p s5 = Ok (x, s')) as (s4 & s5 & M2 & E3 & E4) end.
  { pose proof (mk_wf _ _ _ M1 T) as W1.
    destruct (bind_inv _ _ _ _ _ E2) as (rc & t1 & F1 & F2). pose proof (calm_get_ctx _ _ _ _ F1) as Q1.
    destruct (bind_inv _ _ _ _ _ F2) as (u2 & t2 & F3 & F4).
    assert (same t1 t2) as Q2 by (match type of F3 with (if ?z then _ else _) _ = _ => destruct z end; [discriminate|unfold ret in F3; injection F3 as _ <-; apply same_refl]).
    destruct (bind_inv _ _ _ _ _ F4) as (o2 & t3 & F5 & F6). pose proof (calm_mark_values _ _ _ _ _ _ F5) as Q3.
    destruct (bind_inv _ _ _ _ _ F6) as (cc & t4 & F7 & F8). pose proof (calm_cur _ _ _ F7) as Q4.
    destruct (bind_inv _ _ _ _ _ F8) as (o3 & t5 & F9 & F10). pose proof (calm_mark_value _ _ _ _ _ _ F9) as Q5.
    destruct (bind_inv _ _ _ _ _ F10) as (u6 & t6 & F11 & F12).
    assert (same t5 t6) as Q6 by (match type of F11 with (if ?z then _ else _) _ = _ => destruct z end; [discriminate|unfold ret in F11; injection F11 as _ <-; apply same_refl]).
    destruct (bind_inv _ _ _ _ _ F12) as (o4 & t7 & F13 & F14). pose proof (calm_mark_values _ _ _ _ _ _ F13) as Q7.
    unfold mbind at 1, gets at 1 in F14.
    destruct (bind_inv _ _ _ _ _ F14) as (u8 & t8 & F15 & F16).
    assert (same s1 t7) as Q by (repeat (eapply same_trans; [eassumption|]); apply same_refl).
    assert (marked p s1 t8) as M8.
    { eapply marked_trans; [apply same_marked; exact Q|]. eapply mark_referenced_marks; [|exact F15]. destruct Q as (-> & _). auto. }
    destruct (bind_inv _ _ _ _ _ F16) as ([] & t9 & F17 & F18). exists t8, t9. auto. }
  clear E2. assert (same s4 s5) as Sm5.
  { assert (calm (clean_old_strings p)) as C by (unfold clean_old_strings; calms). eapply C; eauto. }
  unfold clean_old_objects in E4. unfold mbind at 1, gets at 1 in E4.
  assert (marked p s s5) as Mk.
  { eapply marked_trans; [apply same_marked; exact Sm0|]. eapply marked_trans; [exact M1|]. eapply marked_trans; [exact M2|].
    apply same_marked. auto. }
  assert (forall i, In i (v_hlist s) -> exists o', get_obj s5 i = Some o' /\ o_gc o' = p) as K5.
  { intros i J. destruct (K1 i J) as (o1 & G1 & P1). pose proof (mk_obj _ _ _ M2 i) as Q. rewrite G1 in Q. destruct Q as (g & G & Hg).
    exists (set_o_gc g o1). split; [eapply same_get; eauto|]. os. destruct Hg; congruence. }
  pose proof (mk_wf _ _ _ Mk T) as W5.
  destruct (clean_loop_raw p _ (NoDup_zseq _ _) _ _ _ W5 E4) as (H6 & T6 & W6 & G6 & C6).
  assert (forall i o, get_obj s5 i = Some o -> inb i (zseq 0 (Z.to_nat (t_cap (v_objs s5)))) = true) as In5.
  { intros i o Ho. unfold inb. apply existsb_exists. exists i. split; [|apply Z.eqb_refl]. apply In_zseq.
    unfold get_obj in Ho. pose proof (tab_get_range _ _ _ Ho). unfold t_cap in *; lia. }
  assert (forall i, handles_of s' i = handles_of s i) as HH.
  { intro i. rewrite <- (marked_handles p s s5 i Mk). unfold handles_of. rewrite G6.
    destruct (inb i _ && dies p s5 i) eqn:D; auto. apply andb_prop in D. destruct D as [_ D].
    unfold dies in D. destruct (get_obj s5 i) as [o5|] eqn:G5; [|discriminate].
    destruct (Z.eq_dec (o_handles o5) 0) as [Z0|N]; auto. exfalso.
    assert (In i (v_hlist s)) as J.
    { apply L. rewrite <- (marked_handles p s s5 i Mk). unfold handles_of. rewrite G5. auto. }
    destruct (K5 i J) as (q & Gq & Pq). assert (q = o5) by congruence. subst q. rewrite Pq, Z.eqb_refl in D. discriminate. }
  assert (forall i, live s' i -> live s i) as LL.
  { intros i [o Ho]. rewrite G6 in Ho. destruct (_ && _); [discriminate|]. pose proof (mk_obj _ _ _ Mk i) as Q.
    destruct (get_obj s i) as [q|] eqn:Gs; [exists q; auto|congruence]. }
  split; [|split; [|split; [exact HH|split; [exact LL|split]]]].
  - split; auto.
    + intros i o Ho. destruct (LL i (ex_intro _ o Ho)) as [q Hq]. pose proof (HH i) as Q. unfold handles_of in Q. rewrite Ho, Hq in Q. rewrite Q. eauto.
    + intro i. rewrite H6, (mk_hlist _ _ _ Mk), HH. apply L.
  - rewrite T6. apply (mk_types _ _ _ Mk).
  - intros i o Ho. pose proof (mk_obj _ _ _ Mk i) as Q. rewrite Ho in Q. destruct Q as (g & G5 & _).
    assert (calls_for s5 i = calls_for s i) as Cs by (unfold calls_for; rewrite (mk_cleanups _ _ _ Mk); reflexivity).
    assert (owed s5 i (set_o_gc g o) = owed s i o) as Hc by (unfold owed, has_callback; rewrite (mk_types _ _ _ Mk); reflexivity).
    specialize (G6 i). specialize (C6 i). rewrite (In5 _ _ G5) in G6, C6. cbn [andb whenb] in G6, C6. unfold dies in G6. unfold calls in C6.
    rewrite G5 in G6, C6. destruct (negb (p =? o_gc (set_o_gc g o))).
    + right. split; [intros [q Hq]; congruence|]. rewrite C6, Cs, Hc. reflexivity.
    + left. split; [eexists; exact G6|]. rewrite C6, Cs, app_nil_r. reflexivity.
  - intros i N. assert (get_obj s i = None) as Gn by (destruct (get_obj s i) eqn:X; auto; exfalso; apply N; eexists; eauto).
    pose proof (mk_obj _ _ _ Mk i) as Q. rewrite Gn in Q. rewrite C6. unfold calls. rewrite Q.
    unfold calls_for. rewrite (mk_cleanups _ _ _ Mk). destruct (inb _ _); apply app_nil_r.
Qed.

(** The objects a collection frees, as a list. *)
Definition freed_list (s s' : vm) : list (Z * list (Z * Z * option Z)) :=
  flat_map (fun i => match get_obj s i, get_obj s' i with
                     | Some o, None => [(i, owed s i o)]
                     | _, _ => []
                     end) (zseq 0 (Z.to_nat (t_cap (v_objs s)))).
Lemma freed_list_in s s' i b : In (i, b) (freed_list s s') <->
  exists o, get_obj s i = Some o /\ owed s i o = b /\ ~ live s' i.
Proof.
  unfold freed_list. rewrite in_flat_map. split.
  - intros (j & _ & J). destruct (get_obj s j) as [o|] eqn:G; [|destruct J]. destruct (get_obj s' j) eqn:G'; [destruct J|].
    destruct J as [J|[]]. injection J as <- <-. exists o. sp; auto. intros [q Q]. congruence.
  - intros (o & G & Hb & N). exists i. split.
    + apply In_zseq. unfold get_obj in G. pose proof (tab_get_range _ _ _ G). unfold t_cap in *; lia.
    + rewrite G. destruct (get_obj s' i) eqn:G'; [exfalso; apply N; eexists; eauto|]. left. congruence.
Qed.
Lemma freed_list_nodup s s' : NoDup (map fst (freed_list s s')).
Proof.
  unfold freed_list. assert (NoDup (zseq 0 (Z.to_nat (t_cap (v_objs s))))) as ND by apply NoDup_zseq. revert ND.
  generalize (zseq 0 (Z.to_nat (t_cap (v_objs s)))) as l. induction l as [|a l IH]; intro ND; [constructor|].
  apply NoDup_cons_iff in ND. destruct ND as [NI ND]. cbn [flat_map]. rewrite map_app.
  assert (forall i, In i (map fst (flat_map (fun i => match get_obj s i, get_obj s' i with
     | Some o, None => [(i, owed s i o)] | _, _ => [] end) l)) -> In i l) as Sub.
  { intros i J. apply in_map_iff in J. destruct J as ([i' b] & Ei & J). cbn in Ei. subst i'. apply in_flat_map in J.
    destruct J as (j & J1 & J2). destruct (get_obj s j); [|destruct J2]. destruct (get_obj s' j); [destruct J2|].
    destruct J2 as [J2|[]]. congruence. }
  destruct (get_obj s a); [|auto]. destruct (get_obj s' a); [auto|]. cbn [map fst app]. constructor; auto.
Qed.

Lemma hist_gc : hist (garbage_collect hostmark).
Proof.
  intros s x s' S E. destruct (gc_raw s x s' S E) as (S' & _). split; auto.
  exists ([] ++ [Collected (freed_list s s')]). destruct x. eapply hi_collect; [constructor|exact E|apply freed_list_nodup|].
  apply freed_list_in.
Qed.

(** ** Opcodes *)
Create HintDb hist.
Hint Resolve hist_clear_entry hist_find hist_el_set hist_set_ext_type hist_set_ext_data hist_clear_ext hist_create
  hist_acquire hist_gc : hist.
Ltac hist1 :=
  match goal with
  | |- hist _ => solve [apply hist_calm; calms]
  | |- hist _ => solve [auto with hist nocore]
  | |- hist (mbind _ _) => apply hist_bind; [|intro]
  | |- hist (match ?z with _ => _ end) => destruct z
  | |- hist (let _ := _ in _) => cbv zeta
  end.
Ltac hists := repeat hist1.

Lemma hist_find_public v k b : hist (find_or_add_entry_public v k b). Proof. unfold find_or_add_entry_public. hists. Qed.
Lemma hist_clear_public v k : hist (clear_entry_public v k). Proof. unfold clear_entry_public. hists. Qed.
Hint Resolve hist_find_public hist_clear_public : hist.
Lemma hist_resolve fuel : forall fv argc, hist (resolve_callee fuel fv argc).
Proof. induction fuel; intros fv argc; cbn [resolve_callee]; hists. Qed.
Lemma hist_co_object ci out : hist (coroutine_object ci out). Proof. unfold coroutine_object. hists. Qed.
Hint Resolve hist_resolve hist_co_object : hist.

Section WithHost.
Variable host : Z -> list value -> M value.
Hypothesis host_hist : forall cb args, hist (host cb args).
Hint Resolve host_hist : hist.

Lemma hist_call_native f n : hist (call_native host f n). Proof. unfold call_native. hists. Qed.
Hint Resolve hist_call_native : hist.
Lemma hist_op_call : hist (op_call host). Proof. unfold op_call. hists. Qed.
Hint Resolve hist_op_call : hist.
Lemma hist_op_co_create : hist (op_coroutine_create host). Proof. unfold op_coroutine_create. hists. Qed.
Hint Resolve hist_op_co_create : hist.

Lemma hist_opcode n : hist (opcode host n).
Proof.
  unfold opcode.
  repeat match goal with |- hist (match ?z with _ => _ end) => destruct z end;
  try (apply hist_calm, calm_ret);
  try (unfold op_add, op_subtract, op_multiply, op_divide, op_negate, op_modulo, op_push_literal, op_pop, op_popn, op_stack_peek,
    op_stack_poke, op_static_poke, op_static_peek, op_jump, op_return, op_end, op_jz, op_gt, op_lt, op_ge, op_le, op_eq, op_ne,
    op_eqsame, op_not, op_and, op_or, op_create_object, op_field_get, op_field_set, op_prepare_self_call, op_push_nil,
    op_yield, op_resume, op_is_finished, op_len; hists).
Qed.

Lemma hist_tick : hist (tick hostmark). Proof. unfold tick. hists. Qed.
Hint Resolve hist_opcode hist_tick : hist.
Lemma hist_iterate : hist (iterate hostmark host). Proof. unfold iterate. hists. Qed.
End WithHost.

Lemma hist_release_case v (m : M value) : hist m ->
  hist (n <- get_handle_count v ;; if n =? 0 then m else release_handle v ;;; m).
Proof.
  intros HU s x s' S E. destruct (bind_inv _ _ _ _ _ E) as (n & s1 & E1 & E2).
  pose proof (calm_handle_count v _ _ _ E1) as Sm. pose proof (same_sane _ _ Sm S) as S1.
  assert (exists l, history s l s1) as (l1 & H1) by (apply hist_one, same_uneventful; auto).
  destruct (Z.eqb_spec n 0) as [N|N].
  - destruct (HU _ _ _ S1 E2) as (S2 & l2 & H2). split; auto. exists (l1 ++ l2). eapply history_app; eauto.
  - destruct (bind_inv _ _ _ _ _ E2) as (u & s2 & E3 & E4).
    assert (handles_of s1 (v_data v) <> 0) as Nz.
    { unfold get_handle_count in E1. unfold mbind at 1, gets at 1 in E1. destruct (obj_of_value s v) as [i|] eqn:O.
      - destruct (obj_of_value_some _ _ _ O) as (Ty & -> & o & Ho). rewrite (bind_run _ _ _ _ _ (rd_obj_ok _ _ _ Ho)) in E1.
        unfold ret in E1. injection E1 as <- <-. unfold handles_of. rewrite Ho. auto.
      - destruct (bind_inv _ _ _ _ _ E1) as (u' & s3 & F1 & F2). unfold ret in F2. injection F2 as <- _. congruence. }
    destruct (hist_release _ _ _ _ S1 Nz E3) as (S2 & l2 & H2). destruct (HU _ _ _ S2 E4) as (S3 & l3 & H3).
    split; auto. exists ((l1 ++ l2) ++ l3). eapply history_app; [eapply history_app; eauto|auto].
Qed.
Lemma hist_unless m : hist m -> hist (unless_error m).
Proof. intro. unfold unless_error. hists; auto. Qed.
Lemma hist_run_host p : hist (run_host hostmark p).
Proof.
  induction p as [v|m k IH|t k IH|k IH|ob key k IH|ob key v k IH|ob key k IH|v k IH|v k IH|k IH|v ty k IH|v d k IH]; cbn [run_host];
    try (apply hist_release_case, hist_unless; exact IH);
    unfold host_read, host_write; hists; try (apply hist_unless; auto).
Qed.
End Hist.
