(** * CtxProofs: instructions leave other contexts alone

    [lc b s s']: the running context is the same in [s] and [s'], and every
    context of [s] is the same in [s'] or was freed; if [b], the running
    context may also have a different stack and instruction pointer. *)
From Verif Require Import Base BaseFacts.
From Verif Require Import MonadFacts VmModel HostModel.

(** A context slot with a possibly different stack and instruction pointer. *)
Definition touched (x y : option ctx) : Prop :=
  match x, y with
  | Some c, Some c' => c_parent c' = c_parent c /\ c_obj c' = c_obj c /\ c_state c' = c_state c
  | _, None => True
  | None, Some _ => False
  end.
Definition kept (x y : option ctx) : Prop := y = x \/ y = None.

Record lc (b : bool) (s s' : vm) : Prop := {
  lc_cur : v_cur s' = v_cur s;
  lc_len : zlen (v_ctxs s') = zlen (v_ctxs s);
  lc_here : forall x, znth (v_ctxs s) (v_cur s) = Some x ->
    exists y, znth (v_ctxs s') (v_cur s) = Some y /\ if b then touched x y else kept x y;
  lc_other : forall i x, i <> v_cur s -> znth (v_ctxs s) i = Some x ->
    exists y, znth (v_ctxs s') i = Some y /\ kept x y
}.
Definition lcl (b : bool) {T} (m : M T) : Prop := forall s x s', m s = Ok (x, s') -> lc b s s'.

Lemma touched_refl x : touched x x. Proof. destruct x; cbn; auto. Qed.
Lemma touched_trans x y z : touched x y -> touched y z -> touched x z.
Proof. destruct x, y, z; cbn; intuition congruence. Qed.
Lemma kept_trans x y z : kept x y -> kept y z -> kept x z.
Proof. unfold kept. intuition congruence. Qed.
Lemma kept_touched x y : kept x y -> touched x y.
Proof. intros [-> | ->]; [apply touched_refl|destruct x; exact I]. Qed.

Lemma lc_refl b s : lc b s s.
Proof. split; auto; intros; eexists; split; eauto; [destruct b; [apply touched_refl|left; auto]|left; auto]. Qed.
Lemma lc_trans b s1 s2 s3 : lc b s1 s2 -> lc b s2 s3 -> lc b s1 s3.
Proof.
  intros [A1 A2 A3 A4] [B1 B2 B3 B4]. split; [congruence|lia| |].
  - intros x Hx. destruct (A3 x Hx) as (y & Hy & K). rewrite A1 in *. destruct (B3 y Hy) as (z & Hz & K2).
    exists z. split; auto. destruct b; [eapply touched_trans; eauto|eapply kept_trans; eauto].
  - intros i x Hi Hx. destruct (A4 i x Hi Hx) as (y & Hy & K). rewrite A1 in *.
    destruct (B4 i y Hi Hy) as (z & Hz & K2). exists z. split; auto. eapply kept_trans; eauto.
Qed.
Lemma lc_weak b s s' : lc false s s' -> lc b s s'.
Proof.
  intros [A B C D]. split; auto. intros x Hx. destruct (C x Hx) as (y & Hy & K). exists y. split; auto.
  destruct b; auto. apply kept_touched. auto.
Qed.
Lemma lc_vac b s s' : v_ctxs s' = v_ctxs s -> v_cur s' = v_cur s -> lc b s s'.
Proof.
  intros A B. split; auto; rewrite A; auto; intros; eexists; split; eauto; [destruct b; [apply touched_refl|left; auto]|left; auto].
Qed.

Section B.
Variable b : bool.
Lemma l_ret {T} (x : T) : lcl b (ret x).
Proof. intros s y s' E. unfold ret in E. injection E as _ <-. apply lc_refl. Qed.
Lemma l_bind {T U} (m : M T) (k : T -> M U) : lcl b m -> (forall x, lcl b (k x)) -> lcl b (mbind m k).
Proof.
  intros Hm Hk s y s' E. destruct (bind_inv _ _ _ _ _ E) as (x & s1 & E1 & E2).
  eapply lc_trans; [eapply Hm; eauto|eapply Hk; eauto].
Qed.
Lemma l_gets {T} (f : vm -> T) : lcl b (gets f).
Proof. intros s y s' E. unfold gets in E. injection E as _ <-. apply lc_refl. Qed.
Lemma l_lift {T} (r : res T) : lcl b (lift r).
Proof. intros s y s' E. unfold lift in E. destruct r; [|discriminate]. injection E as _ <-. apply lc_refl. Qed.
Lemma l_mub {T} u : lcl b (@mub T u).
Proof. intros s y s' E. discriminate. Qed.
Lemma l_modify f : (forall s, v_ctxs (f s) = v_ctxs s /\ v_cur (f s) = v_cur s) -> lcl b (modify f).
Proof. intros H s y s' E. unfold modify in E. injection E as _ <-. apply lc_vac; apply H. Qed.
Lemma l_get_ctx i : lcl b (get_ctx i).
Proof. intros s y s' E. unfold get_ctx in E. destruct (znth (v_ctxs s) i) as [[c|]|]; [|discriminate..]. injection E as _ <-. apply lc_refl. Qed.
Lemma l_free_ctx i : lcl b (free_ctx i).
Proof.
  intros s y s' E. unfold free_ctx in E. destruct (znth (v_ctxs s) i) as [[c'|]|] eqn:H; [|discriminate..].
  injection E as _ <-. apply lc_weak. pose proof (znth_some_range _ _ _ H) as R.
  assert (forall j x, znth (v_ctxs s) j = Some x -> exists y, znth (zupd (v_ctxs s) i None) j = Some y /\ kept x y) as Q.
  { intros j x Hx. destruct (Z.eq_dec i j) as [E|N].
    - subst j. rewrite znth_zupd_same by auto. exists None. split; auto. right. auto.
    - rewrite znth_zupd_other by auto. exists x. split; auto. left. auto. }
  split; vs; auto. rewrite zlen_zupd. lia.
Qed.
Lemma l_rd_obj i : lcl b (rd_obj i).
Proof. intros s y s' E. unfold rd_obj in E. destruct (get_obj s i); [|discriminate]. injection E as _ <-. apply lc_refl. Qed.
Lemma l_wr_obj i o : lcl b (wr_obj i o).
Proof. intros s y s' E. unfold wr_obj in E. destruct (get_obj s i); [|discriminate]. injection E as _ <-. apply lc_vac; reflexivity. Qed.
Lemma l_of_opt {T} u (o : option T) : lcl b (of_opt u o).
Proof. unfold of_opt. destruct o; [apply l_ret|apply l_mub]. Qed.
Lemma l_self : lcl b self. Proof. apply l_gets. Qed.
End B.
Lemma l_mod_cur f : (forall c, c_parent (f c) = c_parent c /\ c_obj (f c) = c_obj c /\ c_state (f c) = c_state c) ->
  lcl true (mod_cur f).
Proof.
  intros H s y s' E. unfold mod_cur in E. unfold mbind at 1, gets in E.
  unfold get_ctx, mbind, put_ctx in E. destruct (znth (v_ctxs s) (v_cur s)) as [[c|]|] eqn:Hc; [|discriminate..].
  rewrite Hc in E. injection E as _ <-. pose proof (znth_some_range _ _ _ Hc) as R. split; vs; auto.
  - rewrite zlen_zupd. lia.
  - intros x Hx. rewrite Hc in Hx. injection Hx as <-. rewrite znth_zupd_same by auto. eexists. split; [reflexivity|]. apply H.
  - intros i x Hi Hx. rewrite znth_zupd_other by auto. exists x. split; auto. left. auto.
Qed.
Create HintDb lcl.
#[export] Hint Resolve l_self l_of_opt l_ret l_gets l_lift l_mub l_get_ctx l_free_ctx l_rd_obj l_wr_obj : lcl.

Ltac loc1 :=
  match goal with
  | |- lcl _ _ => solve [auto with lcl nocore]
  | |- lcl _ (mbind _ _) => apply l_bind; [|intro]
  | |- lcl _ (modify _) => apply l_modify; intro; solve [split; reflexivity]
  | |- lcl true (mod_cur _) => apply l_mod_cur; intro; solve [repeat split; reflexivity]
  | |- lcl _ (match ?z with _ => _ end) => destruct z
  | |- lcl _ (let _ := _ in _) => cbv zeta
  end.
Ltac loc := repeat loc1.

Section B2.
Variable b : bool.
Lemma l_cur : lcl b cur_ctx. Proof. unfold cur_ctx. loc. Qed.
Hint Resolve l_cur : lcl.
Lemma l_get_ip : lcl b get_ip. Proof. unfold get_ip. loc. Qed.
Lemma l_error m : lcl b (add_error m). Proof. unfold add_error, add_error_ex. loc. Qed.
Lemma l_get_slot i : lcl b (get_slot i). Proof. unfold get_slot. loc. Qed.
Lemma l_stack_size : lcl b stack_size. Proof. unfold stack_size. loc. Qed.
Lemma l_peek_idx n : lcl b (peek_idx n). Proof. unfold peek_idx. loc. Qed.
Hint Resolve l_get_ip l_error l_get_slot l_stack_size l_peek_idx : lcl.
Lemma l_peek n : lcl b (peek n). Proof. unfold peek. loc. Qed.
Lemma l_find_or_add t : lcl b (find_or_add_string t). Proof. unfold find_or_add_string. loc. Qed.
Hint Resolve l_peek l_find_or_add : lcl.
Lemma l_to_int v : lcl b (to_int v). Proof. unfold to_int. loc. Qed.
Lemma l_to_float v : lcl b (to_float v). Proof. unfold to_float. loc. Qed.
Lemma l_to_string v : lcl b (to_string v). Proof. unfold to_string. loc. Qed.
Hint Resolve l_to_int l_to_float l_to_string : lcl.
Lemma l_compare a c t : lcl b (value_compare a c t). Proof. unfold value_compare. loc. Qed.
Lemma l_unimpl t z : lcl b (unimplemented t z). Proof. unfold unimplemented. loc. Qed.
Lemma l_stack_addr v : lcl b (stack_addr v). Proof. unfold stack_addr. loc. Qed.
Hint Resolve l_compare l_unimpl l_stack_addr : lcl.
Lemma l_create : lcl b create_object.
Proof. unfold create_object. loc. apply l_modify. intro s. destruct (_ =? _); split; reflexivity. Qed.
Lemma l_cleanup i : lcl b (cleanup_object i). Proof. unfold cleanup_object. loc. Qed.
Hint Resolve l_create l_cleanup : lcl.
Lemma l_clean_loop idx pass : lcl b (clean_old_objects_loop idx pass).
Proof. induction idx; cbn [clean_old_objects_loop]; loc. Qed.
Hint Resolve l_clean_loop : lcl.
Lemma l_clean_old pass : lcl b (clean_old_objects pass). Proof. unfold clean_old_objects. loc. Qed.
Lemma l_find_key key c : forall p, lcl b (find_key key c p).
Proof. induction c as [|[k v] c IH]; intro p; cbn [find_key]; loc. Qed.
Hint Resolve l_clean_old l_find_key : lcl.
Lemma l_clear_entry ob key : lcl b (clear_entry ob key). Proof. unfold clear_entry. loc. Qed.
Lemma l_find_entry ob key n : lcl b (find_or_add_entry ob key n). Proof. unfold find_or_add_entry. loc. Qed.
Lemma l_el_get i q : lcl b (el_get i q). Proof. unfold el_get. loc. Qed.
Lemma l_el_set i q v : lcl b (el_set i q v). Proof. unfold el_set. loc. Qed.
Hint Resolve l_clear_entry l_find_entry l_el_get l_el_set : lcl.
Lemma l_acquire v : lcl b (acquire_handle v). Proof. unfold acquire_handle. loc. Qed.
Lemma l_release v : lcl b (release_handle v). Proof. unfold release_handle. loc. Qed.
Lemma l_count v : lcl b (get_handle_count v). Proof. unfold get_handle_count. loc. Qed.
Lemma l_set_type v t : lcl b (set_ext_type v t). Proof. unfold set_ext_type. loc. Qed.
Lemma l_clear_ext v : lcl b (clear_ext v). Proof. unfold clear_ext. loc. Qed.
Lemma l_get_type v : lcl b (get_ext_type v). Proof. unfold get_ext_type. loc. Qed.
Lemma l_set_data v d : lcl b (set_ext_data v d). Proof. unfold set_ext_data. loc. Qed.
Lemma l_get_data v : lcl b (get_ext_data v). Proof. unfold get_ext_data. loc. Qed.
Lemma l_clear_public v key : lcl b (clear_entry_public v key). Proof. unfold clear_entry_public. loc. Qed.
Lemma l_find_public v key n : lcl b (find_or_add_entry_public v key n). Proof. unfold find_or_add_entry_public. loc. Qed.
Lemma l_obj_size v : lcl b (get_obj_size v). Proof. unfold get_obj_size. loc. Qed.
Lemma l_entry p : lcl b (entry_value p). Proof. unfold entry_value. loc. Qed.
Lemma l_check_args xf args : forall i, lcl b (check_args xf i args).
Proof. induction args; intro i; cbn [check_args]; loc. Qed.
Hint Resolve l_acquire l_release l_count l_set_type l_clear_ext l_get_type l_set_data l_get_data
  l_clear_public l_find_public l_obj_size l_entry l_check_args : lcl.

Variable hostmark : Z -> Z -> option Z -> list value.
Lemma l_mark_string p i : lcl b (mark_string p i). Proof. unfold mark_string. loc. Qed.
Lemma l_gc_add p o i : lcl b (gc_add_object p o i). Proof. unfold gc_add_object. loc. Qed.
Hint Resolve l_mark_string l_gc_add : lcl.
Lemma l_mark_value p o v : lcl b (mark_value p o v). Proof. unfold mark_value. loc. Qed.
Hint Resolve l_mark_value : lcl.
Lemma l_mark_values p vs : forall o, lcl b (mark_values p o vs).
Proof. induction vs; intro o; cbn [mark_values]; loc. Qed.
Lemma l_coro_values d : lcl b (coro_values d). Proof. unfold coro_values. loc. Qed.
Hint Resolve l_mark_values l_coro_values : lcl.
Lemma l_mark_object p o i : lcl b (mark_object hostmark p o i). Proof. unfold mark_object. loc. Qed.
Hint Resolve l_mark_object : lcl.
Lemma l_mark_objects p ids : forall o, lcl b (mark_objects hostmark p o ids).
Proof. induction ids; intro o; cbn [mark_objects]; loc. Qed.
Lemma l_mark_ref p fuel : forall o, lcl b (mark_referenced hostmark fuel p o).
Proof. induction fuel; intro o; cbn [mark_referenced]; loc. Qed.
Lemma l_clean_strings p : lcl b (clean_old_strings p). Proof. unfold clean_old_strings. loc. Qed.
Hint Resolve l_mark_objects l_mark_ref l_clean_strings : lcl.
Lemma l_gc : lcl b (garbage_collect hostmark). Proof. unfold garbage_collect. loc. Qed.
Hint Resolve l_gc : lcl.

Lemma l_unless m : lcl b m -> lcl b (unless_error m). Proof. intro H. unfold unless_error. loc. Qed.
Lemma l_host_read o k : lcl b (host_read o k). Proof. unfold host_read. loc. Qed.
Lemma l_host_write o k v : lcl b (host_write o k v). Proof. unfold host_write. loc. Qed.
Hint Resolve l_unless l_host_read l_host_write : lcl.
(** Host functions that use the API touch no context. *)
Lemma l_run_host p : lcl b (run_host hostmark p).
Proof. induction p; cbn [run_host]; loc. Qed.

Lemma l_tick : lcl b (tick hostmark). Proof. unfold tick. loc. Qed.
Lemma l_fetch : lcl b fetch. Proof. unfold fetch, self. loc. Qed.
End B2.
#[export] Hint Resolve l_cur l_get_ip l_error l_get_slot l_stack_size l_peek_idx l_peek l_find_or_add l_to_int l_to_float
  l_to_string l_compare l_unimpl l_stack_addr l_create l_cleanup l_clean_old l_find_key l_clear_entry l_find_entry
  l_el_get l_el_set l_acquire l_release l_count l_set_type l_clear_ext l_get_type l_set_data l_get_data l_clear_public
  l_find_public l_obj_size l_entry l_check_args l_gc l_tick l_fetch : lcl.

(** ** Stack operations *)
Lemma l_set_ip z : lcl true (set_ip z). Proof. unfold set_ip. loc. Qed.
Lemma l_set_slot i v : lcl true (set_slot i v). Proof. unfold set_slot. loc. Qed.
Lemma l_push_slot : lcl true push_slot. Proof. unfold push_slot. loc. Qed.
#[export] Hint Resolve l_set_ip l_set_slot l_push_slot : lcl.
Lemma l_push v : lcl true (push v). Proof. unfold push. loc. Qed.
Lemma l_pop : lcl true pop. Proof. unfold pop. loc. Qed.
Lemma l_pop_n n : lcl true (pop_n n). Proof. unfold pop_n. loc. Qed.
#[export] Hint Resolve l_push l_pop l_pop_n : lcl.
Lemma l_push_int n : lcl true (push_int n). Proof. unfold push_int. loc. Qed.
Lemma l_push_float n : lcl true (push_float n). Proof. unfold push_float. loc. Qed.
Lemma l_push_string t : lcl true (push_string t). Proof. unfold push_string. loc. Qed.
#[export] Hint Resolve l_push_int l_push_float l_push_string : lcl.
Lemma l_push_signed z : lcl true (push_signed z). Proof. unfold push_signed. loc. Qed.
Lemma l_push_all vs : lcl true (push_all vs). Proof. induction vs; cbn [push_all]; loc. Qed.
Lemma l_icompare : lcl true internal_compare. Proof. unfold internal_compare. loc. Qed.
Lemma l_shift n c m : lcl true (shift_args n c m). Proof. induction n; cbn [shift_args]; loc. Qed.
#[export] Hint Resolve l_push_signed l_push_all l_icompare l_shift : lcl.
Lemma l_insert_data n d : lcl true (insert_data n d). Proof. unfold insert_data. loc. Qed.
#[export] Hint Resolve l_insert_data : lcl.

Section Op.
Variable host : Z -> list value -> M value.
Hypothesis Hhost : forall cb args, lcl true (host cb args).
Hint Resolve Hhost : lcl.

Lemma l_resolve f : forall v n, lcl true (resolve_callee f v n).
Proof. induction f; intros v n; cbn [resolve_callee]; loc. Qed.
Lemma l_native f n : lcl true (call_native host f n). Proof. unfold call_native. loc. Qed.
Hint Resolve l_resolve l_native : lcl.
Lemma l_call : lcl true (op_call host). Proof. unfold op_call. loc. Qed.

(** All instructions but return, coroutine creation, yield and resume. *)
Lemma l_opcode n : ~ In n [19; 38; 39; 40] -> lcl true (opcode host n).
Proof.
  intro N. unfold opcode.
  repeat match goal with |- lcl _ (match ?z with _ => _ end) => destruct z end;
  try apply l_ret; try apply l_call; try (exfalso; apply N; cbn; tauto);
  unfold op_add, op_subtract, op_multiply, op_divide, op_negate, op_modulo, op_push_literal, op_pop, op_popn,
    op_stack_peek, op_stack_poke, op_static_poke, op_static_peek, op_jump, op_end, op_jz,
    op_gt, op_lt, op_ge, op_le, op_eq, op_ne, op_eqsame, op_not, op_and, op_or, op_create_object, op_field_get,
    op_field_set, op_prepare_self_call, op_push_nil, op_is_finished, op_len;
  loc.
Qed.
End Op.
