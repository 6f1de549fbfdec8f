(** * FrameProofs: what running a program cannot change

    [settled s s']: the program, the registries and the limits are the same in
    both machines, and the errors of [s] are still there in [s']. *)
From Verif Require Import Base BaseFacts.
From Verif Require Import MonadFacts VmModel HostModel.

Record settled (s s' : vm) : Prop := {
  st_code : v_code s' = v_code s;
  st_cmask : v_cmask s' = v_cmask s;
  st_smask : v_smask s' = v_smask s;
  st_funcs : v_funcs s' = v_funcs s;
  st_extfuncs : v_extfuncs s' = v_extfuncs s;
  st_globals : v_globals s' = v_globals s;
  st_exttypes : v_exttypes s' = v_exttypes s;
  st_corotype : v_corotype s' = v_corotype s;
  st_maxstack : v_maxstack s' = v_maxstack s;
  st_maxfields : v_maxfields s' = v_maxfields s;
  st_gcint : v_gcint s' = v_gcint s;
  st_newint : v_newint s' = v_newint s;
  st_gccount : v_gccount s' = v_gccount s;
  st_left : v_left s' = v_left s;
  st_subsys : v_subsys s' = v_subsys s;
  st_files : v_files s' = v_files s;
  st_markers : v_markers s' = v_markers s;
  st_errs : exists l, v_errs s' = v_errs s ++ l
}.

Definition settles {T} (m : M T) : Prop := forall s x s', m s = Ok (x, s') -> settled s s'.

Lemma settled_refl s : settled s s.
Proof. split; auto. exists []. rewrite app_nil_r. auto. Qed.
Lemma settled_trans a b c : settled a b -> settled b c -> settled a c.
Proof.
  intros [] []. split; try congruence. destruct st_errs0 as [l E], st_errs1 as [l' E'].
  exists (l ++ l'). rewrite E', E, app_assoc. auto.
Qed.
(* the two states differ in other fields only *)
Lemma settled_vac s s' : v_code s' = v_code s -> v_cmask s' = v_cmask s -> v_smask s' = v_smask s ->
  v_funcs s' = v_funcs s -> v_extfuncs s' = v_extfuncs s -> v_globals s' = v_globals s ->
  v_exttypes s' = v_exttypes s -> v_corotype s' = v_corotype s -> v_maxstack s' = v_maxstack s ->
  v_maxfields s' = v_maxfields s -> v_gcint s' = v_gcint s -> v_newint s' = v_newint s ->
  v_gccount s' = v_gccount s -> v_left s' = v_left s -> v_subsys s' = v_subsys s ->
  v_files s' = v_files s -> v_markers s' = v_markers s -> v_errs s' = v_errs s -> settled s s'.
Proof. intros. split; auto. exists []. rewrite app_nil_r. auto. Qed.

Lemma k_ret {T} (x : T) : settles (ret x).
Proof. intros s y s' E. unfold ret in E. injection E as _ <-. apply settled_refl. Qed.
Lemma k_bind {T U} (m : M T) (k : T -> M U) : settles m -> (forall x, settles (k x)) -> settles (mbind m k).
Proof.
  intros Hm Hk s y s' E. destruct (bind_inv _ _ _ _ _ E) as (x & s1 & E1 & E2).
  eapply settled_trans; [eapply Hm; eauto|eapply Hk; eauto].
Qed.
Lemma k_gets {T} (f : vm -> T) : settles (gets f).
Proof. intros s y s' E. unfold gets in E. injection E as _ <-. apply settled_refl. Qed.
Lemma k_lift {T} (r : res T) : settles (lift r).
Proof. intros s y s' E. unfold lift in E. destruct r; [|discriminate]. injection E as _ <-. apply settled_refl. Qed.
Lemma k_mub {T} u : settles (@mub T u).
Proof. intros s y s' E. discriminate. Qed.
Lemma k_modify f : (forall s, settled s (f s)) -> settles (modify f).
Proof. intros H s y s' E. unfold modify in E. injection E as _ <-. apply H. Qed.
Lemma k_get_ctx i : settles (get_ctx i).
Proof. intros s y s' E. unfold get_ctx in E. destruct (znth (v_ctxs s) i) as [[c|]|]; [|discriminate..]. injection E as _ <-. apply settled_refl. Qed.
Lemma k_put_ctx i c : settles (put_ctx i c).
Proof.
  intros s y s' E. unfold put_ctx in E. destruct (znth (v_ctxs s) i) as [[c'|]|]; [|discriminate..].
  injection E as _ <-. apply settled_vac; reflexivity.
Qed.
Lemma k_free_ctx i : settles (free_ctx i).
Proof.
  intros s y s' E. unfold free_ctx in E. destruct (znth (v_ctxs s) i) as [[c'|]|]; [|discriminate..].
  injection E as _ <-. apply settled_vac; reflexivity.
Qed.
Lemma k_rd_obj i : settles (rd_obj i).
Proof. intros s y s' E. unfold rd_obj in E. destruct (get_obj s i); [|discriminate]. injection E as _ <-. apply settled_refl. Qed.
Lemma k_wr_obj i o : settles (wr_obj i o).
Proof. intros s y s' E. unfold wr_obj in E. destruct (get_obj s i); [|discriminate]. injection E as _ <-. apply settled_vac; reflexivity. Qed.
Lemma k_of_opt {T} u (o : option T) : settles (of_opt u o).
Proof. unfold of_opt. destruct o; [apply k_ret|apply k_mub]. Qed.
Lemma k_self : settles self. Proof. apply k_gets. Qed.
Lemma k_err e : settles (modify (fun s => set_errs (v_errs s ++ [e]) s)).
Proof. apply k_modify. intro s. split; vs; eauto. Qed.
Create HintDb settles.
#[export] Hint Resolve k_self k_of_opt k_ret k_gets k_lift k_mub k_get_ctx k_put_ctx k_free_ctx k_rd_obj k_wr_obj k_err : settles.

Ltac keep1 :=
  match goal with
  | |- settles _ => solve [auto with settles nocore]
  | |- settles (mbind _ _) => apply k_bind; [|intro]
  | |- settles (modify _) => apply k_modify; intro; solve [apply settled_vac; reflexivity]
  | |- settles (match ?z with _ => _ end) => destruct z
  | |- settles (let _ := _ in _) => cbv zeta
  end.
Ltac keep := repeat keep1.

Lemma k_cur : settles cur_ctx. Proof. unfold cur_ctx. keep. Qed.
Lemma k_mod_cur f : settles (mod_cur f). Proof. unfold mod_cur. keep. Qed.
#[export] Hint Resolve k_cur k_mod_cur : settles.
Lemma k_get_ip : settles get_ip. Proof. unfold get_ip. keep. Qed.
Lemma k_set_ip z : settles (set_ip z). Proof. unfold set_ip. keep. Qed.
Lemma k_error m : settles (add_error m). Proof. unfold add_error, add_error_ex. keep. Qed.
Lemma k_get_slot i : settles (get_slot i). Proof. unfold get_slot. keep. Qed.
Lemma k_set_slot i v : settles (set_slot i v). Proof. unfold set_slot. keep. Qed.
#[export] Hint Resolve k_get_ip k_set_ip k_error k_get_slot k_set_slot : settles.
Lemma k_stack_size : settles stack_size. Proof. unfold stack_size. keep. Qed.
Lemma k_push_slot : settles push_slot. Proof. unfold push_slot. keep. Qed.
#[export] Hint Resolve k_stack_size k_push_slot : settles.
Lemma k_push v : settles (push v). Proof. unfold push. keep. Qed.
Lemma k_pop : settles pop. Proof. unfold pop. keep. Qed.
Lemma k_pop_n n : settles (pop_n n). Proof. unfold pop_n. keep. Qed.
Lemma k_peek_idx n : settles (peek_idx n). Proof. unfold peek_idx. keep. Qed.
#[export] Hint Resolve k_push k_pop k_pop_n k_peek_idx : settles.
Lemma k_peek n : settles (peek n). Proof. unfold peek. keep. Qed.
Lemma k_push_int n : settles (push_int n). Proof. unfold push_int. keep. Qed.
Lemma k_push_float n : settles (push_float n). Proof. unfold push_float. keep. Qed.
Lemma k_find_or_add t : settles (find_or_add_string t). Proof. unfold find_or_add_string. keep. Qed.
#[export] Hint Resolve k_peek k_push_int k_push_float k_find_or_add : settles.
Lemma k_push_string t : settles (push_string t). Proof. unfold push_string. keep. Qed.
Lemma k_to_int v : settles (to_int v). Proof. unfold to_int. keep. Qed.
Lemma k_to_float v : settles (to_float v). Proof. unfold to_float. keep. Qed.
Lemma k_to_string v : settles (to_string v). Proof. unfold to_string. keep. Qed.
#[export] Hint Resolve k_push_string k_to_int k_to_float k_to_string : settles.
Lemma k_compare a b t : settles (value_compare a b t). Proof. unfold value_compare. keep. Qed.
Lemma k_push_signed z : settles (push_signed z). Proof. unfold push_signed. keep. Qed.
Lemma k_unimpl t z : settles (unimplemented t z). Proof. unfold unimplemented. keep. Qed.
Lemma k_push_all vs : settles (push_all vs). Proof. induction vs; cbn [push_all]; keep. Qed.
Lemma k_stack_addr v : settles (stack_addr v). Proof. unfold stack_addr. keep. Qed.
#[export] Hint Resolve k_compare k_push_signed k_unimpl k_push_all k_stack_addr : settles.

(** ** Objects *)
Lemma k_create : settles create_object. Proof. unfold create_object. keep. apply k_modify. intro s. destruct (_ =? _); [apply settled_refl|apply settled_vac; reflexivity]. Qed.
Lemma k_cleanup i : settles (cleanup_object i). Proof. unfold cleanup_object. keep. Qed.
#[export] Hint Resolve k_create k_cleanup : settles.
Lemma k_clean_loop idx pass : settles (clean_old_objects_loop idx pass).
Proof. induction idx; cbn [clean_old_objects_loop]; keep. Qed.
#[export] Hint Resolve k_clean_loop : settles.
Lemma k_clean_old pass : settles (clean_old_objects pass). Proof. unfold clean_old_objects. keep. Qed.
Lemma k_find_key key c : forall p, settles (find_key key c p).
Proof. induction c as [|[k v] c IH]; intro p; cbn [find_key]; keep. Qed.
#[export] Hint Resolve k_clean_old k_find_key : settles.
Lemma k_clear_entry ob key : settles (clear_entry ob key). Proof. unfold clear_entry. keep. Qed.
Lemma k_find_entry ob key n : settles (find_or_add_entry ob key n). Proof. unfold find_or_add_entry. keep. Qed.
Lemma k_el_get i q : settles (el_get i q). Proof. unfold el_get. keep. Qed.
Lemma k_el_set i q v : settles (el_set i q v). Proof. unfold el_set. keep. Qed.
#[export] Hint Resolve k_clear_entry k_find_entry k_el_get k_el_set : settles.
Lemma k_acquire v : settles (acquire_handle v). Proof. unfold acquire_handle. keep. Qed.
Lemma k_release v : settles (release_handle v). Proof. unfold release_handle. keep. Qed.
Lemma k_count v : settles (get_handle_count v). Proof. unfold get_handle_count. keep. Qed.
Lemma k_set_type v t : settles (set_ext_type v t). Proof. unfold set_ext_type. keep. Qed.
Lemma k_clear_ext v : settles (clear_ext v). Proof. unfold clear_ext. keep. Qed.
Lemma k_get_type v : settles (get_ext_type v). Proof. unfold get_ext_type. keep. Qed.
Lemma k_set_data v d : settles (set_ext_data v d). Proof. unfold set_ext_data. keep. Qed.
Lemma k_get_data v : settles (get_ext_data v). Proof. unfold get_ext_data. keep. Qed.
Lemma k_clear_public v key : settles (clear_entry_public v key). Proof. unfold clear_entry_public. keep. Qed.
Lemma k_find_public v key n : settles (find_or_add_entry_public v key n). Proof. unfold find_or_add_entry_public. keep. Qed.
Lemma k_obj_size v : settles (get_obj_size v). Proof. unfold get_obj_size. keep. Qed.
#[export] Hint Resolve k_acquire k_release k_count k_set_type k_clear_ext k_get_type k_set_data k_get_data
  k_clear_public k_find_public k_obj_size : settles.

(** ** The collector *)
Section Gc.
Variable hostmark : Z -> Z -> option Z -> list value.

Lemma k_mark_string p i : settles (mark_string p i). Proof. unfold mark_string. keep. Qed.
Lemma k_gc_add p o i : settles (gc_add_object p o i). Proof. unfold gc_add_object. keep. Qed.
Hint Resolve k_mark_string k_gc_add : settles.
Lemma k_mark_value p o v : settles (mark_value p o v). Proof. unfold mark_value. keep. Qed.
Hint Resolve k_mark_value : settles.
Lemma k_mark_values p vs : forall o, settles (mark_values p o vs).
Proof. induction vs; intro o; cbn [mark_values]; keep. Qed.
Lemma k_coro_values d : settles (coro_values d). Proof. unfold coro_values. keep. Qed.
Hint Resolve k_mark_values k_coro_values : settles.
Lemma k_mark_object p o i : settles (mark_object hostmark p o i). Proof. unfold mark_object. keep. Qed.
Hint Resolve k_mark_object : settles.
Lemma k_mark_objects p ids : forall o, settles (mark_objects hostmark p o ids).
Proof. induction ids; intro o; cbn [mark_objects]; keep. Qed.
Lemma k_mark_ref p fuel : forall o, settles (mark_referenced hostmark fuel p o).
Proof. induction fuel; intro o; cbn [mark_referenced]; keep. Qed.
Lemma k_clean_strings p : settles (clean_old_strings p). Proof. unfold clean_old_strings. keep. Qed.
Hint Resolve k_mark_objects k_mark_ref k_clean_strings : settles.
Lemma k_gc : settles (garbage_collect hostmark). Proof. unfold garbage_collect. keep. Qed.
Hint Resolve k_gc : settles.

(** ** Host functions that use the API *)
Lemma k_unless m : settles m -> settles (unless_error m). Proof. intro H. unfold unless_error. keep. Qed.
Lemma k_host_read o k : settles (host_read o k). Proof. unfold host_read. keep. Qed.
Lemma k_host_write o k v : settles (host_write o k v). Proof. unfold host_write. keep. Qed.
Hint Resolve k_unless k_host_read k_host_write : settles.
Lemma k_run_host p : settles (run_host hostmark p).
Proof. induction p; cbn [run_host]; keep. Qed.
End Gc.
#[export] Hint Resolve k_gc : settles.

(** ** Instructions *)
Section Op.
Variable host : Z -> list value -> M value.
Hypothesis Hhost : forall cb args, settles (host cb args).
Hint Resolve Hhost : settles.

Lemma k_icompare : settles internal_compare. Proof. unfold internal_compare. keep. Qed.
Lemma k_pop_context : settles pop_context. Proof. unfold pop_context. keep. Qed.
Lemma k_push_context i : settles (push_context i). Proof. unfold push_context. keep. Qed.
Lemma k_shift n b m : settles (shift_args n b m). Proof. induction n; cbn [shift_args]; keep. Qed.
Hint Resolve k_icompare k_pop_context k_push_context k_shift : settles.
Lemma k_insert_data n d : settles (insert_data n d). Proof. unfold insert_data. keep. Qed.
Lemma k_entry p : settles (entry_value p). Proof. unfold entry_value. keep. Qed.
Lemma k_check_args xf args : forall i, settles (check_args xf i args).
Proof. induction args; intro i; cbn [check_args]; keep. Qed.
Hint Resolve k_insert_data k_entry k_check_args : settles.
Lemma k_resolve f : forall v n, settles (resolve_callee f v n).
Proof. induction f; intros v n; cbn [resolve_callee]; keep. Qed.
Lemma k_native f n : settles (call_native host f n). Proof. unfold call_native. keep. Qed.
Hint Resolve k_resolve k_native : settles.
Lemma k_call : settles (op_call host). Proof. unfold op_call. keep. Qed.
Lemma k_coobj a b : settles (coroutine_object a b). Proof. unfold coroutine_object. keep. Qed.
Hint Resolve k_call k_coobj : settles.

Lemma k_opcode n : settles (opcode host n).
Proof.
  unfold opcode. repeat match goal with |- settles (match ?z with _ => _ end) => destruct z end;
  try apply k_ret; try apply k_call;
  unfold op_add, op_subtract, op_multiply, op_divide, op_negate, op_modulo, op_push_literal, op_pop, op_popn,
    op_stack_peek, op_stack_poke, op_static_poke, op_static_peek, op_jump, op_return, op_end, op_jz,
    op_gt, op_lt, op_ge, op_le, op_eq, op_ne, op_eqsame, op_not, op_and, op_or, op_create_object, op_field_get,
    op_field_set, op_prepare_self_call, op_push_nil, op_coroutine_create, op_yield, op_resume, op_is_finished, op_len;
  keep.
Qed.
Lemma k_fetch : settles fetch. Proof. unfold fetch, self. keep. Qed.
End Op.
