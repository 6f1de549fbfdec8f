(** * VmStep: one iteration of the interpreter loop *)
From Verif Require Import Base.
From Verif Require Export VmCall GcProofs.

Definition gc_ready (s : vm) : Prop := v_gcpass s < INVALID.

Section Step.
Variable hostmark : Z -> Z -> option Z -> list value.
Variable host : Z -> list value -> M value.
Hypothesis host_ok : forall cb args, hoare (A true 0 [] []) (host cb args) (fun _ => okx 0).

Lemma fetch_run b s : wf b 0 s -> exists w, fetch s = Ok (w, s) /\
  exists c, znth (v_ctxs s) (v_cur s) = Some (Some c) /\ znth (v_code s) (Z.land (c_ip c) (v_cmask s)) = Some w.
Proof.
  intro W. destruct (wf_live _ _ _ W) as [c Hc]. unfold fetch. rewrite (bind_run _ _ _ _ _ (cur_ctx_ok _ _ Hc)).
  unfold mbind, self, gets, lift. destruct (w_code _ _ _ W) as [L (e & He & P)].
  assert (0 <= Z.land (c_ip c) (v_cmask s) < zlen (v_code s)) as R.
  { replace (v_cmask s) with (2 ^ e - 1) by lia. rewrite P. apply land_mask_range. lia. }
  destruct (rd_ok _ _ R) as [w E]. rewrite E. exists w. split; auto. exists c. split; auto.
  unfold rd in E. destruct (znth (v_code s) (Z.land (c_ip c) (v_cmask s))); congruence.
Qed.

Lemma h_tick : hoare (fun s => A true 0 [] [] s /\ gc_ready s) (tick hostmark) (fun _ => A true 0 [] []).
Proof.
  intros s ((W & _) & R). unfold tick. unfold mbind at 1, modify at 1. unfold mbind at 1, self, gets.
  remember (set_gccount (u32 (v_gccount s - 1)) s) as s1 eqn:Es1.
  assert (wf true 0 s1) as W1 by (subst s1; apply wf_gccount; auto).
  assert (gc_ready s1) as R1 by (subst s1; exact R).
  destruct (negb (v_gccount s1 =? 0)); [split; auto|].
  assert (forall s, wf true 0 s -> gc_ready s -> match
     ((if v_newcount s1 =? 0 then
         garbage_collect hostmark ;;;
         modify (fun s => set_newcount (v_newint s) s)
       else ret tt) ;;;
      modify (fun s => set_gccount (v_gcint s) s) ;;;
      ret true) s with Ok (_, s') => A true 0 [] [] s' | Ub u => arith u end) as Go.
  { intros t Wt Rt. destruct (v_newcount s1 =? 0).
    - destruct (garbage_collect_ok hostmark true t Wt Rt) as (t' & E & W' & _). unfold mbind at 1.
      rewrite (bind_run _ _ _ _ _ E). unfold modify, ret, mbind. split; auto. apply wf_gccount, wf_newcount; auto.
    - unfold modify, ret, mbind. split; auto. apply wf_gccount; auto. }
  destruct (v_left s1 =? INVALID); [unfold mbind at 1, ret at 1; apply Go; auto|].
  destruct (v_left s1 <? v_gcint s1).
  - destruct (add_error_ok s1 (bs "Instruction count limit reached.") (wf_live _ _ _ W1)) as [e E].
    unfold mbind at 1. rewrite (bind_run _ _ _ _ _ E). unfold mbind, modify, ret. split; auto. apply wf_left, wf_errs; auto.
  - unfold mbind at 1. unfold mbind at 1, modify at 1, ret at 1. apply Go; [apply wf_left; auto|exact R1].
Qed.

Lemma h_opcode n : hoare (A true 0 [] []) (opcode host n) (fun _ => okx 0).
Proof.
  assert (forall m : M unit, hoare (A true 0 [] []) m (fun _ => A true 0 [] []) -> hoare (A true 0 [] []) m (fun _ => okx 0)) as S
    by (intros; apply okx_of; auto).
  assert (hoare (A true 0 [] []) (ret tt) (fun _ => okx 0)) as Nop.
  { apply h_ret. intros s H. exists true. auto. }
  unfold opcode.
  repeat match goal with
  | |- hoare _ (match ?z with _ => _ end) _ => destruct z; try exact Nop
  end;
  try (apply S; first
    [ apply h_op_add | apply h_op_subtract | apply h_op_multiply | apply h_op_divide | apply h_op_modulo
    | apply h_op_negate | apply h_op_push_literal | apply h_op_pop | apply h_op_popn | apply h_op_stack_peek
    | apply h_op_stack_poke | apply h_op_static_peek | apply h_op_static_poke | apply h_op_push_nil
    | apply h_op_jump | apply h_op_jz | apply h_op_end | apply h_op_gt | apply h_op_lt | apply h_op_ge
    | apply h_op_le | apply h_op_eq | apply h_op_ne | apply h_op_eqsame | apply h_op_not | apply h_op_and
    | apply h_op_or | apply h_op_create_object | apply h_op_field_get | apply h_op_prepare_self_call
    | apply h_op_len | apply h_op_yield | apply h_op_return | apply h_op_is_finished | apply h_op_resume ]; fail).
  all: try (apply h_op_call; auto; fail).
  all: try (apply h_op_coroutine_create; auto; fail).
  all: apply h_op_field_set.
Qed.

Lemma h_iterate : hoare (fun s => A true 0 [] [] s /\ gc_ready s) (iterate hostmark host) (fun _ => okx 0).
Proof.
  intros s (Hs & R). unfold iterate. destruct (fetch_run true s (proj1 Hs)) as (w & E & _).
  rewrite (bind_run _ _ _ _ _ E).
  match goal with |- match (mbind ?m ?k) s with _ => _ end =>
    assert (hoare (fun s => A true 0 [] [] s /\ gc_ready s) (mbind m k) (fun _ => okx 0)) as H; [|apply H; auto] end.
  eapply h_bind; [apply h_tick|]. intro go. cbv beta. destruct go; [|apply h_ret; intros t Ht; exists true; auto].
  eapply h_bind; [apply h_opcode|]. intro. cbv beta. apply okx_all. intro b. hs. he.
Qed.

Lemma vm_ok_iff s : vm_ok s <-> okx 0 s.
Proof. split; intros [b H]; exists b; [split; auto|apply H]. Qed.

Lemma clean_exact s : vm_ok s -> has_errors s = false -> A true 0 [] [] s.
Proof.
  intros [[|] W] H; [split; auto|]. pose proof (w_err _ _ _ W eq_refl). congruence.
Qed.

Lemma iterate_safe s : vm_ok s -> has_errors s = false -> gc_ready s ->
  match iterate hostmark host s with Ok (_, s') => vm_ok s' | Ub u => arith u end.
Proof.
  intros H E R. pose proof (h_iterate s (conj (clean_exact s H E) R)) as I.
  destruct (iterate hostmark host s) as [[a s']|u]; auto. apply vm_ok_iff. exact I.
Qed.
End Step.

Lemma vm_init_ok : vm_ok vm_init.
Proof.
  exists true. split.
  - discriminate.
  - apply str_wf_init.
  - intros i e H. unfold get_str_entry in H. cbn [vm_init v_strs] in H. rewrite tab_init_get in H. discriminate.
  - apply tab_init_wf.
  - intros i e H. unfold get_obj in H. cbn [vm_init v_objs] in H. rewrite tab_init_get in H. discriminate.
  - exists [0]. split.
    + eapply ch_root; reflexivity.
    + intros i c H P. apply znth_some_range in H as R. cbn in R. assert (i = 0) by lia. subst i. left; auto.
  - intros i c H. apply znth_some_range in H as R. cbn in R. assert (i = 0) by lia. subst i. injection H as <-. apply stack_init_wf.
  - intros c H. injection H as <-. reflexivity.
  - intros i c N _ H. apply znth_some_range in H as R. cbn in R. lia.
  - intros i e H. unfold get_obj in H. cbn [vm_init v_objs] in H. rewrite tab_init_get in H. discriminate.
  - split; [reflexivity|]. exists 1. split; [lia|reflexivity].
  - split; [reflexivity|]. exists 2. split; [lia|reflexivity].
  - constructor.
  - intro i. split; [intros []|]. intros (o & H & _). unfold get_obj in H. cbn [vm_init v_objs] in H. rewrite tab_init_get in H. discriminate.
  - split; [discriminate|]. exists (mkET (bs "coroutine") true true true). split; [reflexivity|auto].
  - intros j xf H. apply znth_some_range in H. cbn in H. lia.
  - cbn. unfold INVALID. lia.
Qed.
