(** * ReplProofs: what clearing the errors does (used by SessionProofs and ReplProperties) *)

From Verif Require Import Base BaseFacts State MonadFacts StackModel StackProofs ExprModel CompModel KFacts VmModel VmSpec VmInv ReplModel.
From Coq Require Import ZArith List Lia.
Import ListNotations.
Open Scope Z_scope.

Lemma chain_nodup cs i l : chain cs i l -> NoDup l.
Proof. induction 1; constructor; auto. constructor. Qed.

Lemma chain_fits cs i l : chain cs i l -> (length l <= length cs)%nat.
Proof.
  intro H. assert (incl l (map Z.of_nat (seq 0 (length cs)))) as I.
  { intros j J. destruct (chain_in _ _ _ H _ J) as (c & Q). apply znth_some_range in Q. unfold zlen in Q.
    replace j with (Z.of_nat (Z.to_nat j)) by lia. apply in_map, in_seq. lia. }
  pose proof (NoDup_incl_length (chain_nodup _ _ _ H) I) as Q. rewrite map_length, seq_length in Q. exact Q.
Qed.

Lemma unwind_run l : forall i s fuel, chain (v_ctxs s) i l -> v_cur s = i -> (length l <= fuel)%nat ->
  exists cs, unwind fuel s = Ok (tt, set_cur 0 (set_ctxs cs s)) /\ zlen cs = zlen (v_ctxs s) /\
    (forall j, In j l -> znth cs j = Some (Some ctx_init)) /\ forall j, ~ In j l -> znth cs j = znth (v_ctxs s) j.
Proof.
  induction l as [|x l IH]; intros i s fuel H Cu Fu; [inversion H|]. destruct fuel as [|f]; [cbn [length] in Fu; lia|]. cbn [unwind].
  unfold gets at 1. unfold mbind at 1. revert Cu.
  inversion H as [c Hc Hp E1 E2|i' c p l' Ni Hc Hp Hl Nin E1 E2]; subst; intro Cu; rewrite Cu.
  - rewrite (bind_run _ _ _ _ _ (get_ctx_ok _ _ _ Hc)). unfold reset_ctx. rewrite (bind_run _ _ _ _ _ (put_ctx_ok _ _ _ ctx_init Hc)). rewrite Hp.
    pose proof (znth_some_range _ _ _ Hc) as Rg.
    exists (zupd (v_ctxs s) 0 (Some ctx_init)). split. { unfold ret. do 2 f_equal. rewrite <- Cu at 2. destruct s; reflexivity. }
    split; [apply zlen_zupd|]. split.
    + intros j [<-|[]]. apply znth_zupd_same. exact Rg.
    + intros j Nj. apply znth_zupd_other. intro Q. apply Nj. left. congruence.
  - rewrite (bind_run _ _ _ _ _ (get_ctx_ok _ _ _ Hc)). unfold reset_ctx. rewrite (bind_run _ _ _ _ _ (put_ctx_ok _ _ _ ctx_init Hc)). rewrite Hp.
    pose proof (znth_some_range _ _ _ Hc) as Rg. unfold mbind at 1, modify at 1.
    set (s1 := set_cur p (set_ctxs (zupd (v_ctxs s) x (Some ctx_init)) s)).
    destruct (IH p s1 f) as (cs & E & Z1 & In1 & Out1).
    + unfold s1. vs. eapply chain_ext; [exact Hl|]. intros j d J Hj. exists d. split; [|reflexivity]. rewrite znth_zupd_other; [exact Hj|]. intro Q. apply Nin. congruence.
    + reflexivity.
    + cbn [length] in Fu. lia.
    + exists cs. split. { rewrite E. do 2 f_equal. }
      split. { rewrite Z1. unfold s1. vs. apply zlen_zupd. }
      split.
      * intros j [<-|J]; [|apply In1, J]. rewrite (Out1 _ Nin). unfold s1. vs. apply znth_zupd_same. exact Rg.
      * intros j Nj. rewrite Out1 by (intro; apply Nj; right; assumption). unfold s1. vs. apply znth_zupd_other. intro Q. apply Nj. left. congruence.
Qed.

Lemma clear_run k w l : chain (v_ctxs (k_vm k)) (v_cur (k_vm k)) l -> 0 <= w < zlen (v_code (k_vm k)) ->
  exists cs, clear_repl w k = Ok (tt, set_k_vm (set_cur 0 (set_ctxs cs (set_errs [] (set_code (zupd (v_code (k_vm k)) w OP_END) (k_vm k))))) (set_k_w w k)) /\
    zlen cs = zlen (v_ctxs (k_vm k)) /\ znth cs 0 = Some (Some (set_c_ip w ctx_init)) /\
    (forall j, In j l -> j <> 0 -> znth cs j = Some (Some ctx_init)) /\ forall j, ~ In j l -> znth cs j = znth (v_ctxs (k_vm k)) j.
Proof.
  intros H R. set (s := k_vm k) in *. set (s1 := set_errs [] (set_code (zupd (v_code s) w OP_END) s)).
  destruct (unwind_run l (v_cur s) s1 (length (v_ctxs s))) as (cs & E & Zc & In1 & Out1); [exact H|reflexivity|exact (chain_fits _ _ _ H)|].
  assert (In 0 l) as I0. { clear - H. induction H; [left; reflexivity|right; assumption]. }
  pose proof (In1 _ I0) as H0. pose proof (znth_some_range _ _ _ H0) as R0.
  exists (zupd cs 0 (Some (set_c_ip w ctx_init))). split.
  - unfold clear_repl. unfold kbind at 1, kmod at 1. unfold kbind at 1, kgets at 1. ks. fold s.
    unfold kbind at 1, klift at 1. rewrite (wr_ok _ _ _ R). unfold kbind at 1, kvm at 1, modify at 1. ks. fold s.
    unfold kbind at 1, kvm at 1. ks. fold s s1. rewrite E. unfold kvm, set_ip. ks. erewrite mod_cur_ok by (vs; exact H0). vs. reflexivity.
  - split; [rewrite zlen_zupd; exact Zc|]. split; [apply znth_zupd_same; exact R0|]. split.
    + intros j J N. rewrite znth_zupd_other by congruence. exact (In1 _ J).
    + intros j J. rewrite znth_zupd_other by (intro Q; apply J; congruence). exact (Out1 _ J).
Qed.
