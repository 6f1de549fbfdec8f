(** * TableProofs: lemmas about identifier tables *)
From Verif Require Import Base BaseFacts TableModel TableSpec.
Ltac Zify.zify_post_hook ::= Z.div_mod_to_equations.

Section Proofs.
Context {A : Type}.
Implicit Types (t : table A) (m : imap A).

Definition pow2 (z : Z) := exists k, 0 <= k <= 31 /\ z = 2 ^ k.

Record tab_wf (t : table A) : Prop := {
  tw_nodup : NoDup (t_holes t);
  tw_holes : forall i, In i (t_holes t) <-> znth (t_slots t) i = Some None;
  tw_cap : pow2 (t_cap t)
}.

Lemma pow2_bounds z : pow2 z -> 1 <= z <= W31.
Proof.
  intros [k [Hk ->]]. change W31 with (2 ^ 31). split.
  - change 1 with (2 ^ 0). apply Z.pow_le_mono_r; lia.
  - apply Z.pow_le_mono_r; lia.
Qed.

Lemma pow2_half z : pow2 z -> 2 <= z -> pow2 (z / 2).
Proof.
  intros [k [Hk ->]] H.
  assert (k <> 0) by (intros ->; cbn in H; lia).
  exists (k - 1). split; [lia|].
  replace k with (Z.succ (k - 1)) at 1 by lia.
  rewrite Z.pow_succ_r by lia. rewrite Z.mul_comm, Z.div_mul; lia.
Qed.

Lemma pow2_double z : pow2 z -> z < W31 -> pow2 (2 * z).
Proof.
  intros [k [Hk ->]] H. exists (k + 1). split.
  - assert (k <> 31) by (intros ->; vm_compute in H; discriminate). lia.
  - rewrite Z.pow_add_r by lia. lia.
Qed.

Lemma tab_get_znth t i : tab_get t i = match znth (t_slots t) i with Some x => x | None => None end.
Proof.
  unfold tab_get, t_cap. destruct (Z.leb_spec (zlen (t_slots t)) i); auto.
  rewrite znth_out by lia. reflexivity.
Qed.

Lemma tab_get_some t i x : tab_get t i = Some x <-> znth (t_slots t) i = Some (Some x).
Proof.
  rewrite tab_get_znth. destruct (znth (t_slots t) i) as [[y|]|]; split; intro H; congruence.
Qed.

Lemma tab_get_range t i x : tab_get t i = Some x -> 0 <= i < t_cap t.
Proof. rewrite tab_get_some. intro H. apply znth_some_range in H. exact H. Qed.

Lemma tab_init_wf : tab_wf (@tab_init A).
Proof.
  split.
  - cbn. repeat constructor. intros [].
  - intro i. cbn [t_holes t_slots tab_init]. split.
    + intros [<-|[]]. reflexivity.
    + intro H. pose proof (znth_some_range _ _ _ H) as R. unfold zlen in R. cbn [length] in R.
      left. lia.
  - exists 0. split; [lia|]. reflexivity.
Qed.

Lemma tab_init_get i : tab_get (@tab_init A) i = None.
Proof.
  rewrite tab_get_znth. destruct (znth _ i) as [x|] eqn:E; auto.
  pose proof (znth_some_range _ _ _ E) as R.
  cbn [t_slots tab_init] in *. unfold zlen in R. cbn [length] in R.
  assert (i = 0) by lia. subst. rewrite znth_cons_0 in E. congruence.
Qed.

Lemma tab_add_grow t x i t' :
  tab_wf t -> t_holes t = [] -> tab_add t x = Some (i, t') ->
  i = t_cap t /\ t_cap t < W31 /\
  t_slots t' = t_slots t ++ Some x :: repeat None (Z.to_nat (t_cap t - 1)) /\
  t_holes t' = zseq (t_cap t + 1) (Z.to_nat (t_cap t - 1)).
Proof.
  intros W H E. unfold tab_add in E. rewrite H in E.
  destruct (pow2_bounds _ (tw_cap _ W)) as [L U].
  destruct (Z.eqb_spec (u32 (t_cap t * 2)) 0) as [Z0|Z0]; [discriminate|].
  assert (t_cap t < W31) as LT.
  { destruct (Z.eq_dec (t_cap t) W31) as [e|e]; [|lia].
    exfalso. apply Z0. rewrite e. reflexivity. }
  assert (u32 (t_cap t * 2) = t_cap t * 2) as U32.
  { apply u32_id. unfold is_u32. change W32 with (W31 * 2). lia. }
  rewrite U32 in E. inversion E; subst i t'; clear E. cbn [t_slots t_holes].
  replace (t_cap t * 2 - t_cap t) with (t_cap t) by lia.
  sp; auto.
  apply list_ext_znth. intro j.
  destruct (Z.to_nat (t_cap t)) as [|n] eqn:En; [lia|].
  replace (Z.to_nat (t_cap t - 1)) with n by lia.
  cbn [repeat].
  destruct (Z.eq_dec j (t_cap t)) as [->|Nj].
  - rewrite znth_zupd_same.
    + rewrite znth_app_r; unfold t_cap. 2:lia. rewrite Z.sub_diag. apply eq_sym, znth_cons_0.
    + rewrite zlen_app, zlen_cons. pose proof (zlen_nonneg (repeat (@None A) n)). unfold t_cap in *. lia.
  - rewrite znth_zupd_other by lia.
    destruct (Z_lt_le_dec j (t_cap t)).
    + rewrite !znth_app_l; auto.
    + rewrite !znth_app_r by (unfold t_cap in *; lia).
      rewrite !znth_cons_S by (unfold t_cap in *; lia). reflexivity.
Qed.

Lemma tab_add_ok t x i t' :
  tab_wf t -> tab_add t x = Some (i, t') ->
  tab_wf t' /\ tab_get t i = None /\ 0 <= i < W31 /\ i < t_cap t' /\
  (forall j, tab_get t' j = if j =? i then Some x else tab_get t j).
Proof.
  intros W E. destruct (t_holes t) as [|h rest] eqn:H.
  - destruct (tab_add_grow _ _ _ _ W H E) as (-> & LT & S & Ho).
    destruct (pow2_bounds _ (tw_cap _ W)) as [L U].
    assert (t_cap t' = 2 * t_cap t) as C.
    { unfold t_cap at 1. rewrite S, zlen_app, zlen_cons, zlen_repeat. unfold t_cap in *. lia. }
    assert (forall j, tab_get t' j = if j =? t_cap t then Some x else tab_get t j) as G.
    { intro j. rewrite !tab_get_znth, S. destruct (Z.eqb_spec j (t_cap t)) as [->|Nj].
      - rewrite znth_app_r by (unfold t_cap; lia). unfold t_cap. rewrite Z.sub_diag, znth_cons_0. reflexivity.
      - destruct (Z_lt_le_dec j (t_cap t)).
        + rewrite znth_app_l by auto. reflexivity.
        + rewrite znth_app_r by (unfold t_cap in *; lia).
          rewrite znth_cons_S by (unfold t_cap in *; lia).
          rewrite (znth_out (t_slots t)) by (unfold t_cap in *; lia).
          destruct (znth (repeat None _) _) as [y|] eqn:Y; auto.
          assert (R := znth_some_range _ _ _ Y). rewrite zlen_repeat in R.
          rewrite znth_repeat in Y by lia. congruence. }
    sp; auto; try lia.
    + split.
      * rewrite Ho. apply NoDup_zseq.
      * intro j. rewrite Ho, In_zseq, S. split.
        -- intro R. rewrite znth_app_r by (unfold t_cap in *; lia).
           rewrite znth_cons_S by (unfold t_cap in *; lia).
           apply znth_repeat. unfold t_cap in *. lia.
        -- intro R. destruct (Z_lt_le_dec j (t_cap t)).
           ++ rewrite znth_app_l in R by auto. apply (tw_holes _ W) in R. rewrite H in R. destruct R.
           ++ rewrite znth_app_r in R by (unfold t_cap in *; lia).
              assert (RR := znth_some_range _ _ _ R). rewrite zlen_cons, zlen_repeat in RR.
              destruct (Z.eq_dec j (t_cap t)) as [->|].
              ** unfold t_cap in R. rewrite Z.sub_diag, znth_cons_0 in R. congruence.
              ** unfold t_cap in *. lia.
      * rewrite C. apply pow2_double; auto. apply (tw_cap _ W).
    + rewrite tab_get_znth, znth_out; auto. unfold t_cap. lia.
  - unfold tab_add in E. rewrite H in E. inversion E; subst i t'; clear E.
    assert (znth (t_slots t) h = Some None) as Hh by (apply (tw_holes _ W); rewrite H; left; auto).
    pose proof (znth_some_range _ _ _ Hh) as R.
    destruct (pow2_bounds _ (tw_cap _ W)) as [L U]. unfold t_cap in *.
    assert (ND := tw_nodup _ W). rewrite H in ND. inversion ND as [|? ? NI ND']; subst.
    sp; auto; try lia.
    + split; cbn [t_holes t_slots]; auto.
      * intro j. destruct (Z.eq_dec j h) as [->|Nj].
        -- rewrite znth_zupd_same by lia. split; intro; [contradiction|congruence].
        -- rewrite znth_zupd_other by lia. rewrite <- (tw_holes _ W), H. split.
           ++ intro; right; auto.
           ++ intros [<-|]; [congruence|auto].
      * unfold t_cap. cbn [t_slots]. rewrite zlen_zupd. apply (tw_cap _ W).
    + rewrite tab_get_znth, Hh. reflexivity.
    + cbn [t_slots]. rewrite zlen_zupd. lia.
    + intro j. rewrite !tab_get_znth. cbn [t_slots]. destruct (Z.eqb_spec j h) as [->|Nj].
      * rewrite znth_zupd_same by lia. reflexivity.
      * rewrite znth_zupd_other by lia. reflexivity.
Qed.

Lemma tab_add_fails t x : tab_wf t -> tab_add t x = None ->
  t_cap t = W31 /\ forall i, 0 <= i < W31 -> exists y, tab_get t i = Some y.
Proof.
  intros W E. unfold tab_add in E. destruct (t_holes t) eqn:H; [|discriminate].
  destruct (Z.eqb_spec (u32 (t_cap t * 2)) 0) as [Z0|]; [|discriminate].
  destruct (pow2_bounds _ (tw_cap _ W)) as [L U].
  assert (t_cap t = W31) as C.
  { destruct (Z.eq_dec (t_cap t) W31); auto. rewrite u32_id in Z0; [lia|].
    unfold is_u32. change W32 with (W31 * 2). lia. }
  split; auto. intros i Hi. unfold t_cap in *.
  destruct (znth_in_range (t_slots t) i) as [o Ho]; [lia|].
  rewrite tab_get_znth, Ho. destruct o as [y|]; [eauto|].
  apply (tw_holes _ W) in Ho. rewrite H in Ho. destruct Ho.
Qed.

Lemma tab_erase_ok t i x :
  tab_wf t -> tab_get t i = Some x ->
  exists t', tab_erase t i = Ok t' /\ tab_wf t' /\ t_cap t' = t_cap t /\
    (forall j, tab_get t' j = if j =? i then None else tab_get t j).
Proof.
  intros W G. apply tab_get_some in G. pose proof (znth_some_range _ _ _ G) as R.
  unfold tab_erase. rewrite G. unfold tab_create_hole. cbn [t_slots t_holes].
  rewrite znth_zupd_same by lia.
  eexists; split; [reflexivity|]. sp.
  - split; cbn [t_slots t_holes].
    + constructor; [|apply (tw_nodup _ W)]. rewrite (tw_holes _ W), G. congruence.
    + intro j. destruct (Z.eq_dec j i) as [->|Nj].
      * rewrite znth_zupd_same by lia. split; auto. intro; left; auto.
      * rewrite znth_zupd_other by lia. rewrite <- (tw_holes _ W). split.
        -- intros [<-|]; [congruence|auto].
        -- intro; right; auto.
    + unfold t_cap. cbn [t_slots]. rewrite zlen_zupd. apply (tw_cap _ W).
  - unfold t_cap. cbn [t_slots]. apply zlen_zupd.
  - intro j. rewrite !tab_get_znth. cbn [t_slots]. destruct (Z.eqb_spec j i) as [->|Nj].
    + rewrite znth_zupd_same by lia. reflexivity.
    + rewrite znth_zupd_other by lia. reflexivity.
Qed.

Lemma empty_from_In (l : list (option A)) : forall i j,
  In j (empty_from i l) <-> i <= j /\ znth l (j - i) = Some None.
Proof.
  induction l as [|[x|] l IH]; intros i j; cbn [empty_from].
  - split; [intros []|]. intros [_ H]. apply znth_some_range in H. unfold zlen in H; cbn [length] in H; lia.
  - rewrite IH. split.
    + intros [Hi H]. split; [lia|]. rewrite znth_cons_S by lia. rewrite <- H. f_equal. lia.
    + intros [Hi H]. destruct (Z.eq_dec j i) as [->|].
      * rewrite Z.sub_diag, znth_cons_0 in H. congruence.
      * rewrite znth_cons_S in H by lia. split; [lia|]. rewrite <- H. f_equal. lia.
  - cbn [In]. rewrite IH. split.
    + intros [<-|[Hi H]].
      * split; [lia|]. rewrite Z.sub_diag. apply znth_cons_0.
      * split; [lia|]. rewrite znth_cons_S by lia. rewrite <- H. f_equal. lia.
    + intros [Hi H]. destruct (Z.eq_dec j i) as [->|]; auto. right.
      rewrite znth_cons_S in H by lia. split; [lia|]. rewrite <- H. f_equal. lia.
Qed.

Lemma empty_from_NoDup (l : list (option A)) : forall i, NoDup (empty_from i l).
Proof.
  induction l as [|[x|] l IH]; intros i; cbn [empty_from]; auto.
  - constructor.
  - constructor; auto. rewrite empty_from_In. lia.
Qed.

Lemma highest_from_spec (l : list (option A)) : forall i best, best < i \/ (best = 0 /\ i = 0) -> 
  let h := highest_from i l best in
  (forall j x, znth l j = Some (Some x) -> i + j <= h) /\ best <= h /\
  (h = best \/ (exists x, znth l (h - i) = Some (Some x))).
Proof.
  induction l as [|[x|] l IH]; intros i best Hb; cbn [highest_from]; cbv zeta.
  - sp; auto; try lia. intros j x H. apply znth_some_range in H. unfold zlen in H; cbn [length] in H; lia.
  - destruct (IH (i + 1) i) as (I1 & I2 & I3); [lia|].
    sp; try lia.
    + intros j y H. destruct (Z.eq_dec j 0) as [->|].
      * lia.
      * pose proof (znth_some_range _ _ _ H). rewrite znth_cons_S in H by lia. apply I1 in H. lia.
    + right. destruct I3 as [->|[y Hy]].
      * exists x. rewrite Z.sub_diag. apply znth_cons_0.
      * exists y. pose proof (znth_some_range _ _ _ Hy). rewrite znth_cons_S by lia. rewrite <- Hy. f_equal. lia.
  - destruct (IH (i + 1) best) as (I1 & I2 & I3); [lia|].
    sp; try lia.
    + intros j y H. destruct (Z.eq_dec j 0) as [->|].
      * rewrite znth_cons_0 in H. congruence.
      * pose proof (znth_some_range _ _ _ H). rewrite znth_cons_S in H by lia. apply I1 in H. lia.
    + destruct I3 as [->|[y Hy]]; auto. right.
      exists y. pose proof (znth_some_range _ _ _ Hy). rewrite znth_cons_S by lia. rewrite <- Hy. f_equal. lia.
Qed.

Lemma halve_spec fuel : forall n h k, n = 2 ^ k -> 0 <= k <= Z.of_nat fuel -> 0 <= h < n ->
  let r := halve fuel n h in
  (exists k', 0 <= k' <= k /\ r = 2 ^ k') /\ h < r /\ r <= n /\ r / 2 <= h.
Proof.
  induction fuel as [|fuel IH]; intros n h k Hn Hk Hh; cbn [halve]; cbv zeta.
  - assert (k = 0) by lia. subst. change (2^0) with 1 in *. sp; try lia. exists 0. lia.
  - destruct (Z.ltb_spec h (n / 2)) as [L|L].
    + assert (k <> 0) by (intros ->; change (2^0) with 1 in Hn; subst; cbn in L; lia).
      assert (n / 2 = 2 ^ (k - 1)) as E.
      { subst n. replace k with (Z.succ (k - 1)) at 1 by lia.
        rewrite Z.pow_succ_r by lia. rewrite Z.mul_comm, Z.div_mul; lia. }
      destruct (IH (n / 2) h (k - 1) E) as ((k' & Hk' & R) & R2 & R3 & R4); [lia|lia|].
      sp; auto; try lia. exists k'. split; [lia|auto].
    + sp; try lia. exists k. split; [lia|auto].
Qed.

Lemma znth_firstn {B} (l : list B) n i : 0 <= i < n -> znth (firstn (Z.to_nat n) l) i = znth l i.
Proof.
  intro H. rewrite ?znth_def. destruct (Z.ltb_spec i 0); [lia|].
  assert (Z.to_nat i < Z.to_nat n)%nat as L by lia. clear H H0.
  revert L. generalize (Z.to_nat i) (Z.to_nat n). clear.
  induction l as [|a l IH]; intros a' b H; destruct b; try lia.
  - reflexivity.
  - destruct a'; cbn; [reflexivity|]. apply IH. lia.
Qed.

Lemma tab_shrink_ok t :
  tab_wf t ->
  tab_wf (tab_shrink t) /\ t_cap (tab_shrink t) <= t_cap t /\
  (forall j, tab_get (tab_shrink t) j = tab_get t j) /\
  (forall j x, tab_get t j = Some x -> j < t_cap (tab_shrink t)) /\
  (t_cap (tab_shrink t) = 1 \/ exists j x, tab_get t j = Some x /\ t_cap (tab_shrink t) / 2 <= j).
Proof.
  intros W. unfold tab_shrink.
  destruct (highest_from_spec (t_slots t) 0 0) as (H1 & H2 & H3); [lia|]. cbv zeta in *.
  set (h := highest_from 0 (t_slots t) 0) in *.
  destruct (tw_cap _ W) as [k [Hk Ck]].
  destruct (pow2_bounds _ (tw_cap _ W)) as [L U].
  assert (0 <= h < t_cap t) as Hh.
  { split; [lia|]. destruct H3 as [->|[x Hx]]; [lia|]. apply znth_some_range in Hx. unfold t_cap. lia. }
  destruct (halve_spec 32 (t_cap t) h k Ck) as ((k' & Hk' & R) & R2 & R3 & R4); [lia|lia|].
  cbv zeta in *. set (n := halve 32 (t_cap t) h) in *.
  assert (zlen (firstn (Z.to_nat n) (t_slots t)) = n) as Len.
  { unfold zlen. rewrite firstn_length. unfold t_cap, zlen in *. lia. }
  assert (forall j, tab_get (tab_reset_holes (mkT (firstn (Z.to_nat n) (t_slots t)) (t_holes t))) j = tab_get t j) as G.
  { intro j. rewrite !tab_get_znth. cbn [t_slots tab_reset_holes].
    destruct (Z_lt_le_dec j n) as [Lj|Lj].
    - destruct (Z_lt_le_dec j 0); [rewrite !znth_out by lia; auto|].
      rewrite znth_firstn by lia. reflexivity.
    - rewrite znth_out by lia. destruct (znth (t_slots t) j) as [[x|]|] eqn:E; auto.
      apply H1 in E. lia. }
  sp; auto.
  - split; cbn [t_slots t_holes tab_reset_holes].
    + apply empty_from_NoDup.
    + intro i. rewrite empty_from_In, Z.sub_0_r. split; [tauto|]. intro E; split; auto.
      apply znth_some_range in E. lia.
    + unfold t_cap. cbn [t_slots tab_reset_holes]. rewrite Len. exists k'. split; [lia|auto].
  - unfold t_cap at 1. cbn [t_slots tab_reset_holes]. lia.
  - intros j x E. apply tab_get_some in E. apply H1 in E.
    unfold t_cap. cbn [t_slots tab_reset_holes]. lia.
  - unfold t_cap. cbn [t_slots tab_reset_holes]. rewrite Len.
    destruct H3 as [E|[x Hx]].
    + left. destruct (Z.eq_dec k' 0) as [->|]; [exact R|].
      exfalso. assert (2 ^ 1 <= 2 ^ k') by (apply Z.pow_le_mono_r; lia). rewrite E in R4. lia.
    + right. exists h, x. rewrite tab_get_some. rewrite Z.sub_0_r in Hx. split; auto.
Qed.

Lemma history_inv t m : tab_history t m -> tab_wf t /\ forall j, tab_get t j = m j.
Proof.
  induction 1 as [| t m x i t' H [W G] E | t m i x t' H [W G] Hm E | t m H [W G]].
  - split; [apply tab_init_wf|]. intro; apply tab_init_get.
  - destruct (tab_add_ok _ _ _ _ W E) as (W' & _ & _ & _ & G'). split; auto.
    intro j. rewrite G'. unfold with_entry. rewrite G. reflexivity.
  - rewrite <- G in Hm. destruct (tab_erase_ok _ _ _ W Hm) as (t2 & E2 & W' & _ & G').
    rewrite E in E2. inversion E2; subst t2. split; auto.
    intro j. rewrite G'. unfold with_entry. rewrite G. reflexivity.
  - destruct (tab_shrink_ok _ W) as (W' & _ & G' & _). split; auto.
    intro j. rewrite G'. apply G.
Qed.

End Proofs.
