(** * InsnProofs: running the remaining instructions on a known stack *)
From Coq Require Import Floats.SpecFloat.
From Verif Require Import Base BaseFacts.
From Verif Require Import HostModel MonadFacts StackProofs FrameProofs StrProofs ValueProofs ObjsProofs VmInv OpProofs CallSpec CallProofs.
From Verif Require Export InsnSpec.
Ltac Zify.zify_post_hook ::= Z.div_mod_to_equations.

Definition c2z (c : comparison) : Z := match c with Lt => -1 | Eq => 0 | Gt => 1 end.

Lemma str_cmp_lex a : forall b, is_text a -> is_text b -> str_cmp a b = c2z (lex a b).
Proof.
  induction a as [|x a IH]; intros [|y b] A B; cbn [str_cmp lex].
  - reflexivity.
  - inversion B; subst. pose proof (s8_nz y ltac:(auto)).
    destruct (Z.ltb_spec (s8 y) 0), (Z.compare_spec 0 (s8 y)); cbn [c2z]; try lia; congruence.
  - inversion A; subst. pose proof (s8_nz x ltac:(auto)).
    destruct (Z.ltb_spec 0 (s8 x)), (Z.compare_spec (s8 x) 0); cbn [c2z]; try lia; congruence.
  - inversion A; inversion B; subst.
    destruct (Z.compare_spec (s8 x) (s8 y)), (Z.ltb_spec (s8 y) (s8 x)), (Z.ltb_spec (s8 x) (s8 y)); cbn [c2z]; try lia.
    all: try (apply IH; auto).
Qed.

Lemma cmp3_z x y : cmp3 (y <? x) (x =? y) = c2z (x ?= y).
Proof. unfold cmp3. destruct (Z.ltb_spec y x), (Z.eqb_spec x y), (Z.compare_spec x y); cbn; try lia; reflexivity. Qed.

Lemma as_float_run s v z s' : as_float s v z -> v_strs s' = v_strs s -> to_float v s' = Ok (z, s').
Proof.
  intros H E. unfold to_float. destruct H as [v T|v T|v t T G]; rewrite T; try reflexivity.
  change (T_STRING =? T_INT) with false. change (T_STRING =? T_FLOAT) with false.
  change (T_STRING =? T_STRING) with true. cbv iota. unfold mbind, gets.
  unfold get_str, get_str_entry in *. rewrite E, G. reflexivity.
Qed.

Lemma orders_run s a b c s' : orders s a b c -> v_strs s' = v_strs s ->
  value_compare a b false s' = Ok (c2z c, s').
Proof.
  intros H E. unfold value_compare. cbn [andb].
  destruct H as [a b y T N Y|a b y c T Y C|a b t u T U G H It Iu|a b T U|a b T U|a b T U|a b T U|a b T U].
  - rewrite T. change (T_INT =? T_NIL) with false. cbv iota.
    destruct (Z.eqb_spec (v_type b) T_NIL); [contradiction|]. change (T_INT =? T_INT) with true. cbv iota.
    rewrite (bind_run _ _ _ _ _ (as_int_run _ _ _ _ Y E)). unfold ret. rewrite cmp3_z. reflexivity.
  - rewrite T. change (T_FLOAT =? T_NIL) with false. cbv iota.
    assert ((v_type b =? T_NIL) = false) as -> by (destruct Y as [v V|v V|v t V _]; rewrite V; reflexivity).
    change (T_FLOAT =? T_INT) with false. change (T_FLOAT =? T_FLOAT) with true. cbv iota.
    rewrite (bind_run _ _ _ _ _ (as_float_run _ _ _ _ Y E)). unfold ret, f_gt, f_eq. rewrite C.
    destruct c; reflexivity.
  - rewrite T, U. change (T_STRING =? T_NIL) with false. change (T_STRING =? T_INT) with false.
    change (T_STRING =? T_FLOAT) with false. change (T_STRING =? T_STRING) with true. cbv iota.
    unfold to_string. rewrite T, U. change (T_STRING =? T_STRING) with true. cbv iota.
    unfold mbind, gets. unfold get_str, get_str_entry in *. rewrite E, G, H. unfold ret. rewrite str_cmp_lex by auto. reflexivity.
  - rewrite T, U. cbn -[Z.eqb Z.ltb]. change (T_FUNC =? T_NIL) with false. change (T_FUNC =? T_INT) with false.
    change (T_FUNC =? T_FLOAT) with false. change (T_FUNC =? T_STRING) with false. change (T_FUNC =? T_FUNC) with true.
    cbn [orb andb]. unfold ret. destruct (Z.eqb_spec (v_data b) (v_data a)), (Z.ltb_spec (v_data a) (v_data b)),
      (Z.compare_spec (v_data a) (v_data b)); try lia; reflexivity.
  - rewrite T, U. cbn -[Z.eqb Z.ltb]. change (T_OBJ =? T_NIL) with false. change (T_OBJ =? T_INT) with false.
    change (T_OBJ =? T_FLOAT) with false. change (T_OBJ =? T_STRING) with false. change (T_OBJ =? T_OBJ) with true.
    change (T_OBJ =? T_FUNC) with false.
    cbn [orb andb]. unfold ret. destruct (Z.eqb_spec (v_data b) (v_data a)), (Z.ltb_spec (v_data a) (v_data b)),
      (Z.compare_spec (v_data a) (v_data b)); try lia; reflexivity.
  - rewrite T, U. reflexivity.
  - rewrite T. change (T_NIL =? T_NIL) with true. cbv iota. destruct (Z.eqb_spec (v_type b) T_NIL); [contradiction|reflexivity].
  - rewrite U. destruct (Z.eqb_spec (v_type a) T_NIL); [contradiction|reflexivity].
Qed.

Lemma compare_run s st a b c : stack_is s (st ++ [a; b]) -> orders s a b c ->
  exists t, internal_compare s = Ok (c2z c, t) /\ rs s st 2 t.
Proof.
  intros S O. rewrite snoc2 in S. unfold internal_compare. pose proof (rs_start _ _ S) as R. rpop R. rpop R.
  exists t0. split; [|exact R]. apply orders_run with (s := s); auto. exact (rs_strs _ _ _ _ R).
Qed.

Lemma compared_run s st a b c f : stack_is s (st ++ [a; b]) -> orders s a b c ->
  exists s', (c <- internal_compare ;; push_int (b2z (f c))) s = Ok (tt, s') /\
    restacked s (st ++ [vint (b2z (f (c2z c)))]) s'.
Proof.
  intros S O. destruct (compare_run _ _ _ _ _ S O) as (t & E & R). rewrite (bind_run _ _ _ _ _ E).
  eapply bool_run; eauto. lia.
Qed.

(** ** Reading and writing slots *)
Lemma slot_contents k l i : kwf k -> contents k = l -> 0 <= i < zlen l -> znth (k_vals k) i = znth l i.
Proof.
  intros W <- R. rewrite <- (firstn_skipn (Z.to_nat (k_size k)) (k_vals k)) at 1. apply znth_app_l. exact (proj2 R).
Qed.

Lemma peek_in s k l i x : at_stack s k -> kwf k -> contents k = l -> 0 <= i < zlen l -> znth l i = Some x ->
  peek i s = Ok (x, s).
Proof.
  intros A W C R X. destruct (peek_ok s k i A W) as (v & V & P). rewrite P.
  assert (Z.land (u32 i) (k_mask k) = i) as E.
  { pose proof (contents_len _ W) as CL. rewrite C in CL. pose proof (kw_size _ W). pose proof (kwf_cap _ W).
    rewrite u32_id by (unfold is_u32, W31, W32 in *; lia). apply land_small; auto. lia. }
  rewrite E in V. rewrite (slot_contents _ _ _ W C R) in V. congruence.
Qed.

Lemma poke_contents k l i x : kwf k -> contents k = l -> 0 <= i < zlen l -> contents (poke k i x) = zupd l i x.
Proof.
  intros W C R. subst l. unfold contents, poke. cbn [k_size k_vals]. unfold zupd.
  destruct (i <? 0); auto. pose proof (contents_len _ W) as CL. unfold contents in CL.
  assert (forall n m (l : list value), (m < n)%nat -> firstn n (upd l m x) = upd (firstn n l) m x) as Q.
  { induction n; intros m l Hm; [lia|]. destruct l; [destruct m; reflexivity|]. destruct m; cbn; [reflexivity|].
    rewrite IHn by lia. reflexivity. }
  apply Q. unfold contents in R. lia.
Qed.

Lemma zupd_replaced (l : list value) i x : 0 <= i < zlen l -> replaced l i x (zupd l i x).
Proof.
  intro R. split; [apply zlen_zupd|]. split; [apply znth_zupd_same; auto|].
  intros j N. apply znth_zupd_other. auto.
Qed.

Lemma addr_run s l n t v j : rs s l n t -> v_type v = T_INT -> slot_of l (v_int v) j ->
  exists a, stack_addr v t = Ok (a, t) /\ 0 <= j < zlen l /\ u32 a = j.
Proof.
  intros R T (B & J). destruct (rs_at _ _ _ _ R) as (k & A & W & C & N).
  unfold stack_addr. rewrite (bind_run _ _ _ _ _ (stack_size_ok _ _ A)). eexists. split; [reflexivity|]. split; [exact B|].
  pose proof (contents_len _ W) as CL. rewrite C in CL. pose proof (kw_size _ W). pose proof (kwf_cap _ W).
  destruct J as [[P ->]|[P ->]].
  - destruct (Z.leb_spec 0 (v_int v)); [|lia]. apply u32_id. unfold is_u32, W31, W32 in *. lia.
  - destruct (Z.leb_spec 0 (v_int v)); [lia|]. rewrite <- CL. rewrite u32_id by apply u32_range. apply u32_id. unfold is_u32, W31, W32 in *; lia.
Qed.

Lemma rs_peek s l n t a x : rs s l n t -> 0 <= u32 a < zlen l -> znth l (u32 a) = Some x -> peek a t = Ok (x, t).
Proof.
  intros R B X. destruct (rs_at _ _ _ _ R) as (k & A & W & C & N).
  pose proof (peek_in t k l (u32 a) x A W C B X) as P.
  unfold peek, peek_idx in *. destruct A as (c & H & E). unfold mbind in *. rewrite (cur_ctx_ok _ _ H) in *.
  unfold ret in *. rewrite u32_id in P by apply u32_range. exact P.
Qed.

Lemma rs_peek_idx s l n t a : rs s l n t -> 0 <= u32 a < zlen l -> peek_idx a t = Ok (u32 a, t).
Proof.
  intros R B. destruct (rs_at _ _ _ _ R) as (k & A & W & C & N). rewrite (peek_idx_ok _ _ _ A).
  pose proof (contents_len _ W) as CL. rewrite C in CL. pose proof (kw_size _ W).
  rewrite land_small; auto. lia.
Qed.

Lemma rs_set s l n t i x : rs s l n t -> 0 <= i < zlen l ->
  exists t', set_slot i x t = Ok (tt, t') /\ rs s (zupd l i x) n t'.
Proof.
  intros R B. destruct (rs_at _ _ _ _ R) as (k & A & W & C & N).
  pose proof (contents_len _ W) as CL. rewrite C in CL. pose proof (kw_size _ W). pose proof (kw_len _ W).
  rewrite (set_slot_ok t k i x A) by lia. eexists. split; [reflexivity|].
  destruct R as (c & k0 & HX & W0 & C0 & N0 & E). exists c, (poke k i x). split; [auto|].
  split; [apply poke_wf; auto|]. split; [apply poke_contents; auto|]. split; [exact N|].
  subst t. apply with_stack_twice.
Qed.

(** ** Pushing on a stack that may have to grow *)
Lemma can_push_slot s l : stack_is s l -> can_push s ->
  exists t, push_slot s = Ok (zlen l, t) /\ forall x, exists t', set_slot (zlen l) x t = Ok (tt, t') /\ restacked s (l ++ [x]) t'.
Proof.
  intros (c & H & W & C) (c' & H' & P). rewrite H in H'. injection H' as <-.
  assert (at_stack s (c_stack c)) as A by (exists c; auto).
  assert (room s (c_stack c) = true) as Rm.
  { unfold room. destruct P as [P|[P Q]].
    - apply Z.ltb_lt in P. rewrite P. reflexivity.
    - apply Z.leb_le in P, Q. rewrite P, Q. apply orb_true_r. }
  pose proof (contents_len _ W) as CL. rewrite C in CL.
  rewrite (push_slot_room _ _ A W Rm), <- CL. eexists. split; [reflexivity|]. intro x.
  pose proof (grown_wf _ _ W Rm) as Wg. pose proof (grown_size (c_stack c)) as Sg. pose proof (kw_size _ Wg).
  pose proof (with_stack_at _ (grown (c_stack c)) _ A) as Ag.
  rewrite (set_slot_ok _ _ (zlen l) x Ag) by (rewrite (kw_len _ Wg); pose proof (kw_size _ W); lia).
  eexists. split; [reflexivity|]. rewrite with_stack_twice.
  exists c. eexists. split; [exact H|]. split; [apply poke_wf; exact Wg|]. split; [|apply with_stack_eq; auto].
  unfold contents, poke. cbn [k_size k_vals]. rewrite Sg, <- CL.
  pose proof (grown_contents _ W) as GC. rewrite C, <- CL in GC.
  assert (0 <= zlen l) by apply zlen_nonneg.
  rewrite firstn_snoc with (x := x).
  - rewrite firstn_zupd by lia. rewrite GC. reflexivity.
  - apply znth_zupd_same. rewrite (kw_len _ Wg). pose proof (kw_size _ W). lia.
Qed.

Lemma literal_run s l ip ty w : stack_is s l -> can_push s -> ip_is s ip -> code_at s (u32 (ip + 1)) w ->
  exists s', op_push_literal ty s = Ok (tt, s') /\ moved s (l ++ [mkV ty w]) (u32 (ip + 1)) s'.
Proof.
  intros S P (c0 & H0 & I) Cd. pose proof S as (c & H & W & C). rewrite H in H0. injection H0 as <-.
  assert (at_stack s (c_stack c)) as A by (exists c; auto).
  assert (room s (c_stack c) = true) as Rm.
  { destruct P as (c' & H' & P). rewrite H in H'. injection H' as <-. unfold room. destruct P as [P|[P Q]].
    - apply Z.ltb_lt in P. rewrite P. reflexivity.
    - apply Z.leb_le in P, Q. rewrite P, Q. apply orb_true_r. }
  pose proof (contents_len _ W) as CL. rewrite C in CL.
  unfold op_push_literal. rewrite (bind_run _ _ _ _ _ (push_slot_room _ _ A W Rm)).
  pose proof (grown_wf _ _ W Rm) as Wg. pose proof (grown_size (c_stack c)) as Sg. pose proof (kw_size _ Wg) as Zg.
  set (g := grown (c_stack c)) in *.
  assert (znth (v_ctxs (with_stack g s)) (v_cur (with_stack g s)) = Some (Some (set_c_stack g c))) as Hg.
  { unfold with_stack. rewrite upd_cur_cur. apply (upd_cur_znth _ _ _ H). }
  assert (get_ip (with_stack g s) = Ok (ip, with_stack g s)) as Gi.
  { unfold get_ip. rewrite (bind_run _ _ _ _ _ (cur_ctx_ok _ _ Hg)). cs. rewrite I. reflexivity. }
  rewrite (bind_run _ _ _ _ _ Gi).
  assert (set_ip (u32 (ip + 1)) (with_stack g s) = Ok (tt, upd_cur (fun c => set_c_ip (u32 (ip + 1)) (set_c_stack g c)) s)) as Si.
  { unfold set_ip. rewrite mod_cur_upd by (exists (set_c_stack g c); exact Hg). unfold with_stack. rewrite upd_cur_upd. reflexivity. }
  rewrite (bind_run _ _ _ _ _ Si).
  set (s1 := upd_cur _ s).
  assert (v_code s1 = v_code s /\ v_cmask s1 = v_cmask s) as [E1 E2].
  { unfold s1, upd_cur. rewrite H. split; reflexivity. }
  unfold mbind at 1, self, gets. unfold mbind at 1, lift, rd. unfold code_at in Cd. rewrite E1, E2, Cd.
  assert (at_stack s1 g) as A1.
  { eexists. split; [unfold s1; rewrite upd_cur_cur; apply (upd_cur_znth _ _ _ H)|reflexivity]. }
  pose proof (kw_size _ W).
  rewrite (set_slot_ok s1 g (k_size (c_stack c)) (mkV ty w) A1) by (rewrite (kw_len _ Wg); lia).
  eexists. split; [reflexivity|].
  exists c, (poke g (k_size (c_stack c)) (mkV ty w)). split; [auto|]. split; [apply poke_wf; exact Wg|]. split.
  - unfold contents, poke. cbn [k_size k_vals]. rewrite Sg.
    pose proof (grown_contents _ W) as GC. rewrite C in GC. fold g in GC.
    rewrite firstn_snoc with (x := mkV ty w).
    + rewrite firstn_zupd by lia. rewrite GC. reflexivity.
    + apply znth_zupd_same. rewrite (kw_len _ Wg). lia.
  - unfold with_stack, s1. rewrite upd_cur_upd. unfold upd_cur. rewrite H. reflexivity.
Qed.

Lemma popn_run s st l v n : stack_is s (st ++ l ++ [v]) -> as_int s v n -> n = zlen l ->
  exists s', op_popn s = Ok (tt, s') /\ restacked s st s'.
Proof.
  intros S I E. rewrite app_assoc in S. unfold op_popn. pose proof (rs_start _ _ S) as R. rpop R.
  rewrite (bind_run _ _ _ _ _ (as_int_run _ _ _ _ I (rs_strs _ _ _ _ R))).
  destruct (rs_at _ _ _ _ R) as (k & A & W & C & N). pose proof (contents_len _ W) as CL.
  rewrite C, zlen_app in CL. pose proof (zlen_nonneg st). pose proof (zlen_nonneg l). pose proof (kw_size _ W). pose proof (kwf_cap _ W).
  rewrite u32_id by (unfold is_u32, W31, W32 in *; lia). 
  rewrite (pop_n_ok t k n A W) by lia. eexists. split; [reflexivity|].
  destruct R as (c & k0 & HX & W0 & C0 & N0 & Et). exists c, (shrunk k n). split; [auto|]. split; [apply shrunk_wf; auto; lia|].
  split; [|subst t; rewrite with_stack_twice; apply with_stack_eq; auto].
  rewrite shrunk_contents. unfold contents in C. replace (k_size k - n) with (zlen st) by lia.
  assert (firstn (Z.to_nat (zlen st)) (k_vals k) = firstn (Z.to_nat (zlen st)) (firstn (Z.to_nat (k_size k)) (k_vals k))) as ->.
  { rewrite firstn_firstn. f_equal. lia. }
  rewrite C. rewrite firstn_app. unfold zlen. rewrite Nat2Z.id, firstn_all, Nat.sub_diag. cbn. apply app_nil_r.
Qed.

(** ** Strings *)
Lemma rs_slot s l n t : rs s l n t -> 0 < n ->
  exists j t', push_slot t = Ok (zlen l, t') /\ rs s (l ++ [j]) (n - 1) t'.
Proof.
  intros R N. destruct (rs_at _ _ _ _ R) as (k & A & W & C & Nk).
  pose proof (contents_len _ W) as CL. rewrite C in CL. pose proof (kw_len _ W). pose proof (kw_size _ W).
  rewrite (push_slot_spare t k A W) by lia. destruct (znth_in_range (k_vals k) (k_size k)) as [j J]; [lia|].
  exists j. eexists. rewrite CL. split; [reflexivity|].
  destruct R as (c & k0 & HX & W0 & C0 & N0 & E). exists c, (shrunk k (-1)). split; [auto|].
  split; [|split; [|split; [|subst t; apply with_stack_twice]]].
  - destruct W. split; cbn; auto. lia.
  - rewrite shrunk_contents. replace (k_size k - -1) with (k_size k + 1) by lia.
    rewrite (firstn_snoc _ _ _ J). unfold contents in C. rewrite C. reflexivity.
  - cbn. lia.
Qed.

Lemma zupd_last {A} (l : list A) x y : zupd (l ++ [x]) (zlen l) y = l ++ [y].
Proof.
  unfold zupd. pose proof (zlen_nonneg l). destruct (Z.ltb_spec (zlen l) 0); [lia|].
  unfold zlen. rewrite Nat2Z.id. clear. induction l; cbn; [reflexivity|]. f_equal. auto.
Qed.

Lemma push_string_run s0 s m l n t txt : more_strings s0 s -> rs s l n t -> 0 < n -> obj_inv t m -> is_text txt ->
  (has_text t txt \/ free1 t) ->
  exists i s' t', push_string txt t = Ok (tt, t') /\ more_strings s0 s' /\ rs s' (l ++ [vstr i]) (n - 1) t' /\
    get_str t' i = Some txt.
Proof.
  intros M R N I T F. unfold push_string. destruct (rs_slot _ _ _ _ R N) as (j & t1 & E1 & R1).
  rewrite (bind_run _ _ _ _ _ E1).
  assert (zlen (l ++ [j]) = zlen l + 1) as Z1 by (repeat rewrite ?zlen_app, ?zlen_cons, ?zlen_nil; lia).
  pose proof (zlen_nonneg l).
  destruct (rs_at _ _ _ _ R1) as (k1 & A1 & W1 & C1 & N1).
  pose proof (contents_len _ W1) as CL1. rewrite C1 in CL1. pose proof (kw_len _ W1). pose proof (kw_size _ W1).
  destruct (get_slot_ok t1 k1 (zlen l) A1 ltac:(lia)) as (old & _ & Gs). rewrite (bind_run _ _ _ _ _ Gs).
  destruct (rs_set _ _ _ _ (zlen l) (mkV T_STRING (v_data old)) R1 ltac:(lia)) as (t2 & E2 & R2).
  rewrite (bind_run _ _ _ _ _ E2). rewrite zupd_last in R2.
  assert (v_strs t2 = v_strs t /\ v_byhash t2 = v_byhash t /\ v_objs t2 = v_objs t) as (F1 & F2 & F3).
  { destruct R as (? & ? & ? & ? & ? & ? & ->). destruct R2 as (? & ? & ? & ? & ? & ? & ->).
    unfold with_stack, upd_cur. destruct (znth (v_ctxs s) (v_cur s)) as [[cc|]|]; sp; reflexivity. }
  assert (obj_inv t2 m) as I2.
  { exact (obj_inv_rs _ _ _ _ _ (obj_inv_back _ _ _ _ _ I R) R2). }
  destruct (intern_rs s0 s m _ _ t2 txt M R2 I2 T) as (i & s' & t3 & E3 & M3 & R3 & I3 & G3 & _ & _ & _ & _).
  { destruct F as [(q & F)|(q & B & F)]; [left; exists q|right; exists q]; unfold get_str, get_str_entry in *; rewrite F1; auto. }
  rewrite (bind_run _ _ _ _ _ E3).
  assert (zlen (l ++ [mkV T_STRING (v_data old)]) = zlen l + 1) as Z2 by (repeat rewrite ?zlen_app, ?zlen_cons, ?zlen_nil; lia).
  destruct (rs_set _ _ _ _ (zlen l) (vstr i) R3 ltac:(lia)) as (t4 & E4 & R4). rewrite zupd_last in R4.
  exists i, s', t4. split; [exact E4|]. split; [exact M3|]. split; [exact R4|].
  unfold get_str, get_str_entry in *. rewrite (rs_strs _ _ _ _ R4), <- (rs_strs _ _ _ _ R3). exact G3.
Qed.

Lemma text_run s0 s m l n t v txt : more_strings s0 s -> rs s l n t -> obj_inv t m -> text_of s v txt -> string_room s ->
  exists s' t', to_string v t = Ok (Some txt, t') /\ more_strings s0 s' /\ rs s' l n t' /\ obj_inv t' m /\ is_text txt /\
    (forall j u, get_str t j = Some u -> get_str t' j = Some u) /\ free1 t'.
Proof.
  intros M R I X (i & j & Ri & Rj & Nij & Gi & Gj).
  assert (forall q, get_str t q = get_str s q) as Gt.
  { intro q. unfold get_str, get_str_entry. rewrite (rs_strs _ _ _ _ R). reflexivity. }
  assert ((v_type v = T_STRING /\ get_str s (v_data v) = Some txt) \/ (v_type v <> T_STRING /\ txt = value_text t v)) as [[T G]|[T Et]].
  { destruct X as [v t0 T G|v T|v T]; auto; right; unfold value_text; rewrite T; split; try reflexivity; discriminate. }
  - exists s, t. unfold to_string. rewrite T. change (T_STRING =? T_STRING) with true. cbv iota. unfold gets.
    rewrite Gt, G. split; [reflexivity|]. split; [auto|]. split; [auto|]. split; [auto|].
    split; [|split; [auto|exists i; split; [auto|rewrite Gt; auto]]].
    rewrite <- Gt in G. eapply get_str_text; [apply (oi_str _ _ I)|exact G].
  - assert (is_text txt) as Tx by (rewrite Et; apply value_text_text).
    destruct (intern_rs s0 s m l n t txt M R I Tx) as (q & s' & t' & E & M' & R' & I' & G' & Rq & Old & Oth & _).
    { right. exists i. split; [auto|rewrite Gt; auto]. }
    exists s', t'. unfold to_string. destruct (Z.eqb_spec (v_type v) T_STRING); [contradiction|].
    unfold mbind at 1, gets at 1. rewrite <- Et. rewrite (bind_run _ _ _ _ _ E). unfold gets. rewrite G'.
    split; [reflexivity|]. split; [auto|]. split; [auto|]. split; [auto|]. split; [auto|]. split.
    + intros p u Gp. destruct (Z.eq_dec p q) as [->|Np]; [|rewrite Oth; auto].
      destruct Old as [->|[No _]]; [auto|congruence].
    + destruct (Z.eq_dec q i) as [->|Ni]; [exists j|exists i]; (split; [auto|]); rewrite Oth by auto; rewrite Gt; auto.
Qed.

Lemma concat_run s m st a b ta tb : obj_inv s m -> stack_is s (st ++ [a; b]) -> v_type a = T_STRING ->
  get_str s (v_data a) = Some ta -> text_of s b tb -> string_room s ->
  exists s1 s' i, op_add s = Ok (tt, s') /\ more_strings s s1 /\ restacked s1 (st ++ [vstr i]) s' /\
    get_str s1 i = Some (ta ++ tb).
Proof.
  intros I S T Ga Tb Rm. rewrite snoc2 in S. unfold op_add. pose proof (rs_start _ _ S) as R. rpop R. rpop R.
  assert (obj_inv t0 m) as I0.
  { exact (obj_inv_rs _ _ _ _ _ I R). }
  cbv zeta. rewrite T. change (T_STRING =? T_INT) with false. change (T_STRING =? T_FLOAT) with false.
  change (T_STRING =? T_STRING) with true. cbv iota. unfold mbind at 1, self, gets.
  assert (get_str t0 (v_data a) = Some ta) as Ga0 by (unfold get_str, get_str_entry in *; rewrite (rs_strs _ _ _ _ R); auto).
  rewrite Ga0. cbn [null_text].
  destruct (text_run s s m _ _ t0 b tb (more_strings_refl s) R I0 Tb Rm) as (s1 & t1 & E & M1 & R1 & I1 & Tt & Kp & Fr).
  rewrite (bind_run _ _ _ _ _ E). cbn [null_text].
  assert (is_text (ta ++ tb)) as Ta by (apply is_text_app; auto; eapply get_str_text; [apply (oi_str _ _ I0)|exact Ga0]).
  destruct (push_string_run s s1 m _ _ t1 (ta ++ tb) M1 R1 ltac:(lia) I1 Ta (or_intror Fr)) as (i & s2 & t2 & E2 & M2 & R2 & G2).
  exists s2, t2, i. split; [exact E2|]. split; [exact M2|]. split; [eapply rs_restacked; exact R2|].
  unfold get_str, get_str_entry in *. rewrite (rs_strs _ _ _ _ R2) in G2. exact G2.
Qed.
