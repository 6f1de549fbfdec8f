(** * GcProofs: the collector keeps exactly what is reachable *)
From Verif Require Import Base.
From Verif Require Export VmInv GcSpec.

Lemma zupd_cons_0 {T} (a : T) l x : zupd (a :: l) 0 x = x :: l.
Proof. reflexivity. Qed.
Lemma zupd_cons_S {T} (a : T) l i x : 0 < i -> zupd (a :: l) i x = a :: zupd l (i - 1) x.
Proof.
  intro H. unfold zupd. destruct (Z.ltb_spec i 0), (Z.ltb_spec (i - 1) 0); try lia.
  replace (Z.to_nat i) with (S (Z.to_nat (i - 1))) by lia. reflexivity.
Qed.
Lemma nth_error_firstn_lt {T} (l : list T) : forall n k, (k < n)%nat -> nth_error (firstn n l) k = nth_error l k.
Proof.
  induction l as [|x r IH]; intros [|n] [|k] H; try lia; cbn; auto. apply IH. lia.
Qed.

Section Gc.
Variable hostmark : Z -> Z -> option Z -> list value.
Variables (b : bool) (p : Z) (s0 : vm).
Hypothesis W0 : wf b 0 s0.
Hypothesis P0 : v_gcpass s0 = p.

Notation Reach := (reach hostmark s0).
Notation Refs := (refs hostmark s0).

(** [s] is [s0] with more marks and errors. *)
Record mk (s : vm) : Prop := {
  mk_frame : exists es, s = set_errs (v_errs s0 ++ es) (set_strs (v_strs s) (set_objs (v_objs s) s0));
  mk_obj : forall i o, get_obj s0 i = Some o -> get_obj s i = Some o \/ get_obj s i = Some (set_o_gc p o);
  mk_objn : forall i, get_obj s0 i = None -> get_obj s i = None;
  mk_str : forall i e, get_str_entry s0 i = Some e -> get_str_entry s i = Some e \/ get_str_entry s i = Some (set_s_gc p e);
  mk_strn : forall i, get_str_entry s0 i = None -> get_str_entry s i = None;
  mk_quiet : (forall v, Reach v -> present s0 v) -> v_errs s = v_errs s0
}.

Definition cov (s : vm) (open : list Z) (v : value) : Prop :=
  (v_type v = T_OBJ -> forall o, get_obj s (v_data v) = Some o -> o_gc o = p \/ In (v_data v) open) /\
  (v_type v = T_STRING -> forall e, get_str_entry s (v_data v) = Some e -> s_gc e = p).

Record Inv (s : vm) (open : list Z) : Prop := {
  iv_wf : wf b 0 s;
  iv_mk : mk s;
  iv_open : forall i, In i open -> get_obj s i <> None /\ Reach (vobj i);
  iv_obj : forall i o, get_obj s i = Some o -> o_gc o = p -> Reach (vobj i);
  iv_str : forall i e, get_str_entry s i = Some e -> s_gc e = p -> Reach (vstr i)
}.

Definition grows (s : vm) (open : list Z) (s' : vm) (open' : list Z) : Prop :=
  forall v, cov s open v -> cov s' open' v.
Definition closed (s : vm) (open : list Z) : Prop :=
  forall i o v, get_obj s i = Some o -> o_gc o = p -> Refs o v -> cov s open v.

Lemma grows_refl s o : grows s o s o.
Proof. intros v H. exact H. Qed.
Lemma grows_trans s o s1 o1 s2 o2 : grows s o s1 o1 -> grows s1 o1 s2 o2 -> grows s o s2 o2.
Proof. intros A1 A2 v H. auto. Qed.

Lemma mk_ctxs s : mk s -> v_ctxs s = v_ctxs s0 /\ v_cur s = v_cur s0 /\ v_static s = v_static s0 /\ v_smask s = v_smask s0 /\
  v_exttypes s = v_exttypes s0 /\ v_corotype s = v_corotype s0 /\ v_gcpass s = p /\ v_hlist s = v_hlist s0 /\
  v_cleanups s = v_cleanups s0 /\ v_byhash s = v_byhash s0.
Proof. intro H. destruct (mk_frame _ H) as [es E]. rewrite E. vs. sp; auto. Qed.

Lemma vobj_eta v : v_type v = T_OBJ -> v = vobj (v_data v).
Proof. destruct v. cbn. intros ->. reflexivity. Qed.
Lemma vstr_eta v : v_type v = T_STRING -> v = vstr (v_data v).
Proof. destruct v. cbn. intros ->. reflexivity. Qed.

Lemma Inv_errs s open e v : Inv s open -> Reach v -> ~ present s0 v -> Inv (set_errs (v_errs s ++ [e]) s) open.
Proof.
  intros H Rv Np. destruct H as [H1 H2 H3 H4 H5]. split; auto.
  - apply wf_errs; auto.
  - destruct H2 as [[es M1] M2 M3 M4 M5 M6]. split; auto.
    + exists (es ++ [e]). vs. rewrite M1. vs. rewrite <- app_assoc. reflexivity.
    + intro A. destruct (Np (A v Rv)).
Qed.

Lemma str_wf_gc t bh i e g : str_wf t bh -> tab_get t i = Some e ->
  str_wf (mkT (zupd (t_slots t) i (Some (set_s_gc g e))) (t_holes t)) bh.
Proof.
  intros W H. destruct (tab_upd_ok t i e (set_s_gc g e) (sw_tab _ _ W) H) as [T G].
  destruct W. split; auto.
  - intros j f F. rewrite G in F. destruct (Z.eqb_spec j i) as [->|]; [|eauto]. inversion F; subst. apply (sw_ent i e H).
  - intros j f F. rewrite G in F. destruct (Z.eqb_spec j i) as [->|]; [|eauto]. inversion F; subst. apply (sw_in i e H).
  - intros bb c j Hb Hj. destruct (sw_chain bb c j Hb Hj) as (f & F & B). rewrite G.
    destruct (Z.eqb_spec j i) as [->|]; [|eauto]. rewrite H in F. inversion F; subst. exists (set_s_gc g f). auto.
  - intros j k f f' F F' E. rewrite G in F, F'.
    destruct (Z.eqb_spec j i) as [->|]; destruct (Z.eqb_spec k i) as [->|]; auto.
    + inversion F; subst. apply (sw_uniq i k e f'); auto.
    + inversion F'; subst. apply (sw_uniq j i f e); auto.
    + apply (sw_uniq j k f f'); auto.
Qed.

Lemma wf_str_gc s i e g : wf b 0 s -> get_str_entry s i = Some e -> 0 <= g <= v_gcpass s ->
  wf b 0 (set_strs (mkT (zupd (t_slots (v_strs s)) i (Some (set_s_gc g e))) (t_holes (v_strs s))) s).
Proof.
  intros W H R. pose proof (str_wf_gc _ _ i e g (w_str _ _ _ W) H) as WS.
  destruct (tab_upd_ok (v_strs s) i e (set_s_gc g e) (sw_tab _ _ (w_str _ _ _ W)) H) as [T G].
  destruct W. split; unfold get_obj, get_str_entry in *; vs; auto.
  intros j f F. rewrite G in F. destruct (j =? i); [inversion F; subst; auto|eauto].
Qed.

Lemma wf_obj_gc s i o g : wf b 0 s -> get_obj s i = Some o -> 0 <= g <= v_gcpass s -> wf b 0 (put_obj i (set_o_gc g o) s).
Proof.
  intros W H R. apply wf_put_obj with o; auto. destruct (w_obj _ _ _ W _ _ H). split; os; auto.
Qed.

Lemma pass_range : 0 <= p <= INVALID.
Proof. rewrite <- P0. apply (w_pass _ _ _ W0). Qed.

Lemma set_s_gc_twice g e : set_s_gc g (set_s_gc g e) = set_s_gc g e.
Proof. reflexivity. Qed.

Lemma mark_string_ok s open i : Inv s open -> Reach (vstr i) ->
  exists s', mark_string p i s = Ok (tt, s') /\ Inv s' open /\ grows s open s' open /\ v_objs s' = v_objs s /\
    cov s' open (vstr i).
Proof.
  intros I R. unfold mark_string. unfold mbind at 1, gets at 1.
  destruct (get_str_entry s i) as [e|] eqn:E.
  - unfold modify. eexists. split; [reflexivity|].
    destruct (tab_upd_ok (v_strs s) i e (set_s_gc p e) (sw_tab _ _ (w_str _ _ _ (iv_wf _ _ I))) E) as [T G].
    match goal with |- Inv ?t _ /\ _ => set (s' := t) end.
    assert (forall j, get_str_entry s' j = if j =? i then Some (set_s_gc p e) else get_str_entry s j) as G' by exact G.
    sp.
    + destruct I as [H1 H2 H3 H4 H5]. split; auto.
      * apply wf_str_gc; auto. destruct (mk_ctxs s H2) as (_ & _ & _ & _ & _ & _ & Q & _). rewrite Q.
        pose proof pass_range. lia.
      * destruct H2 as [[es M1] M2 M3 M4 M5 M6]. split; auto.
        -- exists es. unfold s'. rewrite M1. vs. reflexivity.
        -- intros j f F. rewrite G'. destruct (Z.eqb_spec j i) as [->|]; [|auto]. right.
           destruct (M4 i f F) as [X|X]; rewrite E in X; inversion X; subst; reflexivity.
        -- intros j F. rewrite G'. destruct (Z.eqb_spec j i) as [->|]; [|auto]. rewrite (M5 i F) in E. discriminate.
      * intros j f F Q. rewrite G' in F. destruct (Z.eqb_spec j i) as [->|]; [auto|eauto].
    + intros v [C1 C2]. split; [exact C1|]. intros Tv f F. rewrite G' in F.
      destruct (Z.eqb_spec (v_data v) i); [inversion F; subst; reflexivity|eauto].
    + reflexivity.
    + split; [discriminate|]. intros _ f F. cbn [vstr v_data] in F. rewrite G', Z.eqb_refl in F.
      inversion F; reflexivity.
  - destruct (add_error_ok s (bs "GC error: Bad string table index.") (wf_live _ _ _ (iv_wf _ _ I))) as [er Er].
    rewrite Er. eexists. split; [reflexivity|]. sp; auto.
    + apply Inv_errs with (vstr i); auto. intros [Pr _]. apply (Pr eq_refl). cbn [vstr v_data].
      destruct (get_str_entry s0 i) as [e0|] eqn:E0; auto. destruct (mk_str _ (iv_mk _ _ I) i e0 E0); congruence.
    + intros v [C1 C2]. split; auto.
    + split; [discriminate|]. intros _ f F. change (get_str_entry s i = Some f) in F. congruence.
Qed.

Lemma mark_value_ok s open v : Inv s open -> Reach v ->
  exists open' s', mark_value p open v s = Ok (open', s') /\ Inv s' open' /\ grows s open s' open' /\ v_objs s' = v_objs s /\
    cov s' open' v /\ (length open' <= S (length open))%nat.
Proof.
  intros I R. unfold mark_value. destruct (Z.eqb_spec (v_type v) T_OBJ) as [T|T].
  - unfold gc_add_object. unfold mbind at 1, gets at 1. destruct (get_obj s (v_data v)) as [o|] eqn:E.
    + unfold ret. eexists _, s. split; [reflexivity|]. destruct (Z.eqb_spec (o_gc o) p) as [Q|Q].
      * sp; auto; [apply grows_refl|]. split; [|rewrite T; discriminate]. intros _ o' E'. left. congruence.
      * sp; auto.
        -- destruct I as [H1 H2 H3 H4 H5]. split; auto. intros j [<-|J]; auto. split; [congruence|]. rewrite <- vobj_eta; auto.
        -- intros w [C1 C2]. split; auto. intros Tw o' E'. destruct (C1 Tw o' E'); auto. right. right. auto.
        -- split; [|rewrite T; discriminate]. intros _ o' E'. right. left. reflexivity.
    + destruct (add_error_ok s (bs "Bad object reference in garbage collector.") (wf_live _ _ _ (iv_wf _ _ I))) as [er Er].
      rewrite (bind_run _ _ _ _ _ Er). unfold ret. eexists _, _. split; [reflexivity|]. sp; auto.
      * apply Inv_errs with v; auto. intros [_ Pr]. apply (Pr T).
        destruct (get_obj s0 (v_data v)) as [o0|] eqn:E0; auto. destruct (mk_obj _ (iv_mk _ _ I) _ o0 E0); congruence.
      * intros w [C1 C2]. split; auto.
      * split; [|rewrite T; discriminate]. intros _ o E'. change (get_obj s (v_data v) = Some o) in E'. congruence.
  - destruct (Z.eqb_spec (v_type v) T_STRING) as [T'|T'].
    + rewrite (vstr_eta v T') in R. destruct (mark_string_ok s open (v_data v) I R) as (s' & E & I' & G & O & C).
      rewrite (bind_run _ _ _ _ _ E). unfold ret. eexists _, s'. split; [reflexivity|]. sp; auto. rewrite (vstr_eta v T'); auto.
    + unfold ret. eexists _, s. split; [reflexivity|]. sp; auto; [apply grows_refl|]. split; intro; contradiction.
Qed.

Lemma mark_values_ok vs : forall s open, Inv s open -> (forall v, In v vs -> Reach v) ->
  exists open' s', mark_values p open vs s = Ok (open', s') /\ Inv s' open' /\ grows s open s' open' /\ v_objs s' = v_objs s /\
    (forall v, In v vs -> cov s' open' v) /\ (length open' <= length open + length vs)%nat.
Proof.
  induction vs as [|v r IH]; intros s open I R; cbn [mark_values].
  - unfold ret. eexists _, s. split; [reflexivity|]. sp; auto; [apply grows_refl|intros ? []|cbn; lia].
  - destruct (mark_value_ok s open v I (R v (or_introl eq_refl))) as (o1 & s1 & E1 & I1 & G1 & O1 & C1 & L1).
    rewrite (bind_run _ _ _ _ _ E1).
    destruct (IH s1 o1 I1) as (o2 & s2 & E2 & I2 & G2 & O2 & C2 & L2); [intros; apply R; right; auto|].
    exists o2, s2. sp; auto.
    + eapply grows_trans; eauto.
    + congruence.
    + intros w [<-|J]; auto.
    + cbn [length]. lia.
Qed.

(** ** Objects *)

Definition slot_weight (x : option nkobj) : nat :=
  match x with Some o => if o_gc o =? p then O else obj_weight hostmark s0 o | None => O end.
Fixpoint usum (l : list (option nkobj)) : nat :=
  match l with [] => O | x :: r => (slot_weight x + usum r)%nat end.

Lemma usum_upd l : forall i o o', znth l i = Some (Some o) -> (usum (zupd l i (Some o')) + slot_weight (Some o) = usum l + slot_weight (Some o'))%nat.
Proof.
  induction l as [|x r IH]; intros i o o' H.
  - apply znth_some_range in H as R. cbn in R. lia.
  - apply znth_some_range in H as R. destruct (Z.eq_dec i 0) as [->|N].
    + rewrite znth_cons_0 in H. inversion H; subst. rewrite zupd_cons_0. cbn [usum]. lia.
    + rewrite znth_cons_S in H by lia. rewrite zupd_cons_S by lia. cbn [usum]. specialize (IH _ _ o' H). lia.
Qed.

Lemma obj_values_refs o v : In v (obj_values o) <-> exists k w, In (k, w) (concat (o_buckets o)) /\ (v = k \/ v = w).
Proof.
  unfold obj_values. rewrite in_flat_map. split.
  - intros ((k & w) & I & J). cbn in J. exists k, w. split; auto. destruct J as [J|[J|J]]; auto. contradiction.
  - intros (k & w & I & [-> | ->]); exists (k, w); cbn; auto.
Qed.

Lemma in_firstn_znth {T} (l : list T) : forall n v, (0 <= n <= zlen l) -> In v (firstn (Z.to_nat n) l) <-> exists i, 0 <= i < n /\ znth l i = Some v.
Proof.
  intros n v R. split.
  - intro I. apply In_nth_error in I. destruct I as [k K]. assert (k < length (firstn (Z.to_nat n) l))%nat as Hk by (apply nth_error_Some; congruence).
    rewrite firstn_length in Hk. exists (Z.of_nat k). split; [lia|]. rewrite znth_def.
    destruct (Z.ltb_spec (Z.of_nat k) 0); [lia|]. rewrite Nat2Z.id.
    rewrite <- K. rewrite nth_error_firstn_lt; auto. lia.
  - intros (i & Ri & H). rewrite znth_def in H. destruct (Z.ltb_spec i 0); [lia|]. apply nth_error_In with (Z.to_nat i).
    rewrite nth_error_firstn_lt; auto. lia.
Qed.

Lemma stack_values_on k v : kwf k -> (In v (stack_values k) <-> on_stack k v).
Proof.
  intro K. pose proof (kw_size _ K). pose proof (kw_len _ K). pose proof (kwf_cap _ K).
  unfold stack_values, on_stack. apply in_firstn_znth. lia.
Qed.

Lemma coro_values_ok s i o : mk s -> wf b 0 s -> get_obj s i = Some o -> o_ext o = v_corotype s0 ->
  exists vs, coro_values (o_data o) s = Ok (vs, s) /\ (forall v, In v vs -> Refs o v) /\
    (forall v, Refs o v -> In v (obj_values o) \/ In v vs) /\
    (length (obj_values o) + length vs <= obj_weight hostmark s0 o)%nat.
Proof.
  intros M W Ho X. destruct (mk_ctxs s M) as (Ec & Eu & _ & _ & _ & Et & _).
  destruct (w_co2 _ _ _ W i o Ho) as (j & c & D & Nj & _ & Hc & _); [congruence|].
  unfold coro_values. rewrite D. rewrite (bind_run _ _ _ _ _ (get_ctx_ok _ _ _ Hc)).
  pose proof (w_stk _ _ _ W _ _ Hc) as K.
  assert (k_size (c_stack c) <= zlen (k_vals (c_stack c))) as Ks.
  { pose proof (kw_size _ K). pose proof (kw_len _ K). lia. }
  assert (exists ps, (match c_parent c with
          | None => ret []
          | Some j => pc <- get_ctx j ;; ret [c_obj pc]
          end) s = Ok (ps, s) /\ (length ps <= 1)%nat /\
          (forall v, In v ps <-> exists k pc, c_parent c = Some k /\ znth (v_ctxs s) k = Some (Some pc) /\ v = c_obj pc)) as (ps & E & L & Hp).
  { destruct (c_parent c) as [k|] eqn:Pa.
    - destruct (w_chain _ _ _ W) as (l & C & I). assert (In j l) as J by (apply (I j c Hc); congruence).
      destruct (chain_parent _ _ _ C j c J Nj Hc) as (q & Q & Jq). assert (q = k) by congruence. subst q.
      destruct (chain_in _ _ _ C k Jq) as [pc Hk]. exists [c_obj pc]. rewrite (bind_run _ _ _ _ _ (get_ctx_ok _ _ _ Hk)).
      sp; auto. intro v. split.
      + intros [<-|Hf]; [eauto|destruct Hf].
      + intros (k' & pc' & E1 & E2 & ->). left. congruence.
    - exists []. sp; auto. intro v. split; [intros Hf; destruct Hf|]. intros (k & pc & E1 & _). discriminate. }
  rewrite (bind_run _ _ _ _ _ E). destruct (Z.ltb_spec (zlen (k_vals (c_stack c))) (k_size (c_stack c))); [lia|].
  unfold ret. eexists. split; [reflexivity|]. sp.
  - intros v I. apply in_app_or in I. destruct I as [I|I].
    + apply Hp in I. destruct I as (k & pc & E1 & E2 & ->). eapply rf_parent; eauto; rewrite <- Ec; eauto.
    + apply (stack_values_on _ _ K) in I. eapply rf_stack; eauto; rewrite <- Ec; eauto.
  - intros v R. inversion R as [k w I E1|k w I E1|i' c' j' pc' X1 X2 X3 X4 X5 E1|i' c' v' X1 X2 X3 X4 E1|et v' X1 X2 X3 X4 X5 E1]; subst.
    + left. apply obj_values_refs. eauto.
    + left. apply obj_values_refs. eauto.
    + right. apply in_or_app. left. apply Hp. rewrite <- Ec in *. assert (i' = j) by congruence. subst i'.
      assert (c' = c) by congruence. subst c'. eauto.
    + right. apply in_or_app. right. rewrite <- Ec in *. assert (i' = j) by congruence. subst i'.
      assert (c' = c) by congruence. subst c'. apply stack_values_on; auto.
    + contradiction.
  - unfold obj_weight. rewrite X, Z.eqb_refl, D, <- Ec, Hc. rewrite app_length. lia.
Qed.

Lemma refs_gc g o v : Refs (set_o_gc g o) v <-> Refs o v.
Proof.
  split; intro R; inversion R; subst; solve [eapply rf_key; eauto|eapply rf_val; eauto|eapply rf_parent; eauto|eapply rf_stack; eauto|eapply rf_host; eauto].
Qed.

Lemma mark_object_ok s r i o : Inv s r -> get_obj s i = Some o -> Reach (vobj i) -> closed s (i :: r) ->
  exists open s', mark_object hostmark p r i s = Ok (open, s') /\ Inv s' open /\ closed s' open /\ grows s (i :: r) s' open /\
    (length open + usum (t_slots (v_objs s')) <= length r + usum (t_slots (v_objs s)))%nat.
Proof.
  intros I Ho R C. unfold mark_object. rewrite (bind_run _ _ _ _ _ (rd_obj_ok _ _ _ Ho)).
  destruct (Z.eqb_spec (o_gc o) p) as [Q|Q].
  { unfold ret. assert (grows s (i :: r) s r) as G.
    { intros v [C1 C2]. split; auto. intros Tv o' E'. destruct (C1 Tv o' E') as [H|[H|H]]; auto. left. congruence. }
    eexists _, s. split; [reflexivity|]. sp; auto. intros j o' v H1 H2 H3. apply G. eapply C; eauto. }
  rewrite (bind_run _ _ _ _ _ (wr_obj_ok _ _ _ _ Ho)).
  destruct (put_obj_wf s i o (set_o_gc p o) (w_tab _ _ _ (iv_wf _ _ I)) Ho) as [T G].
  remember (put_obj i (set_o_gc p o) s) as s1 eqn:Es1.
  assert (exists o0, get_obj s0 i = Some o0 /\ o = o0) as (o0 & Ho0 & Eo0).
  { destruct (get_obj s0 i) as [o0|] eqn:E0.
    - exists o0. split; auto. destruct (mk_obj _ (iv_mk _ _ I) i o0 E0) as [E|E]; rewrite Ho in E; inversion E; subst; auto.
      exfalso. apply Q. reflexivity.
    - rewrite (mk_objn _ (iv_mk _ _ I) i E0) in Ho. discriminate. }
  subst o0.
  assert (Inv s1 r) as I1.
  { destruct I as [H1 H2 H3 H4 H5]. destruct (mk_ctxs s H2) as (_ & _ & _ & _ & _ & _ & Ep & _). pose proof pass_range. split; auto.
    - subst s1. apply wf_obj_gc; auto. lia.
    - destruct H2 as [[es M1] M2 M3 M4 M5 M6]. split.
      + exists es. subst s1. unfold put_obj. vs. match goal with |- set_objs ?X s = _ => generalize X; intro t end. rewrite M1 at 1. reflexivity.
      + intros j o' E'. rewrite G. destruct (Z.eqb_spec j i) as [->|]; auto. right. congruence.
      + intros j E'. rewrite G. destruct (Z.eqb_spec j i) as [->|]; auto. congruence.
      + subst s1. exact M4.
      + subst s1. exact M5.
      + subst s1. exact M6.
    - intros j J. rewrite G. destruct (H3 j J). split; auto. destruct (j =? i); congruence.
    - intros j o' E' Q'. rewrite G in E'. destruct (Z.eqb_spec j i) as [->|]; [auto|eauto].
    - subst s1. exact H5. }
  assert (grows s (i :: r) s1 r) as G1.
  { intros v [C1 C2]. split.
    - intros Tv o' E'. rewrite G in E'. destruct (Z.eqb_spec (v_data v) i); [left; inversion E'; subst; reflexivity|].
      destruct (C1 Tv o' E') as [H|[H|H]]; auto. congruence.
    - subst s1. exact C2. }
  assert (usum (t_slots (v_objs s1)) + obj_weight hostmark s0 o = usum (t_slots (v_objs s)))%nat as U1.
  { unfold get_obj in Ho. apply tab_get_some in Ho. pose proof (usum_upd _ _ _ (set_o_gc p o) Ho) as U.
    cbn [slot_weight set_o_gc o_gc] in U. rewrite Z.eqb_refl in U. destruct (Z.eqb_spec (o_gc o) p); [contradiction|].
    subst s1. unfold put_obj. vs. cbn [t_slots]. lia. }
  assert (forall v, In v (obj_values o) -> Reach v) as Rv.
  { intros v J. apply obj_values_refs in J. destruct J as (k & w & J & [-> | ->]); eapply rc_ref; eauto; [eapply rf_key|eapply rf_val]; eauto. }
  destruct (mark_values_ok (obj_values o) s1 r I1 Rv) as (open1 & s2 & E2 & I2 & G2 & O2 & C2 & L2).
  rewrite (bind_run _ _ _ _ _ E2). unfold mbind at 1, gets at 1.
  assert (forall j o', get_obj s2 j = Some o' -> o_gc o' = p -> j <> i -> get_obj s j = Some o') as Old.
  { intros j o' H1 H2 H3. unfold get_obj in H1. rewrite O2 in H1. fold (get_obj s1 j) in H1. rewrite G in H1.
    destruct (Z.eqb_spec j i); congruence. }
  assert (forall o', get_obj s2 i = Some o' -> o' = set_o_gc p o) as New.
  { intros o' H1. unfold get_obj in H1. rewrite O2 in H1. fold (get_obj s1 i) in H1. rewrite G, Z.eqb_refl in H1. congruence. }
  assert (forall open' s', grows s2 open1 s' open' -> v_objs s' = v_objs s2 -> (forall v, Refs o v -> cov s' open' v) -> closed s' open') as Fin.
  { intros open' s' Gr Oe Cv j o' v H1 H2 H3. unfold get_obj in H1. rewrite Oe in H1. fold (get_obj s2 j) in H1.
    destruct (Z.eq_dec j i) as [->|N].
    - rewrite (New _ H1) in H3. apply Cv. apply refs_gc in H3. exact H3.
    - apply Gr, G2, G1. apply (C j o' v); auto. }
  assert (forall v, Refs o v -> Reach v) as Rr by (intros v J; eapply rc_ref; eauto).
  destruct (mk_ctxs s2 (iv_mk _ _ I2)) as (_ & _ & _ & _ & Et & Eco & _).
  assert (obj_weight hostmark s0 o >= length (obj_values o))%nat as Wg by (unfold obj_weight; lia).
  assert (length open1 + usum (t_slots (v_objs s2)) <= length r + usum (t_slots (v_objs s)))%nat as L3 by (rewrite O2; lia).
  assert ((forall v, Refs o v -> In v (obj_values o)) ->
     exists open s', Ok (open1, s2) = Ok (open, s') /\ Inv s' open /\ closed s' open /\ grows s (i :: r) s' open /\
    (length open + usum (t_slots (v_objs s')) <= length r + usum (t_slots (v_objs s)))%nat) as Simple.
  { intro Hall. exists open1, s2. sp; auto.
    - apply Fin; auto; apply grows_refl. 
    - eapply grows_trans; eauto. }
  destruct (Z.eqb_spec (o_ext o) INVALID) as [Xi|Xi].
  { apply Simple. intros v J. destruct (w_corotype _ _ _ W0) as (Nc & _).
    inversion J; subst; try (apply obj_values_refs; eauto; fail); congruence. }
  rewrite Et. destruct (znth (v_exttypes s0) (o_ext o)) as [et|] eqn:Ext.
  2:{ apply Simple. intros v J. destruct (w_corotype _ _ _ W0) as (Nc & et & Eet & _).
      inversion J; subst; try (apply obj_values_refs; eauto; fail); congruence. }
  destruct (et_mark et) eqn:Em.
  2:{ apply Simple. intros v J. destruct (w_corotype _ _ _ W0) as (Nc & et' & Eet & _ & Emk).
      inversion J; subst; try (apply obj_values_refs; eauto; fail); congruence. }
  assert (exists vs, (if o_ext o =? v_corotype s2 then coro_values (o_data o) else ret (hostmark (o_ext o) (o_idx o) (o_data o))) s2 = Ok (vs, s2) /\
    (forall v, In v vs -> Refs o v) /\ (forall v, Refs o v -> In v (obj_values o) \/ In v vs) /\
    (length (obj_values o) + length vs <= obj_weight hostmark s0 o)%nat) as (vs & Ev & V1 & V2 & V3).
  { rewrite Eco. destruct (Z.eqb_spec (o_ext o) (v_corotype s0)) as [Xc|Xc].
    - assert (get_obj s2 i = Some (set_o_gc p o)) as H2.
      { unfold get_obj. rewrite O2. fold (get_obj s1 i). rewrite G, Z.eqb_refl. reflexivity. }
      destruct (coro_values_ok s2 i (set_o_gc p o) (iv_mk _ _ I2) (iv_wf _ _ I2) H2 Xc) as (vs & E & V1 & V2 & V3).
      exists vs. sp; auto.
      + intros v J. apply (refs_gc p). auto.
      + intros v J. apply (V2 v). apply refs_gc. auto.
    - exists (hostmark (o_ext o) (o_idx o) (o_data o)). sp; auto.
      + intros v J. eapply rf_host; eauto.
      + intros v J. inversion J; subst; auto; try contradiction; left; apply obj_values_refs; eauto.
      + unfold obj_weight. destruct (Z.eqb_spec (o_ext o) (v_corotype s0)); [contradiction|]. lia. }
  rewrite (bind_run _ _ _ _ _ Ev).
  destruct (mark_values_ok vs s2 open1 I2) as (open2 & s3 & E3 & I3 & G3 & O3 & C3 & L4); [auto|].
  rewrite E3. exists open2, s3. sp; auto.
  - apply Fin; auto. intros v J. destruct (V2 v J); auto.
  - eapply grows_trans; [exact G1|]. eapply grows_trans; eauto.
  - rewrite O3, O2. lia.
Qed.

Lemma cov_cons s i r v : cov s r v -> cov s (i :: r) v.
Proof. intros [C1 C2]. split; auto. intros T o H. destruct (C1 T o H); auto. right. right. auto. Qed.

Lemma mark_objects_ok ids : forall s open, Inv s open -> closed s open ->
  (forall i, In i ids -> get_obj s i <> None /\ Reach (vobj i)) ->
  exists open' s', mark_objects hostmark p open ids s = Ok (open', s') /\ Inv s' open' /\ closed s' open' /\ grows s open s' open' /\
    (forall i, In i ids -> cov s' open' (vobj i)).
Proof.
  induction ids as [|i r IH]; intros s open I C H; cbn [mark_objects].
  - unfold ret. eexists _, s. split; [reflexivity|]. sp; auto; [apply grows_refl|intros ? []].
  - destruct (H i (or_introl eq_refl)) as [Hl R]. destruct (get_obj s i) as [o|] eqn:Ho; [|congruence].
    destruct (mark_object_ok s open i o I Ho R) as (o1 & s1 & E1 & I1 & C1 & G1 & _).
    { intros j o' v H1 H2 H3. apply cov_cons. eapply C; eauto. }
    rewrite (bind_run _ _ _ _ _ E1). destruct (IH s1 o1 I1 C1) as (o2 & s2 & E2 & I2 & C2 & G2 & M2).
    { intros j J. destruct (H j (or_intror J)) as [Hj Rj]. split; auto.
      destruct (get_obj s1 j) eqn:E; [congruence|]. exfalso. apply Hj.
      destruct (get_obj s0 j) as [oj|] eqn:E0; [|apply (mk_objn _ (iv_mk _ _ I) j E0)].
      destruct (mk_obj _ (iv_mk _ _ I1) j oj E0); congruence. }
    exists o2, s2. sp; auto.
    + intros v Cv. apply G2, G1, cov_cons. auto.
    + intros j [<-|J]; auto. apply G2, G1. split; [|discriminate]. intros _ o' _. right. left. reflexivity.
Qed.

Lemma mark_referenced_ok fuel : forall s open, Inv s open -> closed s open ->
  (length open + usum (t_slots (v_objs s)) <= fuel)%nat ->
  exists s', mark_referenced hostmark fuel p open s = Ok (tt, s') /\ Inv s' [] /\ closed s' [] /\ grows s open s' [].
Proof.
  induction fuel as [|f IH]; intros s open I C L; (destruct open as [|i r]; cbn [mark_referenced];
    [exists s; sp; auto; apply grows_refl|]).
  - cbn in L. lia.
  - destruct (iv_open _ _ I i (or_introl eq_refl)) as [Hl R]. destruct (get_obj s i) as [o|] eqn:Ho; [|congruence].
    destruct (mark_object_ok s r i o) as (o1 & s1 & E1 & I1 & C1 & G1 & L1); auto.
    { destruct I as [H1 H2 H3 H4 H5]. split; auto. intros j J. apply H3. right. auto. }
    rewrite (bind_run _ _ _ _ _ E1). cbn [length] in L.
    destruct (IH s1 o1 I1 C1) as (s2 & E2 & I2 & C2 & G2); [lia|]. exists s2. sp; auto. eapply grows_trans; eauto.
Qed.

Lemma gc_fuel_ok s open : mk s -> (length open + usum (t_slots (v_objs s)) <= gc_fuel hostmark s open)%nat.
Proof.
  intro M. destruct (mk_ctxs s M) as (Ec & _ & _ & _ & _ & Et & _). unfold gc_fuel.
  induction (t_slots (v_objs s)) as [|x l IH]; cbn [usum fold_right]; [lia|].
  destruct x as [o|]; cbn [slot_weight]; [|lia].
  assert (obj_weight hostmark s o = obj_weight hostmark s0 o) as E by (unfold obj_weight; rewrite Ec, Et; reflexivity).
  rewrite E. destruct (o_gc o =? p); lia.
Qed.

(** The whole marking phase. *)
Definition marking (K : M unit) : M unit :=
  s <- gets (fun s => s) ;;
  open1 <- mark_objects hostmark p [] (v_hlist s) ;;
  rc <- get_ctx 0 ;;
  (if zlen (k_vals (c_stack rc)) <? k_size (c_stack rc) then mub UbOob else ret tt) ;;;
  open2 <- mark_values p open1 (stack_values (c_stack rc)) ;;
  cc <- cur_ctx ;;
  open3 <- mark_value p open2 (c_obj cc) ;;
  (if zlen (v_static s) <? v_smask s + 1 then mub UbOob else ret tt) ;;;
  open4 <- mark_values p open3 (firstn (Z.to_nat (v_smask s + 1)) (v_static s)) ;;
  s4 <- gets (fun s => s) ;;
  mark_referenced hostmark (gc_fuel hostmark s4 open4) p open4 ;;;
  K.

Lemma marking_ok :
  (forall i o, get_obj s0 i = Some o -> o_gc o <> p) ->
  (forall i e, get_str_entry s0 i = Some e -> s_gc e <> p) ->
  exists s5, (forall K, marking K s0 = K s5) /\ Inv s5 [] /\ forall v, Reach v -> cov s5 [] v.
Proof.
  intros Fo Fs.
  assert (Inv s0 []) as I0.
  { split; auto; try (intros i []; fail).
    - split; auto. exists []. rewrite app_nil_r. destruct s0; reflexivity.
    - intros i o H Q. destruct (Fo i o H Q).
    - intros i e H Q. destruct (Fs i e H Q). }
  assert (closed s0 []) as C0 by (intros i o v H Q; destruct (Fo i o H Q)).
  destruct (mark_objects_ok (v_hlist s0) s0 [] I0 C0) as (o1 & s1 & E1 & I1 & C1 & G1 & M1).
  { intros i J. apply (w_hlist _ _ _ W0) in J. destruct J as (o & Ho & Hn). split; [congruence|]. eapply rc_handle; eauto. }
  destruct (mk_ctxs s1 (iv_mk _ _ I1)) as (Ec1 & Eu1 & _).
  destruct (w_chain _ _ _ W0) as (l & Ch & _).
  assert (exists rc, znth (v_ctxs s0) 0 = Some (Some rc)) as [rc Hrc].
  { clear - Ch. induction Ch; eauto. }
  pose proof (w_stk _ _ _ W0 _ _ Hrc) as Kr.
  destruct (mark_values_ok (stack_values (c_stack rc)) s1 o1 I1) as (o2 & s2 & E2 & I2 & G2 & O2 & M2 & _).
  { intros v J. apply (stack_values_on _ _ Kr) in J. eapply rc_stack; eauto. }
  destruct (mk_ctxs s2 (iv_mk _ _ I2)) as (Ec2 & Eu2 & _).
  destruct (wf_live _ _ _ W0) as [cc Hcc].
  destruct (mark_value_ok s2 o2 (c_obj cc) I2) as (o3 & s3 & E3 & I3 & G3 & O3 & M3 & _).
  { eapply rc_cur; eauto. }
  destruct (w_static _ _ _ W0) as [Sl _].
  assert (firstn (Z.to_nat (v_smask s0 + 1)) (v_static s0) = v_static s0) as Fn.
  { apply firstn_all2. unfold zlen in Sl. lia. }
  destruct (mark_values_ok (v_static s0) s3 o3 I3) as (o4 & s4 & E4 & I4 & G4 & O4 & M4 & _).
  { intros v J. apply rc_static. auto. }
  assert (closed s4 o4) as C4.
  { intros i o v H1 H2 H3. unfold get_obj in H1. rewrite O4, O3, O2 in H1. fold (get_obj s1 i) in H1. apply G4, G3, G2. eapply C1; eauto. }
  destruct (mark_referenced_ok (gc_fuel hostmark s4 o4) s4 o4 I4 C4) as (s5 & E5 & I5 & C5 & G5).
  { apply gc_fuel_ok. apply (iv_mk _ _ I4). }
  exists s5. split; [|split; auto].
  - intro K. unfold marking. unfold mbind at 1, gets at 1. rewrite (bind_run _ _ _ _ _ E1).
    rewrite <- Ec1 in Hrc. rewrite (bind_run _ _ _ _ _ (get_ctx_ok _ _ _ Hrc)).
    destruct (Z.ltb_spec (zlen (k_vals (c_stack rc))) (k_size (c_stack rc))).
    { pose proof (kw_size _ Kr). pose proof (kw_len _ Kr). lia. }
    unfold mbind at 1, ret at 1. rewrite (bind_run _ _ _ _ _ E2).
    assert (znth (v_ctxs s2) (v_cur s2) = Some (Some cc)) as Hcc2 by (rewrite Ec2, Eu2; auto).
    rewrite (bind_run _ _ _ _ _ (cur_ctx_ok _ _ Hcc2)). rewrite (bind_run _ _ _ _ _ E3).
    destruct (Z.ltb_spec (zlen (v_static s0)) (v_smask s0 + 1)); [lia|].
    unfold mbind at 1, ret at 1. rewrite Fn. rewrite (bind_run _ _ _ _ _ E4).
    unfold mbind at 1, gets at 1. rewrite (bind_run _ _ _ _ _ E5). reflexivity.
  - intros v R. induction R as [c v Hc Hv|c Hc|v Hv|i o Hi Hn|i o v R IH Hi Hr].
    + assert (c = rc) by congruence. subst c. apply G5, G4, G3. apply M2. apply stack_values_on; auto.
    + assert (c = cc) by congruence. subst c. apply G5, G4. exact M3.
    + apply G5. auto.
    + apply G5, G4, G3, G2. apply M1. apply (w_hlist _ _ _ W0). eauto.
    + destruct IH as [IH _]. specialize (IH eq_refl). cbn [vobj v_data] in IH.
      destruct (mk_obj _ (iv_mk _ _ I5) i o Hi) as [E|E]; (destruct (IH _ E) as [Q|Q]; [|destruct Q]).
      * apply (C5 i o v); auto.
      * apply (C5 i _ v E); auto. apply refs_gc. auto.
Qed.
End Gc.

(** ** Cleaning objects *)
Section Clean.
Variables (b : bool) (p : Z).

(** Objects of active contexts and objects with handles are marked. *)
Definition keepers (s : vm) : Prop :=
  (forall j c id o, znth (v_ctxs s) j = Some (Some c) -> c_parent c <> None -> c_obj c = vobj id ->
     get_obj s id = Some o -> o_gc o = p) /\
  (forall i o, In i (v_hlist s) -> get_obj s i = Some o -> o_gc o = p).

Definition freed (s : vm) (o : nkobj) : list (option ctx) :=
  if o_ext o =? v_corotype s then match o_data o with Some c => zupd (v_ctxs s) c None | None => v_ctxs s end else v_ctxs s.
Definition cleanup_calls (s : vm) (i : Z) (o : nkobj) : list (Z * Z * option Z) :=
  if o_ext o =? INVALID then [] else
  match znth (v_exttypes s) (o_ext o) with
  | Some et => if et_cleanup et then [(o_ext o, i, o_data o)] else []
  | None => []
  end.
Definition dead_calls (s : vm) (i : Z) : list (Z * Z * option Z) :=
  match get_obj s i with Some o => if p =? o_gc o then [] else cleanup_calls s i o | None => [] end.

Lemma erase_wf s i o t : wf b 0 s -> get_obj s i = Some o -> o_gc o <> p -> keepers s ->
  tab_wf t -> (forall j, tab_get t j = if j =? i then None else get_obj s j) ->
  wf b 0 (set_objs t (set_ctxs (freed s o) s)).
Proof.
  intros W Ho Q [K1 K2] T G. destruct (w_chain _ _ _ W) as (l & C & I).
  assert (forall j, znth (freed s o) j = znth (v_ctxs s) j \/
            (znth (freed s o) j = Some None /\ o_ext o = v_corotype s /\ o_data o = Some j)) as Fr.
  { intro j. unfold freed. destruct (Z.eqb_spec (o_ext o) (v_corotype s)); auto. destruct (o_data o) as [c|]; auto.
    destruct (Z.eq_dec c j) as [->|N]; [|left; apply znth_zupd_other; auto].
    rewrite znth_zupd, Z.eqb_refl. cbn [andb]. destruct ((0 <=? j) && (j <? zlen (v_ctxs s))) eqn:E; auto. }
  assert (forall j c, znth (freed s o) j = Some (Some c) -> znth (v_ctxs s) j = Some (Some c) /\ ~ (o_ext o = v_corotype s /\ o_data o = Some j)) as Fl.
  { intros j c H. split.
    - destruct (Fr j) as [E|[E _]]; congruence.
    - intros [E1 E2]. destruct (w_co2 _ _ _ W i o Ho E1) as (j' & c' & D & _ & _ & Hc & _).
      assert (j' = j) by congruence. subst j'. unfold freed in H. rewrite E1, Z.eqb_refl, E2 in H.
      rewrite znth_zupd_same in H; [discriminate|]. apply (znth_some_range _ _ _ Hc). }
  assert (forall j c, znth (v_ctxs s) j = Some (Some c) -> In j l -> znth (freed s o) j = Some (Some c)) as Fk.
  { intros j c H J. destruct (Fr j) as [E|(E & E1 & E2)]; [congruence|]. exfalso.
    destruct (w_co2 _ _ _ W i o Ho E1) as (j' & c' & D & Nj & _ & Hc & Oc). assert (j' = j) by congruence. subst j'.
    assert (c' = c) by congruence. subst c'. destruct (chain_parent _ _ _ C j c J Nj H) as (q & Pq & _).
    apply Q. eapply K1; eauto. congruence. }
  destruct W. split; unfold get_obj, get_str_entry in *; vs; auto.
  - intros j o' H. rewrite G in H. destruct (j =? i); [discriminate|auto].
  - exists l. split.
    + eapply chain_ext; [exact C|]. intros j c J H. exists c. split; auto.
    + intros j c H P. apply Fl in H. apply (I j c); tauto.
  - intros j c H. apply Fl in H. apply (w_stk j c); tauto.
  - intros c H. apply Fl in H. apply w_root; tauto.
  - intros j c N X H. apply Fl in H. destruct H as [H H']. destruct (w_co1 j c N X H) as (id & o' & A1 & A2 & A3 & A4).
    exists id, o'. rewrite G. destruct (Z.eqb_spec id i) as [->|]; [|sp; auto].
    exfalso. apply H'. assert (o' = o) by congruence. subst o'. auto.
  - intros id o' H E. rewrite G in H. destruct (Z.eqb_spec id i) as [->|N]; [discriminate|].
    destruct (w_co2 id o' H E) as (j & c & A1 & A2 & A3 & A4 & A5). exists j, c. sp; auto.
    destruct (Fr j) as [Ej|(_ & E1 & E2)]; [congruence|]. exfalso. apply N.
    destruct (w_co2 i o Ho E1) as (j' & c' & D & _ & _ & Hc & Oc). assert (j' = j) by congruence. subst j'.
    assert (c' = c) by congruence. subst c'. rewrite A5 in Oc. inversion Oc; auto.
  - intro j. split.
    + intro J. apply w_hlist in J as J'. destruct J' as (o' & H & Hn). exists o'. rewrite G.
      destruct (Z.eqb_spec j i) as [->|]; [|auto]. exfalso. apply Q. eapply K2; eauto.
    + intros (o' & H & Hn). rewrite G in H. destruct (Z.eqb_spec j i) as [->|]; [discriminate|]. apply w_hlist. eauto.
Qed.

Lemma cleanup_object_run s i o : wf b 0 s -> get_obj s i = Some o ->
  exists es, cleanup_object i s =
    Ok (tt, set_errs (v_errs s ++ es) (set_cleanups (v_cleanups s ++ cleanup_calls s i o) (set_ctxs (freed s o) s))) /\
    (known_type s o -> es = []).
Proof.
  intros W Ho. destruct (w_corotype _ _ _ W) as (Nc & ct & Ect & Ec & _).
  assert (forall q, set_errs (v_errs s ++ []) (set_cleanups (v_cleanups s ++ q) (set_ctxs (v_ctxs s) s)) = set_cleanups (v_cleanups s ++ q) s) as Id.
  { intro q. rewrite app_nil_r. destruct s; reflexivity. }
  assert (set_cleanups (v_cleanups s ++ []) s = s) as Id2 by (rewrite app_nil_r; destruct s; reflexivity).
  unfold cleanup_object, cleanup_calls, freed. unfold mbind at 1, gets at 1. rewrite Ho.
  destruct (Z.eqb_spec (o_ext o) INVALID) as [E|N].
  { exists []. split; [|auto]. destruct (Z.eqb_spec (o_ext o) (v_corotype s)); [congruence|]. rewrite Id, Id2. reflexivity. }
  destruct (znth (v_exttypes s) (o_ext o)) as [et|] eqn:Ex.
  - destruct (et_cleanup et) eqn:Eet.
    + exists []. split; [|auto]. unfold mbind, modify. destruct (Z.eqb_spec (o_ext o) (v_corotype s)) as [E|N2].
      * destruct (w_co2 _ _ _ W i o Ho E) as (j & c & D & _ & _ & Hc & _). rewrite D. unfold free_ctx. vs. rewrite Hc.
        rewrite app_nil_r. destruct s; reflexivity.
      * rewrite Id. reflexivity.
    + exists []. split; [|auto]. destruct (Z.eqb_spec (o_ext o) (v_corotype s)) as [E|N2]; [congruence|]. rewrite Id, Id2. reflexivity.
  - destruct (add_error_ok s (bs "External type value out of range.") (wf_live _ _ _ W)) as [e Er]. rewrite Er.
    exists [e]. split; [|intros [K|K]; congruence]. destruct (Z.eqb_spec (o_ext o) (v_corotype s)) as [E|N2]; [congruence|].
    rewrite app_nil_r. destruct s; reflexivity.
Qed.

Lemma clean_loop_ok idx : forall s, wf b 0 s -> keepers s -> NoDup idx ->
  exists es cs t s', clean_old_objects_loop idx p s = Ok (tt, s') /\
    s' = set_objs t (set_errs (v_errs s ++ es) (set_cleanups (v_cleanups s ++ flat_map (dead_calls s) idx) (set_ctxs cs s))) /\
    wf b 0 s' /\
    (forall j, get_obj s' j = match get_obj s j with
       | Some o => if existsb (Z.eqb j) idx && negb (p =? o_gc o) then None else Some o | None => None end) /\
    (forall c, znth cs c = znth (v_ctxs s) c \/
       (znth cs c = Some None /\ exists i o, In i idx /\ get_obj s i = Some o /\ o_gc o <> p /\ o_ext o = v_corotype s /\ o_data o = Some c)) /\
    (forall i o c, In i idx -> get_obj s i = Some o -> o_gc o <> p -> o_ext o = v_corotype s -> o_data o = Some c -> znth cs c = Some None) /\
    ((forall i o, get_obj s i = Some o -> known_type s o) -> es = []).
Proof.
  induction idx as [|i r IH]; intros s W K ND; cbn [clean_old_objects_loop].
  - exists [], (v_ctxs s), (v_objs s), s. sp; auto.
    + cbn [flat_map]. rewrite !app_nil_r. destruct s; reflexivity.
    + intro j. destruct (get_obj s j); reflexivity.
    + intros j o c [].
  - inversion ND as [|? ? NI ND']; subst. unfold mbind at 1, gets at 1.
    destruct (get_obj s i) as [o|] eqn:Ho.
    2:{ unfold mbind at 1, ret at 1. destruct (IH s W K ND') as (es & cs & t & s' & E & Es & W' & G & C1 & C2 & Qu).
        exists es, cs, t, s'. sp; auto.
        - cbn [flat_map]. unfold dead_calls at 1. rewrite Ho. exact Es.
        - intro j. rewrite G. cbn [existsb]. destruct (Z.eqb_spec j i) as [->|]; [rewrite Ho; reflexivity|reflexivity].
        - intro c. destruct (C1 c) as [X|(X & j & o' & A1 & A2)]; auto. right. split; auto. exists j, o'. split; [right|]; auto.
        - intros j o' c [<-|J]; [congruence|eauto]. }
    destruct (Z.eqb_spec p (o_gc o)) as [Q|Q].
    { unfold mbind at 1, ret at 1. destruct (IH s W K ND') as (es & cs & t & s' & E & Es & W' & G & C1 & C2 & Qu).
      exists es, cs, t, s'. sp; auto.
      - cbn [flat_map]. unfold dead_calls at 1. rewrite Ho. replace (p =? o_gc o) with true by (symmetry; lia). exact Es.
      - intro j. rewrite G. cbn [existsb]. destruct (Z.eqb_spec j i) as [->|]; [|reflexivity]. rewrite Ho.
        replace (p =? o_gc o) with true by (symmetry; lia). cbn. rewrite andb_false_r. reflexivity.
      - intro c. destruct (C1 c) as [X|(X & j & o' & A1 & A2)]; auto. right. split; auto. exists j, o'. split; [right|]; auto.
      - intros j o' c [<-|J]; [|eauto]. intros. congruence. }
    destruct (cleanup_object_run s i o W Ho) as (e0 & E0 & Qe).
    match type of E0 with _ = Ok (tt, ?x) => remember x as s1 eqn:Es1 end.
    assert (get_obj s1 i = Some o) as Ho1 by (subst s1; exact Ho).
    destruct (tab_erase_ok (v_objs s1) i o) as (t1 & Et1 & T1 & _ & G1); auto.
    { subst s1. apply (w_tab _ _ _ W). }
    assert ((cleanup_object i ;;; (s' <- gets (fun s => s) ;; t <- lift (tab_erase (v_objs s') i) ;; modify (set_objs t))) s = Ok (tt, set_objs t1 s1)) as Estep.
    { rewrite (bind_run _ _ _ _ _ E0). unfold mbind at 1, gets at 1. rewrite Et1. reflexivity. }
    rewrite (bind_run _ _ _ _ _ Estep).
    assert (forall j, get_obj (set_objs t1 s1) j = if j =? i then None else get_obj s j) as G1'.
    { intro j. unfold get_obj at 1. vs. rewrite G1. subst s1. reflexivity. }
    assert (wf b 0 (set_objs t1 s1)) as W1.
    { pose proof (erase_wf s i o t1 W Ho (fun X => Q (eq_sym X)) K T1 G1') as We.
      apply (wf_cleanups _ _ _ (v_cleanups s ++ cleanup_calls s i o)) in We.
      apply (wf_errs_more _ _ _ e0) in We. subst s1. exact We. }
    assert (keepers (set_objs t1 s1)) as K1.
    { destruct K as [K1 K2]. split.
      - intros j c id o' H P Oc G'. rewrite G1' in G'. destruct (id =? i); [discriminate|].
        apply (K1 j c id); auto. subst s1. vsin H. unfold freed in H.
        destruct (o_ext o =? v_corotype s); auto. destruct (o_data o) as [cc|]; auto.
        destruct (Z.eq_dec cc j) as [->|N]; [|rewrite znth_zupd_other in H; auto].
        rewrite znth_zupd, Z.eqb_refl in H. destruct (_ && _) in H; [discriminate|auto].
      - intros j o' J G'. rewrite G1' in G'. destruct (j =? i); [discriminate|]. apply (K2 j); auto. subst s1. exact J. }
    destruct (IH _ W1 K1 ND') as (es & cs & t & s' & E & Es & W' & G & C1 & C2 & Qu).
    assert (v_ctxs (set_objs t1 s1) = freed s o) as Ex by (subst s1; reflexivity).
    assert (v_corotype (set_objs t1 s1) = v_corotype s) as Eco by (subst s1; reflexivity).
    exists (e0 ++ es), cs, t, s'. sp; auto.
    + rewrite Es. cbn [flat_map]. unfold dead_calls at 2. rewrite Ho. replace (p =? o_gc o) with false by (symmetry; lia).
      replace (flat_map (dead_calls s) r) with (flat_map (dead_calls (set_objs t1 s1)) r).
      * subst s1. vs. rewrite <- !app_assoc. reflexivity.
      * rewrite !flat_map_concat_map. f_equal. apply map_ext_in. intros j J. unfold dead_calls. rewrite G1'.
        destruct (Z.eqb_spec j i) as [->|]; [contradiction|]. destruct (get_obj s j); auto.
        destruct (p =? o_gc n0); auto. unfold cleanup_calls. subst s1. reflexivity.
    + intro j. rewrite G, G1'. cbn [existsb]. destruct (Z.eqb_spec j i) as [->|]; [|reflexivity]. rewrite Ho.
      replace (p =? o_gc o) with false by (symmetry; lia). reflexivity.
    + intro c. rewrite Ex, Eco in C1. destruct (C1 c) as [X|(X & j & o' & A1 & A2 & A3 & A4 & A5)].
      * unfold freed in X. destruct (Z.eqb_spec (o_ext o) (v_corotype s)); auto. destruct (o_data o) as [cc|] eqn:D; auto.
        destruct (Z.eq_dec cc c) as [->|N]; [|rewrite znth_zupd_other in X; auto].
        rewrite znth_zupd, Z.eqb_refl in X. destruct (_ && _) in X; auto. right. split; auto. exists i, o. sp; auto. left; auto.
      * right. split; auto. exists j, o'. rewrite G1' in A2. destruct (Z.eqb_spec j i) as [->|]; [discriminate|]. sp; auto. right; auto.
    + intros j o' c [<-|J] Hj Qj Xj Dj.
      * assert (o' = o) by congruence. subst o'. destruct (C1 c) as [X|(X & _)]; auto. rewrite X, Ex. unfold freed. rewrite Xj, Z.eqb_refl, Dj.
        destruct (w_co2 _ _ _ W i o Ho Xj) as (c' & cc & D & _ & _ & Hc & _). assert (c' = c) by congruence. subst c'.
        apply znth_zupd_same. apply (znth_some_range _ _ _ Hc).
      * apply (C2 j o' c); auto; [|congruence]. rewrite G1'. destruct (Z.eqb_spec j i) as [->|]; [contradiction|auto].
    + intro A. rewrite (Qe (A i o Ho)), Qu; [reflexivity|]. intros j o' Hj. rewrite G1' in Hj.
      destruct (j =? i); [discriminate|]. specialize (A j o' Hj). unfold known_type in *. subst s1. exact A.
Qed.
End Clean.

(** ** The whole collection *)

Lemma refs_ext hm s s' : v_ctxs s' = v_ctxs s -> v_corotype s' = v_corotype s -> v_exttypes s' = v_exttypes s ->
  forall o v, refs hm s o v -> refs hm s' o v.
Proof.
  intros E1 E2 E3 o v R. inversion R; subst; rewrite <- ?E1, <- ?E2, <- ?E3 in *;
    [eapply rf_key|eapply rf_val|eapply rf_parent|eapply rf_stack|eapply rf_host]; eauto.
Qed.

Lemma reach_ext hm s s' : v_ctxs s' = v_ctxs s -> v_corotype s' = v_corotype s -> v_exttypes s' = v_exttypes s ->
  v_cur s' = v_cur s -> v_static s' = v_static s -> v_objs s' = v_objs s -> forall v, reach hm s v -> reach hm s' v.
Proof.
  intros E1 E2 E3 E4 E5 E6 v R.
  assert (forall i, get_obj s' i = get_obj s i) as E7 by (intro i; unfold get_obj; rewrite E6; reflexivity).
  induction R as [c v Hc Hv|c Hc|v Hv|i o Hi Hn|i o v R IH Hi Hr].
  - eapply rc_stack; eauto. rewrite E1. auto.
  - apply rc_cur. rewrite E1, E4. auto.
  - apply rc_static. rewrite E5. auto.
  - eapply rc_handle; eauto. rewrite E7. auto.
  - eapply rc_ref; eauto; [rewrite E7; eauto|]. eapply refs_ext; [| | |exact Hr]; auto.
Qed.

(** The objects of all active contexts are reachable. *)
Lemma chain_reach hm b s : wf b 0 s -> forall i l, chain (v_ctxs s) i l ->
  (forall c, znth (v_ctxs s) i = Some (Some c) -> reach hm s (c_obj c)) ->
  forall j c, In j l -> znth (v_ctxs s) j = Some (Some c) -> reach hm s (c_obj c).
Proof.
  intros W i l C. induction C as [c0 H1 H2|i c0 p l N H1 H2 C IH NI]; intros H j c J Hj.
  - destruct J as [<-|Hf]; [auto|destruct Hf].
  - destruct J as [<-|J]; [auto|]. apply (IH) with j; auto. intros pc Hp.
    assert (i <> 0) as N0 by auto. destruct (w_co1 _ _ _ W i c0 N N0 H1) as (id & o & A1 & A2 & A3 & A4).
    eapply rc_ref with (i := id); eauto; [rewrite <- A1; auto|]. eapply rf_parent; eauto.
Qed.

Lemma wf_gcpass b s q : wf b 0 s -> v_gcpass s <= q <= INVALID -> wf b 0 (set_gcpass q s).
Proof.
  intros W R. pose proof (w_pass _ _ _ W). destruct W. split; unfold get_obj, get_str_entry in *; vs; auto; try lia.
  - intros i o E. destruct (w_obj i o E). split; auto. lia.
Qed.

Lemma garbage_collect_ok hm b s : wf b 0 s -> v_gcpass s < INVALID ->
  exists s', garbage_collect hm s = Ok (tt, s') /\ wf b 0 s' /\ collected hm s s'.
Proof.
  intros W Rp. pose proof (w_pass _ _ _ W) as Rq.
  assert (u32 (v_gcpass s + 1) = v_gcpass s + 1) as Ep by (apply u32_id; unfold is_u32, INVALID, W32 in *; lia).
  set (p := v_gcpass s + 1) in *. set (s0 := set_gcpass p s).
  assert (wf b 0 s0) as W0 by (apply wf_gcpass; auto; unfold p; lia).
  destruct (marking_ok hm b p s0 W0 eq_refl) as (s5 & E5 & I5 & C5).
  { intros i o H. change (get_obj s i = Some o) in H. destruct (w_obj _ _ _ W _ _ H). unfold p. lia. }
  { intros i e H. change (get_str_entry s i = Some e) in H. pose proof (w_sgc _ _ _ W _ _ H). unfold p. lia. }
  assert (forall v, reach hm s0 v <-> reach hm s v) as Rs by (intro v; split; apply reach_ext; reflexivity).
  assert (forall i o, get_obj s i = Some o -> (reach hm s (vobj i) /\ get_obj s5 i = Some (set_o_gc p o)) \/
            (~ reach hm s (vobj i) /\ get_obj s5 i = Some o /\ o_gc o <> p)) as MO.
  { intros i o H. assert (o_gc o <> p) as Nq by (destruct (w_obj _ _ _ W _ _ H); unfold p; lia).
    destruct (mk_obj _ _ _ _ (iv_mk _ _ _ _ _ _ I5) i o H) as [E|E].
    - right. sp; auto. intro R. apply Rs in R. destruct (C5 _ R) as [C _]. destruct (C eq_refl o E) as [X|X]; auto.
    - left. split; auto. apply Rs. eapply (iv_obj _ _ _ _ _ _ I5); eauto. }
  assert (forall i e, get_str_entry s i = Some e -> (reach hm s (vstr i) /\ get_str_entry s5 i = Some (set_s_gc p e)) \/
            (~ reach hm s (vstr i) /\ get_str_entry s5 i = Some e /\ s_gc e <> p)) as MS.
  { intros i e H. assert (s_gc e <> p) as Nq by (pose proof (w_sgc _ _ _ W _ _ H); unfold p; lia).
    destruct (mk_str _ _ _ _ (iv_mk _ _ _ _ _ _ I5) i e H) as [E|E].
    - right. sp; auto. intro R. apply Rs in R. destruct (C5 _ R) as [_ C]. apply Nq. exact (C eq_refl e E).
    - left. split; auto. apply Rs. eapply (iv_str _ _ _ _ _ _ I5); eauto. }
  pose proof (iv_wf _ _ _ _ _ _ I5) as W5.
  destruct (mk_ctxs hm p s0 eq_refl s5 (iv_mk _ _ _ _ _ _ I5)) as (Ec & Eu & Est & Esm & Eet & Eco & Egp & Ehl & Ecl & Ebh).
  destruct (mk_frame _ _ _ _ (iv_mk _ _ _ _ _ _ I5)) as [es5 F5].
  destruct (clean_old_strings_ok s5 p (w_str _ _ _ W5)) as (t & bh & E6 & S6 & G6).
  remember (set_byhash bh (set_strs t s5)) as s6 eqn:Es6.
  assert (wf b 0 s6) as W6.
  { subst s6. destruct W5. split; unfold get_obj, get_str_entry in *; vs; auto.
    intros i e H. rewrite G6 in H. destruct (tab_get (v_strs s5) i) as [f|] eqn:F; [|discriminate].
    destruct (keeps p f); [|discriminate]. inversion H; subst. eauto. }
  assert (forall i, get_obj s6 i = get_obj s5 i) as O6 by (intro; subst s6; reflexivity).
  assert (v_ctxs s6 = v_ctxs s) as Ec6 by (subst s6; exact Ec).
  assert (keepers p s6) as K6.
  { split.
    - intros j c id o Hj Pj Oj Ho. rewrite Ec6 in Hj. rewrite O6 in Ho.
      destruct (w_chain _ _ _ W) as (l & C & I). assert (In j l) as J by (eapply I; eauto).
      assert (reach hm s (c_obj c)) as R.
      { eapply chain_reach; eauto. intros c' Hc'. apply rc_cur. auto. }
      rewrite Oj in R. apply Rs in R. destruct (C5 _ R) as [C' _]. destruct (C' eq_refl o Ho) as [X|X]; auto. destruct X.
    - intros i o J Ho. rewrite O6 in Ho. assert (In i (v_hlist s)) as J' by (subst s6; vsin J; rewrite Ehl in J; exact J).
      apply (w_hlist _ _ _ W) in J'. destruct J' as (o' & H1 & H2). destruct (MO i o' H1) as [[_ X]|[X _]].
      + rewrite X in Ho. inversion Ho. reflexivity.
      + exfalso. apply X. eapply rc_handle; eauto. }
  destruct (clean_loop_ok b p (zseq 0 (Z.to_nat (t_cap (v_objs s6)))) s6 W6 K6 (NoDup_zseq _ _))
    as (es & cs & u & s7 & E7 & Es7 & W7 & G7 & X1 & X2 & Qu).
  assert (forall i o, get_obj s6 i = Some o -> In i (zseq 0 (Z.to_nat (t_cap (v_objs s6))))) as Inz.
  { intros i o H. apply In_zseq. unfold get_obj in H. apply tab_get_some, znth_some_range in H. unfold t_cap. unfold zlen in *. lia. }
  assert (forall i, get_obj s7 i = match get_obj s5 i with Some o => if p =? o_gc o then Some o else None | None => None end) as G8.
  { intro i. rewrite G7, O6. destruct (get_obj s5 i) as [o|] eqn:Ho; auto.
    replace (existsb (Z.eqb i) _) with true; [destruct (p =? o_gc o); reflexivity|].
    symmetry. apply existsb_exists. exists i. split; [|apply Z.eqb_refl]. apply (Inz i o). rewrite O6. auto. }
  assert (forall i, get_obj s i = None -> get_obj s5 i = None) as ON by (intros i H; apply (mk_objn _ _ _ _ (iv_mk _ _ _ _ _ _ I5)); exact H).
  assert (forall i, get_str_entry s i = None -> get_str_entry s5 i = None) as SN by (intros i H; apply (mk_strn _ _ _ _ (iv_mk _ _ _ _ _ _ I5)); exact H).
  assert (forall i, get_str_entry s7 i = match get_str_entry s5 i with Some e => if keeps p e then Some e else None | None => None end) as S8.
  { intro i. rewrite Es7. unfold get_str_entry at 1. vs. rewrite Es6. vs. apply G6. }
  assert (v_corotype s6 = v_corotype s) as Eco6 by (subst s6; exact Eco).
  assert (v_exttypes s6 = v_exttypes s) as Eet6 by (subst s6; exact Eet).
  exists s7. split; [|split; [exact W7|]].
  - change (marking hm (v_gcpass (set_gcpass (u32 (v_gcpass s + 1)) s))
       (clean_old_strings (v_gcpass (set_gcpass (u32 (v_gcpass s + 1)) s)) ;;; clean_old_objects (v_gcpass (set_gcpass (u32 (v_gcpass s + 1)) s)))
       (set_gcpass (u32 (v_gcpass s + 1)) s) = Ok (tt, s7)).
    vs. fold p. rewrite Ep. fold s0. rewrite E5. rewrite (bind_run _ _ _ _ _ E6). unfold clean_old_objects. unfold mbind at 1, gets at 1. exact E7.
  - split.
    + intros i o H R. exists p. rewrite G8. destruct (MO i o H) as [[_ E]|[X _]]; [|contradiction]. rewrite E. cbn [set_o_gc o_gc]. rewrite Z.eqb_refl. reflexivity.
    + intros i o H R. rewrite G8. destruct (MO i o H) as [[X _]|(_ & E & Q)]; [contradiction|]. rewrite E. destruct (Z.eqb_spec p (o_gc o)); congruence.
    + intros i H. rewrite G8, (ON i H). reflexivity.
    + intros i e H R. rewrite S8. destruct (MS i e H) as [[_ E]|(X & E & Q)]; rewrite E; unfold keeps.
      * exists p. cbn [set_s_gc s_gc]. rewrite Z.eqb_refl. reflexivity.
      * destruct R as [R|R]; [contradiction|]. rewrite R. rewrite orb_true_r. exists (s_gc e). destruct e; reflexivity.
    + intros i e H R K. rewrite S8. destruct (MS i e H) as [[X _]|(_ & E & Q)]; [contradiction|]. rewrite E. unfold keeps. rewrite K.
      destruct (Z.eqb_spec p (s_gc e)); [congruence|reflexivity].
    + intros i H. rewrite S8, (SN i H). reflexivity.
    + intro j. assert (v_ctxs s7 = cs) as Ec7 by (rewrite Es7; reflexivity). rewrite Ec7.
      destruct (X1 j) as [X|(X & i & o & A1 & A2 & A3 & A4 & A5)]; [left; congruence|right].
      split; auto. rewrite O6 in A2. destruct (get_obj s i) as [o'|] eqn:Hi; [|rewrite (ON i Hi) in A2; discriminate].
      destruct (MO i o' Hi) as [[_ E]|(R & E & Q)]; rewrite E in A2; inversion A2; subst o.
      * exfalso. apply A3. reflexivity.
      * exists i, o'. sp; auto. congruence.
    + intros i o j H R Xo D. assert (v_ctxs s7 = cs) as Ec7 by (rewrite Es7; reflexivity). rewrite Ec7.
      destruct (MO i o H) as [[X _]|(_ & E & Q)]; [contradiction|].
      apply (X2 i o j); auto; [apply (Inz i o); rewrite O6; auto|rewrite O6; auto|congruence].
    + exists (flat_map (dead_calls p s6) (zseq 0 (Z.to_nat (t_cap (v_objs s6))))). sp.
      * rewrite Es7. vs. rewrite Es6. vs. rewrite Ecl. reflexivity.
      * assert (forall idx, NoDup idx -> NoDup (map (fun x => snd (fst x)) (flat_map (dead_calls p s6) idx)) /\
                 forall i, In i (map (fun x => snd (fst x)) (flat_map (dead_calls p s6) idx)) -> In i idx) as Hn.
        { clear. induction idx as [|i r IH]; intro ND; [cbn; split; [constructor|auto]|]. apply NoDup_cons_iff in ND. destruct ND as [ND1 ND2]. destruct (IH ND2) as [N1 N2].
          cbn [flat_map]. rewrite map_app. unfold dead_calls at 1 3. unfold cleanup_calls.
          destruct (get_obj s6 i) as [o|]; [|cbn; split; [auto|intros; right; auto]].
          destruct (p =? o_gc o); [cbn; split; [auto|intros; right; auto]|].
          destruct (o_ext o =? INVALID); [cbn; split; [auto|intros; right; auto]|].
          destruct (znth (v_exttypes s6) (o_ext o)) as [et|]; [|cbn; split; [auto|intros; right; auto]].
          destruct (et_cleanup et); [|cbn; split; [auto|intros; right; auto]].
          cbn. split; [constructor; auto|]. intros j [<-|J]; auto. }
        apply Hn. apply NoDup_zseq.
      * intros ty i d. rewrite in_flat_map. split.
        -- intros (j & J & D). unfold dead_calls, cleanup_calls in D. rewrite O6 in D. destruct (get_obj s5 j) as [o5|] eqn:H5; [|destruct D].
           destruct (Z.eqb_spec p (o_gc o5)) as [Q|Q]; [destruct D|]. destruct (Z.eqb_spec (o_ext o5) INVALID) as [X|X]; [destruct D|].
           rewrite Eet6 in D. destruct (znth (v_exttypes s) (o_ext o5)) as [et|] eqn:Ex; [|destruct D].
           destruct (et_cleanup et) eqn:Ect; [|destruct D]. destruct D as [D|D]; [|destruct D]. inversion D; subst ty j d.
           destruct (get_obj s i) as [o|] eqn:Hi; [|rewrite (ON i Hi) in H5; discriminate].
           destruct (MO i o Hi) as [[_ E]|(R & E & _)]; rewrite E in H5; inversion H5; subst o5.
           ++ exfalso. apply Q. reflexivity.
           ++ exists o, et. sp; auto.
        -- intros (o & et & H & R & T & D & NI & Ex & Ct). destruct (MO i o H) as [[X _]|(_ & E & Q)]; [contradiction|].
           exists i. split; [apply (Inz i o); rewrite O6; auto|]. unfold dead_calls, cleanup_calls. rewrite O6, E.
           destruct (Z.eqb_spec p (o_gc o)); [congruence|]. destruct (Z.eqb_spec (o_ext o) INVALID); [congruence|].
           rewrite Eet6, T, Ex, Ct, D. left. reflexivity.
    + exists (es5 ++ es), p, t, u, bh, cs, (v_cleanups s6 ++ flat_map (dead_calls p s6) (zseq 0 (Z.to_nat (t_cap (v_objs s6))))).
      rewrite Es7. generalize (flat_map (dead_calls p s6) (zseq 0 (Z.to_nat (t_cap (v_objs s6))))). intro ca. clear - Es6 F5.
      subst s6. vs. rewrite F5. vs. rewrite <- app_assoc. reflexivity.
    + intros A B. rewrite Es7. vs. rewrite Qu, app_nil_r.
      * rewrite Es6. vs. rewrite (mk_quiet _ _ _ _ (iv_mk _ _ _ _ _ _ I5)); [reflexivity|]. intros v R. apply Rs in R. exact (A v R).
      * intros i o Hi. rewrite O6 in Hi. unfold known_type. rewrite Eet6.
        destruct (get_obj s i) as [o'|] eqn:Ho; [|rewrite (ON i Ho) in Hi; discriminate].
        destruct (MO i o' Ho) as [[_ E]|(_ & E & _)]; rewrite E in Hi; inversion Hi; subst o; exact (B i o' Ho).
    + intros i H. destruct (get_obj s i) as [o|] eqn:Ho; [|congruence]. destruct (MO i o Ho) as [[R _]|[R _]]; auto.
    + intros i H. destruct (get_str_entry s i) as [e|] eqn:He; [|congruence]. destruct (MS i e He) as [[R _]|[R _]]; auto.
Qed.
