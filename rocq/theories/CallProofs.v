(** * CallProofs: calls and returns on a known stack *)
From Verif Require Import Base BaseFacts.
From Verif Require Import VmModel MonadFacts StackProofs StrProofs ObjsProofs TextProofs.
From Verif Require Export CallSpec OpProofs.
Ltac Zify.zify_post_hook ::= Z.div_mod_to_equations.

(** ** Slots *)
Lemma firstn_znth {A} (l : list A) n i : 0 <= i < n -> znth (firstn (Z.to_nat n) l) i = znth l i.
Proof.
  intro H. rewrite !znth_def. destruct (Z.ltb_spec i 0); [lia|].
  assert (Z.to_nat i < Z.to_nat n)%nat as L by lia. revert L. generalize (Z.to_nat i) (Z.to_nat n). clear.
  intros i n. revert n l. induction i as [|i IH]; intros [|n] [|a l] L; cbn; auto; try lia. apply IH. lia.
Qed.
Lemma contents_znth k i v : kwf k -> znth (contents k) i = Some v -> znth (k_vals k) i = Some v /\ 0 <= i < k_size k.
Proof.
  intros W H. pose proof (znth_some_range _ _ _ H) as R. rewrite contents_len in R by auto.
  split; auto. unfold contents in H. rewrite firstn_znth in H; auto.
Qed.
Lemma znth_mid {A} (P R : list A) x : znth (P ++ x :: R) (zlen P) = Some x.
Proof. rewrite znth_app_r by lia. rewrite Z.sub_diag. apply znth_cons_0. Qed.
Lemma zupd_mid {A} (P R : list A) x y : zupd (P ++ x :: R) (zlen P) y = P ++ y :: R.
Proof.
  apply list_ext_znth. intro j. rewrite znth_zupd. rewrite zlen_app, zlen_cons. pose proof (zlen_nonneg P). pose proof (zlen_nonneg R).
  destruct (Z.leb_spec 0 (zlen P)); [|lia]. destruct (Z.ltb_spec (zlen P) (zlen P + (zlen R + 1))); [|lia]. cbn [andb].
  destruct (Z.eqb_spec (zlen P) j) as [<-|N]; [symmetry; apply znth_mid|].
  destruct (Z.lt_ge_cases j (zlen P)).
  - rewrite !znth_app_l by auto. auto.
  - rewrite !znth_app_r by lia. rewrite !znth_cons_S by lia. auto.
Qed.
Lemma firstn_zupd_in {A} (l : list A) i x n : i < n -> firstn (Z.to_nat n) (zupd l i x) = zupd (firstn (Z.to_nat n) l) i x.
Proof.
  intro H. unfold zupd. destruct (Z.ltb_spec i 0); auto.
  assert (Z.to_nat i < Z.to_nat n)%nat as L by lia. revert L. generalize (Z.to_nat i) (Z.to_nat n). clear.
  intros i n. revert n l. induction i as [|i IH]; intros [|n] [|a l] L; cbn; auto; try lia. f_equal. apply IH. lia.
Qed.
Lemma contents_poke k i v : kwf k -> 0 <= i < k_size k -> contents (poke k i v) = zupd (contents k) i v.
Proof. intros W H. unfold contents, poke. cs. apply firstn_zupd_in. lia. Qed.

(** The slot holding the value after [P]. *)
Lemma slot_rs s P x R n t : rs s (P ++ x :: R) n t -> exists k, at_stack t k /\
  Z.land (u32 (zlen P)) (k_mask k) = zlen P /\ k_size k = zlen P + 1 + zlen R /\
  get_slot (zlen P) t = Ok (x, t) /\
  forall y, exists t', set_slot (zlen P) y t = Ok (tt, t') /\ rs s (P ++ y :: R) n t' /\
    exists k', at_stack t' k' /\ k_mask k' = k_mask k /\ k_size k' = k_size k.
Proof.
  intro H. destruct (rs_at _ _ _ _ H) as (k & A & W & C & N). exists k.
  pose proof (contents_len _ W) as L. rewrite C, zlen_app, zlen_cons in L. pose proof (zlen_nonneg P). pose proof (zlen_nonneg R).
  pose proof (kw_size _ W) as S. pose proof (kwf_cap _ W) as Cp. pose proof (kw_len _ W) as Ln.
  assert (0 <= zlen P < zlen (k_vals k)) as Rg by lia.
  split; [auto|]. split; [rewrite u32_id by (unfold is_u32, W31, W32 in *; lia); apply land_small; auto; lia|].
  split; [lia|].
  split.
  - destruct (get_slot_ok t k (zlen P) A Rg) as (v & V & E). rewrite E.
    assert (znth (contents k) (zlen P) = Some x) as Q by (rewrite C; apply znth_mid).
    apply contents_znth in Q as [Q _]; auto. rewrite Q in V. injection V as <-. auto.
  - intro y. eexists. split; [apply set_slot_ok; eauto|]. split.
    + destruct H as (c & k0 & H & W0 & C0 & N0 & ->). exists c, (poke k (zlen P) y).
      split; [auto|]. split; [apply poke_wf; auto|]. split; [rewrite contents_poke by (auto; lia); rewrite C; apply zupd_mid|].
      split; [unfold poke; cs; lia|apply with_stack_twice].
    + exists (poke k (zlen P) y). split; [eapply with_stack_at; eauto|]. auto.
Qed.

Lemma rs_sized s l n t : rs s l n t -> stack_size t = Ok (zlen l, t).
Proof. intro R. destruct (rs_at _ _ _ _ R) as (k & A & W & C & N). rewrite (stack_size_ok _ _ A), <- (contents_len _ W), C. auto. Qed.

Lemma peek_rs s P x R n t : rs s (P ++ x :: R) n t -> peek (zlen P) t = Ok (x, t).
Proof.
  intro H. destruct (slot_rs _ _ _ _ _ _ H) as (k & A & L & _ & G & _). unfold peek.
  rewrite (bind_run _ _ _ _ _ (peek_idx_ok t k _ A)), L. auto.
Qed.

Lemma rs_maxstack s l n t : rs s l n t -> v_maxstack t = v_maxstack s.
Proof. intros (c & k & _ & _ & _ & _ & ->). unfold with_stack, upd_cur. destruct (znth _ _) as [[?|]|]; reflexivity. Qed.

Lemma rs_room s l n t v : rs s l n t -> fits s (l ++ [v]) -> exists k, at_stack t k /\ kwf k /\ contents k = l /\ room t k = true.
Proof.
  intros R (F1 & F2). destruct (rs_at _ _ _ _ R) as (k & A & W & C & N). exists k. sp; auto.
  unfold room. rewrite (rs_maxstack _ _ _ _ R). pose proof (contents_len _ W) as L. rewrite C in L.
  rewrite zlen_app, zlen_cons, zlen_nil in *. pose proof (kw_size _ W).
  destruct (Z.ltb_spec (k_size k) (k_cap k)); auto. cbn [orb].
  apply andb_true_intro. split; apply Z.leb_le; lia.
Qed.

Lemma push_fits s l v n t : rs s l n t -> fits s (l ++ [v]) -> exists t', push v t = Ok (tt, t') /\ rs s (l ++ [v]) 0 t'.
Proof. intros R F. destruct (rs_room _ _ _ _ _ R F) as (k & A & W & C & Rm). eapply push_rs_room; eauto. Qed.

Lemma push_slot_fits s l n t : rs s l n t -> fits s (l ++ [vnil]) ->
  exists x t', push_slot t = Ok (zlen l, t') /\ rs s (l ++ [x]) 0 t'.
Proof.
  intros R F. destruct (rs_room _ _ _ _ _ R F) as (k & A & W & C & Rm).
  rewrite (push_slot_room _ _ A W Rm). pose proof (grown_wf _ _ W Rm) as Wg. pose proof (grown_size k) as Sg.
  pose proof (contents_len _ W) as L. rewrite C in L.
  pose proof (kw_size _ Wg). pose proof (kw_len _ Wg). pose proof (kw_size _ W).
  destruct (znth_in_range (k_vals (grown k)) (k_size k)) as [x X]; [lia|]. exists x. eexists.
  split; [rewrite L; reflexivity|]. destruct R as (c & k0 & H2 & W0 & C0 & N0 & ->). exists c, (grown k).
  split; [auto|]. split; [auto|]. split; [|split; [lia|apply with_stack_twice]].
  unfold contents. rewrite Sg. rewrite (firstn_snoc _ _ x X). rewrite grown_contents by auto. rewrite C. auto.
Qed.

Lemma pop_n_rs s l r n t : rs s (l ++ r) n t -> exists t', pop_n (zlen r) t = Ok (tt, t') /\ rs s l (n + zlen r) t'.
Proof.
  intro R. destruct (rs_at _ _ _ _ R) as (k & A & W & C & N). pose proof (contents_len _ W) as L. rewrite C, zlen_app in L.
  pose proof (zlen_nonneg l). pose proof (zlen_nonneg r).
  rewrite (pop_n_ok _ _ (zlen r) A W) by lia. eexists. split; [reflexivity|].
  destruct R as (c & k0 & H2 & W0 & C0 & N0 & ->). exists c, (shrunk k (zlen r)). split; [auto|].
  split; [apply shrunk_wf; auto; lia|]. split; [|split; [cbn; lia|apply with_stack_twice]].
  rewrite shrunk_contents. unfold contents in C.
  replace (k_size k - zlen r) with (zlen l) by lia.
  assert (firstn (Z.to_nat (zlen l)) (firstn (Z.to_nat (k_size k)) (k_vals k)) = l) as Q.
  { rewrite C. unfold zlen. rewrite Nat2Z.id. rewrite firstn_app, Nat.sub_diag, firstn_all. cbn. apply app_nil_r. }
  rewrite firstn_firstn in Q. rewrite Nat.min_l in Q by lia. auto.
Qed.
Lemma rs_len s l n t : rs s l n t -> zlen l <= W31.
Proof.
  intro R. destruct (rs_at _ _ _ _ R) as (k & A & W & C & N). rewrite <- C, (contents_len _ W).
  pose proof (kw_size _ W). pose proof (kwf_cap _ W). lia.
Qed.

(** ** Inserting an argument *)
Lemma shift_rs s base m : forall A P j R n t, rs s (P ++ A ++ j :: R) n t -> zlen P = base + 1 -> 0 <= base ->
  (exists k, at_stack t k /\ k_mask k = m) ->
  exists h t', shift_args (length A) base m t = Ok (tt, t') /\ rs s (P ++ h :: A ++ R) n t' /\
    (exists k, at_stack t' k /\ k_mask k = m).
Proof.
  intro A. induction A as [|x A IH] using rev_ind; intros P j R n t H Hb B0 Hm.
  - exists j, t. auto.
  - rewrite app_length. cbn [length]. rewrite Nat.add_1_r. cbn [shift_args].
    assert (P ++ (A ++ [x]) ++ j :: R = (P ++ A) ++ x :: j :: R) as E1 by (rewrite <- !app_assoc; reflexivity).
    rewrite E1 in H. destruct (slot_rs _ _ _ _ _ _ H) as (k & At & L & Sz & G & _).
    destruct Hm as (k0 & At0 & Hm). assert (k0 = k) as -> by (destruct At as (c & ? & <-), At0 as (c' & ? & <-); congruence).
    assert (base + Z.of_nat (S (length A)) = zlen (P ++ A)) as EP by (rewrite zlen_app; unfold zlen at 2; lia).
    rewrite EP. rewrite <- Hm, L. rewrite (bind_run _ _ _ _ _ G).
    assert ((P ++ A) ++ x :: j :: R = ((P ++ A) ++ [x]) ++ j :: R) as E2 by (rewrite <- !app_assoc; reflexivity).
    rewrite E2 in H. destruct (slot_rs _ _ _ _ _ _ H) as (k2 & At2 & L2 & _ & _ & St).
    assert (k2 = k) as -> by (destruct At as (c & ? & <-), At2 as (c' & ? & <-); congruence).
    assert (zlen (P ++ A) + 1 = zlen ((P ++ A) ++ [x])) as EQ by (rewrite (zlen_app (P ++ A)); reflexivity).
    rewrite EQ, L2. destruct (St x) as (t' & E & R' & k' & At' & M' & _). rewrite (bind_run _ _ _ _ _ E).
    assert (((P ++ A) ++ [x]) ++ x :: R = P ++ A ++ x :: x :: R) as E3 by (rewrite <- !app_assoc; reflexivity).
    rewrite E3 in R'. destruct (IH P x (x :: R) n t' R' Hb B0) as (h & t2 & F1 & F2 & F3); [exists k'; split; auto; congruence|].
    exists h, t2. split; [rewrite Hm; auto|]. split; [|rewrite Hm; auto].
    rewrite <- app_assoc. exact F2.
Qed.

Lemma insert_rs s st v args d n t : rs s (st ++ call_frame v args) n t -> fits s (st ++ call_frame v (d :: args)) ->
  exists t', insert_data (zlen args) d t = Ok (Some (zlen (d :: args)), t') /\
    rs s (st ++ call_frame v (d :: args)) 0 t'.
Proof.
  intros R F. unfold insert_data. pose proof (rs_len _ _ _ _ R) as Ln. unfold call_frame in *.
  pose proof (zlen_nonneg st). pose proof (zlen_nonneg args).
  rewrite zlen_app, zlen_cons, zlen_app, zlen_cons, zlen_nil in Ln.
  destruct (Z.ltb_spec (INVALID - 1) (zlen args)); [unfold INVALID, W31 in *; lia|]. cbv zeta.
  destruct (push_slot_fits s _ n t R) as (x & t1 & E1 & R1).
  { revert F. unfold fits. rewrite !zlen_app, !zlen_cons, !zlen_app, !zlen_cons, !zlen_nil. lia. }
  rewrite (bind_run _ _ _ _ _ E1).
  destruct (rs_at _ _ _ _ R1) as (k & (c & Hc & Ek) & Wk & Ck & _). rewrite (cur_ctx_run _ _ _ Hc). rewrite Ek.
  pose proof (contents_len _ Wk) as Lk. rewrite Ck in Lk.
  repeat rewrite ?zlen_app, ?zlen_cons, ?zlen_nil in Lk.
  pose proof (kw_size _ Wk). pose proof (kwf_cap _ Wk).
  replace (k_size k - (zlen args + 1) - 2) with (zlen st) by lia.
  replace (k_size k - (zlen args + 1) - 1) with (zlen st + 1) by lia.
  rewrite (u32_id (zlen st)) by (unfold is_u32, W31, W32 in *; lia).
  assert (Z.to_nat (zlen args + 1) = length (args ++ [vint (zlen args)])) as EA.
  { rewrite app_length. cbn [length]. unfold zlen. lia. }
  rewrite EA.
  assert ((st ++ v :: args ++ [vint (zlen args)]) ++ [x] = (st ++ [v]) ++ (args ++ [vint (zlen args)]) ++ x :: []) as E2
    by (rewrite <- !app_assoc; cbn; rewrite <- app_assoc; reflexivity).
  rewrite E2 in R1.
  destruct (shift_rs s (zlen st) (k_mask k) _ _ _ _ _ _ R1) as (h & t2 & E3 & R2 & (k2 & A2 & M2)).
  { rewrite zlen_app. reflexivity. } { lia. } { exists k. split; auto. exists c. auto. }
  rewrite (bind_run _ _ _ _ _ E3). rewrite app_nil_r in R2.
  destruct (slot_rs _ _ _ _ _ _ R2) as (k3 & A3 & L3 & _ & _ & St).
  assert (k3 = k2) as -> by (destruct A2 as (? & ? & <-), A3 as (? & ? & <-); congruence).
  assert (zlen (st ++ [v]) = zlen st + 1) as EZ by (rewrite zlen_app; reflexivity).
  rewrite EZ, M2 in L3. rewrite L3. rewrite EZ in St. destruct (St d) as (t3 & E4 & R3 & k4 & A4 & M4 & Z4).
  rewrite (bind_run _ _ _ _ _ E4).
  assert ((st ++ [v]) ++ d :: args ++ [vint (zlen args)] = (st ++ v :: d :: args) ++ [vint (zlen args)]) as E5
    by (rewrite <- !app_assoc; reflexivity).
  rewrite E5 in R3. destruct (slot_rs _ _ _ _ _ _ R3) as (k5 & A5 & L5 & _ & _ & St5).
  assert (k5 = k4) as -> by (destruct A4 as (? & ? & <-), A5 as (? & ? & <-); congruence).
  assert (k_size k - 1 = zlen (st ++ v :: d :: args)) as E6 by (rewrite zlen_app, !zlen_cons; lia).
  rewrite E6. rewrite M4, M2 in L5. rewrite L5. destruct (St5 (vint (zlen args + 1))) as (t4 & E7 & R4 & _).
  rewrite (bind_run _ _ _ _ _ E7). exists t4. split; [rewrite zlen_cons; reflexivity|].
  rewrite <- app_assoc in R4. rewrite zlen_cons. exact R4.
Qed.

(** ** Fields by name *)
Lemma obj_inv_rs s m l n t : obj_inv s m -> rs s l n t -> obj_inv t m.
Proof.
  intros [S T L O] R. destruct (rs_at _ _ _ _ R) as (k & A & _). pose proof (at_stack_live _ _ A) as L'.
  destruct R as (c & k0 & H & W & C & N & E). pose proof (with_stack_strs k0 s) as E1. pose proof (with_stack_objs k0 s) as E2.
  assert (v_byhash (with_stack k0 s) = v_byhash s) as E3 by (unfold with_stack, upd_cur; rewrite H; reflexivity).
  rewrite <- E in E1, E2, E3. split; rewrite ?E1, ?E2, ?E3; auto.
  intros i o G. unfold get_obj in *. rewrite E2 in G. specialize (O i o G).
  eapply obj_ok_same; [| |exact O]; apply same_strs; intros j e; unfold get_str_entry; rewrite E1; auto.
Qed.
Lemma obj_inv_interned s m name i s' : obj_inv s m -> str_wf (v_strs s') (v_byhash s') -> interned s name i s' -> obj_inv s' m.
Proof.
  intros I W X. destruct (interned_obj _ _ _ _ X) as (A & B & C & D). destruct I as [S T L O]. split; auto.
  - rewrite A. auto.
  - unfold live_ctx in *. rewrite B, C. auto.
  - intros j o G. unfold get_obj in G. rewrite A in G. eapply obj_ok_same; [| |apply O; exact G]; apply same_strs; auto.
Qed.

(** Looking up a field by its name. *)
Definition looked (s : vm) (x : value) : option value := if v_type x =? T_NIL then None else Some x.
Lemma entry_run s m v key o : obj_inv s m -> v_type v = T_OBJ -> get_obj s (v_data v) = Some o -> ordinary s key ->
  exists p, find_or_add_entry_public v key true s = Ok (p, s) /\ entry_value p s = Ok (looked s (m (v_data v) key), s).
Proof.
  intros I T G Ky. pose proof (oi_objs _ _ I _ _ G) as O. pose proof (key_bucket_range s key) as R.
  pose proof (oo_look _ _ _ O key Ky) as Lk.
  assert (find_or_add_entry (v_data v) key true s =
    Ok (match kfind key (bucket_of o (key_bucket s key)) 0 with Some p => Some (key_bucket s key, p) | None => None end, s)) as E.
  { unfold find_or_add_entry. unfold mbind at 1, gets at 1. cbv beta iota. rewrite (bind_run _ _ _ _ _ (rd_obj_ok _ _ _ G)).
    cbv beta zeta. unfold mbind at 1, lift at 1. rewrite (rd_bucket _ _ _ _ O R). cbv beta iota.
    destruct (oo_keys _ _ _ O _ _ (bucket_of_ok _ _ _ _ O R)) as (Kk & _).
    rewrite (bind_run _ _ _ _ _ (find_key_ok s key (oi_str _ _ I) Ky _ 0 Kk)).
    destruct (kfind _ _ _); reflexivity. }
  unfold find_or_add_entry_public. unfold mbind at 1, gets. unfold obj_of_value. rewrite T. change (T_OBJ =? T_OBJ) with true.
  cbv iota. rewrite G. rewrite (bind_run _ _ _ _ _ E). eexists. split; [reflexivity|].
  destruct (kfind key (bucket_of o (key_bucket s key)) 0) as [p|] eqn:F.
  - destruct (kfind_some _ _ _ _ F) as (k & w & N & _ & Al). rewrite Al in Lk. rewrite Z.sub_0_r in N.
    unfold entry_value. cbv iota. unfold el_get.
    assert ((o1 <- rd_obj (v_data v);; chain <- lift (rd (o_buckets o1) (fst (key_bucket s key, p)));; kv <- lift (rd chain (snd (key_bucket s key, p)));; ret (snd kv)) s = Ok (w, s)) as Q.
    { rewrite (bind_run _ _ _ _ _ (rd_obj_ok _ _ _ G)). cbn [fst snd].
      unfold mbind at 1, lift at 1. rewrite (rd_bucket _ _ _ _ O R). cbv beta iota.
      unfold mbind, lift, rd. rewrite N. reflexivity. }
    rewrite (bind_run _ _ _ _ _ Q). unfold looked. rewrite Lk.
    destruct (oo_keys _ _ _ O _ _ (bucket_of_ok _ _ _ _ O R)) as (_ & _ & _ & V). rewrite Forall_forall in V.
    assert (In (k, w) (bucket_of o (key_bucket s key))) as J by (apply In_znth; eauto). specialize (V _ J). cbn [snd] in V. destruct (Z.eqb_spec (v_type w) T_NIL); [congruence|]. reflexivity.
  - apply kfind_none in F. rewrite F in Lk. rewrite Lk. reflexivity.
Qed.

Lemma get_str_inv s i t : get_str s i = Some t -> exists e, get_str_entry s i = Some e /\ s_str e = t.
Proof. unfold get_str. destruct (get_str_entry s i) as [e|]; [|discriminate]. intro E. injection E as <-. eauto. Qed.

Lemma field_key s m t ob o name i x : obj_inv s m -> get_obj s ob = Some o ->
  (forall j u, get_str s j = Some u -> get_str t j = Some u) -> str_wf (v_strs t) (v_byhash t) ->
  get_str t i = Some name -> 0 <= i < W32 -> field s m ob name x -> m ob (vstr i) = x.
Proof.
  intros I G H W Gi Ri [(j & Gj & <-)|(N & ->)].
  - apply H in Gj. apply get_str_inv in Gi as (e & E & Te). apply get_str_inv in Gj as (f & F & Tf).
    assert (i = j) as ->; auto. eapply (sw_uniq _ _ W); [exact E|exact F|congruence].
  - pose proof (oi_objs _ _ I _ _ G) as O. apply (oo_out _ _ _ O); [exact Ri|].
    intros [_ Q]. cbn [v_type v_data vstr] in Q. destruct Q as [Q|[[Q _]|[[_ [u Q]]|[Q|[Q|Q]]]]]; try discriminate.
    pose proof (H _ _ Q) as Q2. rewrite Gi in Q2. injection Q2 as <-. exact (N _ Q).
Qed.

(** The strings the call instruction needs can be interned. *)
Definition has_text (s : vm) (name : bytes) : Prop := exists i, get_str s i = Some name.
Definition free1 (s : vm) : Prop := exists i, 0 <= i < W31 /\ get_str s i = None.
Definition ready (s : vm) : Prop :=
  let e := has_text s (bs "_exec") in let d := has_text s (bs "_data") in
  (e \/ free1 s) /\ (d \/ free1 s) /\ (e \/ d \/ string_room s).

Lemma more_get s s' i t : more_strings s s' -> get_str s i = Some t -> get_str s' i = Some t.
Proof.
  intros [_ H] G. apply get_str_inv in G as (e & G & <-). unfold get_str. rewrite (H _ _ G). reflexivity.
Qed.

Lemma intern_rs s0 s m l n t name : more_strings s0 s -> rs s l n t -> obj_inv t m -> is_text name ->
  (has_text t name \/ free1 t) ->
  exists i s' t', find_or_add_string name t = Ok (i, t') /\ more_strings s0 s' /\ rs s' l n t' /\ obj_inv t' m /\
    get_str t' i = Some name /\ 0 <= i < W31 /\ (t' = t \/ (get_str t i = None /\ ~ has_text t name)) /\
    (forall j, j <> i -> get_str t' j = get_str t j) /\ v_objs t' = v_objs t.
Proof.
  intros ((bh & tb & Es) & Hs) R I T F.
  destruct (find_or_add_ok t name (oi_str _ _ I) (oi_live _ _ I) T) as (i & t' & E & W & X).
  pose proof (obj_inv_interned _ _ _ _ _ I W X) as I'. pose proof (interned_obj _ _ _ _ X) as (B1 & B2 & B3 & B4).
  destruct X as [(e & Ge & Te & ->)|[(st & bs' & Et & N & Ri & G & Nw)|(-> & _ & Full)]].
  - exists i, s, t. split; [auto|]. split; [split; eauto|]. split; [auto|]. split; [auto|].
    split; [unfold get_str; rewrite Ge, Te; auto|]. split; [|auto].
    + pose proof (sw_tab _ _ W) as Wt. pose proof (tab_get_range _ _ _ Ge). pose proof (pow2_bounds _ (tw_cap _ Wt)). lia.
  - exists i, (set_byhash bs' (set_strs st s)), t'.
    assert (forall j, get_str t' j = if j =? i then Some name else get_str t j) as Gs.
    { intro j. unfold get_str. rewrite Et. unfold get_str_entry at 1. vs. rewrite G. destruct (j =? i); auto. }
    split; [auto|]. split; [|split; [|split; [auto|split; [|split; [auto|split; [|split; [|auto]]]]]]].
    + split; [exists st, bs'; rewrite Es; reflexivity|]. intros j u Hj. apply Hs in Hj.
      assert (get_str_entry t j = Some u) as Hj' by (unfold get_str_entry; rewrite (rs_strs _ _ _ _ R); exact Hj).
      unfold get_str_entry. vs. rewrite G. destruct (Z.eqb_spec j i) as [->|Q].
      * rewrite N in Hj'. discriminate.
      * exact Hj'.
    + destruct R as (c & k & Hc & Wk & Ck & Nk & ->). exists c, k. sp; auto. rewrite Et.
      unfold with_stack, upd_cur. vs. rewrite Hc. reflexivity.
    + rewrite Gs, Z.eqb_refl. auto.
    + right. split; [unfold get_str; rewrite N; auto|]. intros (j & Q). apply get_str_inv in Q as (e & Q1 & Q2). exact (Nw _ _ Q1 Q2).
    + intros j Q. rewrite Gs. destruct (Z.eqb_spec j i); [congruence|auto].
  - exfalso. destruct F as [(j & F)|(j & Rj & F)].
    + apply get_str_inv in F as (e & F1 & F2). clear Full.
      unfold find_or_add_string in E. unfold mbind at 1, gets at 1 in E.
      pose proof (sw_in _ _ (oi_str _ _ I) _ _ F1) as (c & Hc & Hj). rewrite F2 in Hc.
      fold (str_bucket name) in E. unfold mbind at 1, lift at 1, rd in E. rewrite Hc in E.
      destruct (find_in_chain_ok (v_strs t) name T c) as [(i & f & F & _ & Fi & _)|[F NF]].
      { intros i Hi. destruct (sw_chain _ _ (oi_str _ _ I) _ _ _ Hc Hi) as (f & Ef & _). exists f.
        destruct (sw_ent _ _ (oi_str _ _ I) _ _ Ef) as (? & ? & ?). auto. }
      * unfold mbind at 1, lift at 1 in E. rewrite F in E. unfold ret in E. injection E as E _. subst i.
        pose proof (sw_tab _ _ (oi_str _ _ I)) as Wt. pose proof (tab_get_range _ _ _ Fi). pose proof (pow2_bounds _ (tw_cap _ Wt)).
        unfold INVALID, W31 in *. lia.
      * exact (NF _ _ Hj F1 F2).
    + destruct (Full j Rj) as (e & Fe). unfold get_str in F. rewrite Fe in F. discriminate.
Qed.

Lemma more_strings_trans s1 s2 s3 : more_strings s1 s2 -> more_strings s2 s3 -> more_strings s1 s3.
Proof. intros ((t & b & ->) & H) ((t' & b' & ->) & H'). split; [exists t', b'; reflexivity|auto]. Qed.
Lemma more_strings_refl s : more_strings s s.
Proof. split; [|auto]. exists (v_strs s), (v_byhash s). destruct s; reflexivity. Qed.
Lemma more_fits s s' l : more_strings s s' -> fits s l -> fits s' l.
Proof. intros ((t & b & ->) & _) F. exact F. Qed.

Lemma fits_sub s l l' : zlen l <= zlen l' -> fits s l' -> fits s l.
Proof. unfold fits. lia. Qed.

Lemma exec_is_text : is_text (bs "_exec"). Proof. repeat constructor; cbn; lia. Qed.
Lemma data_is_text : is_text (bs "_data"). Proof. repeat constructor; cbn; lia. Qed.

Lemma ready_step t t' (i : Z) name : ready t -> (name = bs "_exec" \/ name = bs "_data") ->
  get_str t' i = Some name -> (forall j, j <> i -> get_str t' j = get_str t j) ->
  (t' = t \/ (get_str t i = None /\ ~ has_text t name)) -> ready t'.
Proof.
  intros (R1 & R2 & R3) Nm G O [->|(Nn & Nt)]; [split; auto|].
  assert (forall nm, has_text t nm -> has_text t' nm) as Up.
  { intros nm (j & Q). exists j. rewrite O; auto. intros ->. congruence. }
  assert (string_room t -> free1 t') as Fr.
  { intros (a & b & Ra & Rb & Nab & Ga & Gb). destruct (Z.eq_dec a i) as [->|Na].
    - exists b. split; auto. rewrite O; auto.
    - exists a. split; auto. rewrite O; auto. }
  assert (has_text t' name) as Ht by (exists i; auto).
  unfold ready. destruct Nm as [-> | ->]; sp; auto; destruct R3 as [Q|[Q|Q]]; auto; contradiction.
Qed.

Lemma step_rs s0 m v o x d l n s t U (K : option value -> option value -> M U) :
  obj_inv s0 m -> v_type v = T_OBJ -> get_obj s0 (v_data v) = Some o ->
  field s0 m (v_data v) (bs "_exec") x -> field s0 m (v_data v) (bs "_data") d ->
  more_strings s0 s -> rs s l n t -> obj_inv t m -> ready t -> v_objs t = v_objs s0 ->
  exists s' t', more_strings s0 s' /\ rs s' l n t' /\ obj_inv t' m /\ ready t' /\ v_objs t' = v_objs s0 /\
    (i <- find_or_add_string (bs "_exec") ;;
     p <- find_or_add_entry_public v (vstr i) true ;;
     a <- entry_value p ;;
     j <- find_or_add_string (bs "_data") ;;
     q <- find_or_add_entry_public v (vstr j) true ;;
     b <- entry_value q ;; K a b) t = K (looked t' x) (looked t' d) t'.
Proof.
  intros I0 T G Fx Fd Ms R I Rd Ob.
  assert (forall s t, more_strings s0 s -> rs s l n t -> forall j u, get_str s0 j = Some u -> get_str t j = Some u) as Up.
  { intros s1 t1 H R1 j u Q. apply (more_get _ _ _ _ H) in Q. unfold get_str, get_str_entry in *. rewrite (rs_strs _ _ _ _ R1). exact Q. }
  assert (forall t1 i name, get_str t1 i = Some name -> 0 <= i < W31 -> ordinary t1 (vstr i)) as Ord.
  { intros t1 i name Q Ri. split; [cbn; unfold W31, W32 in *; lia|]. right. right. left. split; [reflexivity|]. eauto. }
  destruct (intern_rs s0 s m l n t (bs "_exec") Ms R I exec_is_text) as (i & s1 & t1 & E1 & M1 & R1 & I1 & G1 & B1 & D1 & S1 & O1).
  { apply Rd. }
  pose proof (ready_step _ _ _ _ Rd (or_introl eq_refl) G1 S1 D1) as Rd1.
  destruct (entry_run t1 m v (vstr i) o I1 T) as (p & P1 & P2); [unfold get_obj in *; congruence|eauto|].
  rewrite (field_key s0 m t1 _ o (bs "_exec") i x I0 G (Up _ _ M1 R1) (oi_str _ _ I1) G1) in P2; [|unfold W31, W32 in *; lia|auto].
  rewrite (bind_run _ _ _ _ _ E1), (bind_run _ _ _ _ _ P1), (bind_run _ _ _ _ _ P2).
  destruct (intern_rs s0 s1 m l n t1 (bs "_data") M1 R1 I1 data_is_text) as (j & s2 & t2 & E2 & M2 & R2 & I2 & G2 & B2 & D2 & S2 & O2).
  { apply Rd1. }
  pose proof (ready_step _ _ _ _ Rd1 (or_intror eq_refl) G2 S2 D2) as Rd2.
  destruct (entry_run t2 m v (vstr j) o I2 T) as (q & Q1 & Q2); [unfold get_obj in *; congruence|eauto|].
  rewrite (field_key s0 m t2 _ o (bs "_data") j d I0 G (Up _ _ M2 R2) (oi_str _ _ I2) G2) in Q2; [|unfold W31, W32 in *; lia|auto].
  rewrite (bind_run _ _ _ _ _ E2), (bind_run _ _ _ _ _ Q1), (bind_run _ _ _ _ _ Q2).
  exists s2, t2. split; [auto|]. split; [auto|]. split; [auto|]. split; [auto|]. split; [congruence|]. reflexivity.
Qed.

Lemma resolve_end r f fuel argc t : (r = Some f \/ r = None) -> v_type f <> T_OBJ ->
  resolve_callee fuel r argc t = Ok (Some (r, argc), t).
Proof.
  intros [-> | ->] T; destruct fuel; cbn [resolve_callee]; auto;
  (destruct (Z.eqb_spec (v_type f) T_OBJ); [congruence|]); reflexivity.
Qed.

Lemma looked_cases t x : looked t x = Some x /\ v_type x <> T_NIL \/ looked t x = None /\ v_type x = T_NIL.
Proof. unfold looked. destruct (Z.eqb_spec (v_type x) T_NIL); auto. Qed.

Lemma obj_inv_get s m i o s' : obj_inv s m -> v_objs s' = v_objs s -> get_obj s i = Some o -> get_obj s' i = Some o.
Proof. unfold get_obj. congruence. Qed.

Lemma resolve_rs s0 m : obj_inv s0 m -> forall v n f ds, callable s0 m v n f ds ->
  forall fuel st v0 args s t k, (n <= fuel)%nat -> more_strings s0 s -> rs s (st ++ call_frame v0 args) k t -> obj_inv t m ->
  ready t -> v_objs t = v_objs s0 -> fits s0 (st ++ call_frame v0 (ds ++ args)) ->
  exists r s' t' k', resolve_callee fuel (Some v) (zlen args) t = Ok (Some (r, zlen (ds ++ args)), t') /\
    (r = Some f \/ (r = None /\ v_type f = T_NIL)) /\
    more_strings s0 s' /\ rs s' (st ++ call_frame v0 (ds ++ args)) k' t' /\ v_objs t' = v_objs s0 /\ v_type f <> T_OBJ.
Proof.
  intros I0 v n f ds C. induction C as [f T|v x n f ds T Gv Fx Fd C IH|v x d n f ds T Gv Fx Fd Td C IH];
    intros fuel st v0 args s t k L Ms R I Rd Ob F.
  - exists (Some f), s, t, k. rewrite (resolve_end (Some f) f) by auto. cbn [app] in *. auto 10.
  - destruct fuel as [|fuel]; [lia|]. cbn [resolve_callee]. rewrite T. change (T_OBJ =? T_OBJ) with true. cbn [negb]. cbv iota.
    destruct (get_obj s0 (v_data v)) as [o|] eqn:G; [|congruence].
    destruct (step_rs s0 m v o x vnil _ k s t _ (fun x d => match d with None => resolve_callee fuel x (zlen args)
       | Some dv => r <- insert_data (zlen args) dv ;; match r with None => ret None | Some argc' => resolve_callee fuel x argc' end end)
       I0 T G Fx Fd Ms R I Rd Ob) as (s1 & t1 & M1 & R1 & I1 & Rd1 & Ob1 & E).
    rewrite E. change (looked t1 vnil) with (@None value). cbv beta iota.
    destruct (looked_cases t1 x) as [[-> Nx]|[-> Nx]].
    + apply (IH fuel st v0 args s1 t1 k); auto. lia.
    + inversion C; subst; try (rewrite Nx in *; discriminate).
      exists None, s1, t1, k. cbv beta iota. rewrite (resolve_end None f) by auto. cbn [app] in *. split; [auto|]. split; [auto|]. auto.
  - destruct fuel as [|fuel]; [lia|]. cbn [resolve_callee]. rewrite T. change (T_OBJ =? T_OBJ) with true. cbn [negb]. cbv iota.
    destruct (get_obj s0 (v_data v)) as [o|] eqn:G; [|congruence].
    destruct (step_rs s0 m v o x d _ k s t _ (fun x d => match d with None => resolve_callee fuel x (zlen args)
       | Some dv => r <- insert_data (zlen args) dv ;; match r with None => ret None | Some argc' => resolve_callee fuel x argc' end end)
       I0 T G Fx Fd Ms R I Rd Ob) as (s1 & t1 & M1 & R1 & I1 & Rd1 & Ob1 & E).
    rewrite E. destruct (looked_cases t1 d) as [[-> _]|[_ Nd]]; [|congruence].
    rewrite <- app_assoc in *. cbn [app] in *.
    destruct (insert_rs s1 st v0 args d k t1 R1) as (t2 & E2 & R2).
    { eapply fits_sub; [|eapply more_fits; [exact M1|exact F]]. unfold call_frame. 
      repeat rewrite ?zlen_app, ?zlen_cons, ?zlen_nil. pose proof (zlen_nonneg ds). lia. }
    rewrite (bind_run _ _ _ _ _ E2).
    assert (obj_inv t2 m /\ ready t2 /\ v_objs t2 = v_objs s0) as (I2 & Rd2 & Ob2).
    { assert (obj_inv s1 m) as Is.
      { destruct I1 as [A1 A2 A3 A4]. destruct R1 as (c & kk & Hc & Wk & Ck & Nk & E1).
        assert (v_strs t1 = v_strs s1 /\ v_objs t1 = v_objs s1 /\ v_byhash t1 = v_byhash s1) as (B1 & B2 & B3).
        { rewrite E1. unfold with_stack, upd_cur. rewrite Hc. auto. }
        split; rewrite <- ?B1, <- ?B2, <- ?B3; auto; [exists c; auto|].
        intros i p Gp. unfold get_obj in Gp. rewrite <- B2 in Gp. specialize (A4 i p Gp).
        eapply obj_ok_same; [| |exact A4]; apply same_strs; intros j e; unfold get_str_entry; rewrite B1; auto. }
      pose proof (rs_strs _ _ _ _ R1) as S1. pose proof (rs_strs _ _ _ _ R2) as S2. split; [eapply obj_inv_rs; eauto|]. split.
      - assert (forall i, get_str t2 i = get_str t1 i) as Q by (intro i; unfold get_str, get_str_entry; rewrite S1, S2; reflexivity).
        unfold ready, has_text, free1, string_room in *. destruct Rd1 as (Q1 & Q2 & Q3). 
        split; [destruct Q1 as [(i & ?)|(i & ? & ?)]; [left; exists i|right; exists i]; rewrite Q; auto|].
        split; [destruct Q2 as [(i & ?)|(i & ? & ?)]; [left; exists i|right; exists i]; rewrite Q; auto|].
        destruct Q3 as [(i & ?)|[(i & ?)|(i & j & ? & ? & ? & ? & ?)]]; [left; exists i|right; left; exists i|right; right; exists i, j]; rewrite ?Q; auto 10.
      - rewrite <- Ob1. destruct R1 as (c & kk & Hc & Wk & Ck & Nk & E1). destruct R2 as (c2 & kk2 & Hc2 & Wk2 & Ck2 & Nk2 & E3).
        rewrite E1, E3. rewrite !with_stack_objs. auto. }
    destruct (looked_cases t1 x) as [[-> Nx]|[-> Nx]].
    + apply (IH fuel st v0 (d :: args) s1 t2 0); auto. lia.
    + inversion C; subst; try (rewrite Nx in *; discriminate).
      exists None, s1, t2, 0. cbv beta iota. rewrite (resolve_end None f) by auto. cbn [app] in *. split; [auto|]. split; [auto|]. auto.
Qed.

Lemma s32_of_u32 z : s32 (u32 z) = s32 z.
Proof. unfold s32. rewrite (u32_id (u32 z)) by apply u32_range. reflexivity. Qed.

(** ** The call proper *)
Definition call_rest (host : Z -> list value -> M value) (r : option (option value * Z)) : M unit :=
  match r with
  | None => ret tt
  | Some (fv', argc') =>
    match fv' with
    | None =>
      add_error (bs "Tried to call something that is not a function id or a callable object.")
    | Some v =>
      if negb (v_type v =? T_FUNC) then
        add_error (bs "Tried to call something that is not a function id or a callable object.")
      else
        s <- self ;;
        match znth (v_funcs s) (v_data v) with
        | None => add_error (bs "Bad function id.")
        | Some f =>
          if negb (f_argc f =? INVALID) && negb (f_argc f =? argc') then
            add_error (bs "Incorrect argument count for function call. Expected: "
              ++ u_to_str (f_argc f) ++ bs " Found: " ++ u_to_str argc')
          else if negb (f_ext f =? INVALID) then call_native host f argc'
          else
            ip <- get_ip ;;
            push_int ip ;;;
            set_ip (u32 (f_first f - 1))
        end
    end
  end.

Lemma frame_split st v args : st ++ call_frame v args = (st ++ v :: args) ++ [vint (zlen args)].
Proof. unfold call_frame. rewrite <- app_assoc. reflexivity. Qed.
Lemma frame_len st v args : zlen (st ++ call_frame v args) = zlen st + zlen args + 2.
Proof. unfold call_frame. repeat rewrite ?zlen_app, ?zlen_cons, ?zlen_nil. lia. Qed.

Lemma call_start host s st v args n t : rs s (st ++ call_frame v args) n t ->
  op_call host t = mbind (resolve_callee 10 (Some v) (zlen args)) (call_rest host) t.
Proof.
  intro R. unfold op_call. rewrite (bind_run _ _ _ _ _ (rs_sized _ _ _ _ R)).
  pose proof (rs_len _ _ _ _ R) as Ln. rewrite frame_len in *. pose proof (zlen_nonneg st). pose proof (zlen_nonneg args).
  pose proof R as R'. rewrite frame_split in R'. pose proof (peek_rs _ _ _ _ _ _ R') as P.
  replace (zlen (st ++ v :: args)) with (zlen st + zlen args + 2 - 1) in P by (rewrite zlen_app, zlen_cons; lia).
  rewrite (bind_run _ _ _ _ _ P).
  assert (to_int (vint (zlen args)) t = Ok (zlen args, t)) as TI.
  { unfold to_int. cbn [v_type vint]. change (T_INT =? T_INT) with true. cbv iota. unfold v_int, vint. cbn [v_data].
    rewrite s32_of_u32. rewrite s32_id; auto. unfold is_s32, W31 in *. lia. }
  rewrite (bind_run _ _ _ _ _ TI). cbv zeta.
  rewrite (u32_id (zlen args)) by (unfold is_u32, W31, W32 in *; lia).
  rewrite (u32_id (zlen args + 2)) by (unfold is_u32, W31, W32 in *; lia).
  replace (zlen st + zlen args + 2 - (zlen args + 2)) with (zlen st) by lia.
  unfold call_frame in R. rewrite (bind_run _ _ _ _ _ (peek_rs _ _ _ _ _ _ R)). reflexivity.
Qed.

Lemma rs_frame s l n t : rs s l n t -> v_funcs t = v_funcs s /\ v_extfuncs t = v_extfuncs s /\ v_objs t = v_objs s.
Proof. intros (c & k & H & W & C & N & ->). unfold with_stack, upd_cur. rewrite H. auto. Qed.

Lemma copy_args_run k st v args : kwf k -> contents k = st ++ call_frame v args ->
  copy_args k (zlen args) (zseq 0 (Z.to_nat (zlen args))) = Ok args.
Proof.
  intros W C. pose proof (contents_len _ W) as L. rewrite C, frame_len in L. pose proof (zlen_nonneg st). pose proof (zlen_nonneg args).
  pose proof (kw_size _ W). pose proof (kwf_cap _ W).
  assert (forall pre post, args = pre ++ post -> copy_args k (zlen args) (zseq (zlen pre) (length post)) = Ok post) as Q.
  { intros pre post. revert pre. induction post as [|a post IH]; intros pre E; [reflexivity|].
    cbn [length zseq copy_args]. replace (k_size k - zlen args - 1 + zlen pre) with (zlen (st ++ v :: pre)) by (rewrite zlen_app, zlen_cons; lia).
    assert (zlen (st ++ v :: pre) < k_size k) as Lt.
    { pose proof (f_equal zlen E) as EL. rewrite zlen_app, zlen_cons in EL. pose proof (zlen_nonneg post). rewrite zlen_app, zlen_cons. lia. }
    pose proof (zlen_nonneg (st ++ v :: pre)).
    rewrite Z.land_comm. rewrite u32_id by (unfold is_u32, W31, W32 in *; lia). rewrite land_small by (auto; lia).
    assert (znth (k_vals k) (zlen (st ++ v :: pre)) = Some a) as V.
    { assert (znth (contents k) (zlen (st ++ v :: pre)) = Some a) as V.
      { rewrite C. unfold call_frame. rewrite E. rewrite <- app_assoc. cbn [app].
        change (st ++ v :: pre ++ a :: post ++ ?x) with (st ++ (v :: pre) ++ a :: post ++ x).
        rewrite app_assoc. apply znth_mid. }
      apply contents_znth in V as [V _]; auto. }
    unfold rd. rewrite V. cbn [bind].
    replace (zlen pre + 1) with (zlen (pre ++ [a])) by (rewrite zlen_app; reflexivity).
    rewrite (IH (pre ++ [a])); [reflexivity|]. rewrite <- app_assoc. exact E. }
  specialize (Q [] args eq_refl). cbn [zlen] in Q. unfold zlen at 2. rewrite Nat2Z.id. exact Q.
Qed.

Lemma accepts_dec d n : accepts d n \/ ~ accepts d n.
Proof. unfold accepts. lia. Qed.
Lemma accepts_test d n : negb (d =? INVALID) && negb (d =? n) = false <-> accepts d n.
Proof. unfold accepts. destruct (Z.eqb_spec d INVALID), (Z.eqb_spec d n); cbn; intuition (try discriminate; try lia). Qed.
Lemma accepts_test_no d n : ~ accepts d n -> negb (d =? INVALID) && negb (d =? n) = true.
Proof. intro H. rewrite <- accepts_test in H. destruct (_ && _); congruence. Qed.

Lemma script_run host s st v args n t fv f ip : rs s (st ++ call_frame v args) n t ->
  function_is s fv f -> accepts (f_argc f) (zlen args) -> f_ext f = INVALID -> ip_is s ip ->
  fits s (st ++ call_frame v args ++ [vint ip]) ->
  exists s', call_rest host (Some (Some fv, zlen args)) t = Ok (tt, s') /\
    moved s (st ++ call_frame v args ++ [vint ip]) (u32 (f_first f - 1)) s'.
Proof.
  intros R (Tf & Hf) Ac X I F. unfold call_rest. rewrite Tf. change (T_FUNC =? T_FUNC) with true. cbn [negb]. cbv iota.
  unfold mbind at 1, self, gets. destruct (rs_frame _ _ _ _ R) as (E1 & E2 & E3). rewrite E1, Hf.
  apply accepts_test in Ac. rewrite Ac. cbv iota. rewrite X. change (INVALID =? INVALID) with true. cbn [negb]. cbv iota.
  rewrite (bind_run _ _ _ _ _ (get_ip_run _ _ _ _ _ R I)). unfold push_int.
  rewrite app_assoc in F. destruct (push_fits _ _ _ _ _ R F) as (t2 & P & R2). rewrite (bind_run _ _ _ _ _ P).
  rewrite app_assoc. eapply set_ip_run; eauto.
Qed.

Lemma check_args_ok xf args : forall i t, 0 <= i -> i + zlen args <= zlen (x_types xf) ->
  (forall j d a, znth (x_types xf) (i + j) = Some d -> znth args j = Some a -> ~ mismatch t d a) ->
  check_args xf i args t = Ok (true, t).
Proof.
  induction args as [|a r IH]; intros i t P L H; cbn [check_args]; [reflexivity|].
  rewrite zlen_cons in L. pose proof (zlen_nonneg r). destruct (znth_in_range (x_types xf) i) as [[ty et] Ht]; [lia|].
  unfold mbind at 1, lift, rd. rewrite Ht.
  assert (~ mismatch t (ty, et) a) as Hm by (apply (H 0); [rewrite Z.add_0_r; auto|apply znth_cons_0]).
  assert (check_args xf (i + 1) r t = Ok (true, t)) as Rec.
  { apply IH; try lia. intros j d b Hd Hb. assert (0 <= j) by (apply znth_some_range in Hb; lia).
    apply (H (j + 1)); [replace (i + (j + 1)) with (i + 1 + j) by lia; auto|].
    rewrite znth_cons_S by lia. replace (j + 1 - 1) with j by lia. auto. }
  destruct (Z.eqb_spec ty T_NIL) as [_|Nt]; [auto|].
  unfold mismatch in Hm. cbn [fst snd] in Hm.
  destruct (Z.eqb_spec ty (v_type a)) as [Et|Et]; cbn [negb]; cbv iota; [|exfalso; apply Hm; split; auto].
  destruct (Z.eqb_spec ty T_OBJ) as [Eo|_]; [|auto].
  unfold mbind at 1, self, gets. destruct (get_obj t (v_data a)) as [o|] eqn:G; [|exfalso; apply Hm; split; auto].
  destruct (Z.eqb_spec et INVALID), (Z.eqb_spec et (o_ext o)); cbn [negb andb]; cbv iota; auto.
  exfalso. apply Hm. split; auto.
Qed.

Lemma check_args_bad xf args s l n t : rs s l n t -> forall i, 0 <= i -> i + zlen args <= zlen (x_types xf) ->
  (exists j d a, znth (x_types xf) (i + j) = Some d /\ znth args j = Some a /\ mismatch t d a) ->
  exists t', check_args xf i args t = Ok (false, t') /\ failed s l t'.
Proof.
  intro R. assert (forall msg, exists t', (add_error msg ;;; ret false) t = Ok (false, t') /\ failed s l t') as Er.
  { intro msg. destruct (rs_error _ _ _ _ msg R) as (t' & E & F). exists t'. rewrite (bind_run _ _ _ _ _ E). auto. }
  induction args as [|a r IH]; intros i P L (j & d & b & Hd & Hb & Hm); cbn [check_args].
  { apply znth_some_range in Hb. unfold zlen in Hb. cbn [length] in Hb. lia. }
  rewrite zlen_cons in L. pose proof (zlen_nonneg r). destruct (znth_in_range (x_types xf) i) as [[ty et] Ht]; [lia|].
  unfold mbind at 1, lift, rd. rewrite Ht.
  pose proof (znth_some_range _ _ _ Hb) as Rb.
  assert (j = 0 \/ exists t', check_args xf (i + 1) r t = Ok (false, t') /\ failed s l t') as Rec.
  { destruct (Z.eq_dec j 0); auto. right. apply IH; try lia. exists (j - 1), d, b.
    replace (i + 1 + (j - 1)) with (i + j) by lia. rewrite znth_cons_S in Hb by lia. auto. }
  assert (j = 0 -> d = (ty, et) /\ b = a) as Z0.
  { intros ->. rewrite Z.add_0_r in Hd. rewrite znth_cons_0 in Hb. split; congruence. }
  unfold mismatch in Hm.
  destruct (Z.eqb_spec ty T_NIL) as [En|Nt].
  { destruct Rec as [J|Rec]; auto. destruct (Z0 J) as [-> ->]. cbn [fst] in Hm. tauto. }
  destruct (Z.eqb_spec ty (v_type a)) as [Et|Et]; cbn [negb]; cbv iota; [|apply Er].
  destruct (Z.eqb_spec ty T_OBJ) as [Eo|No].
  - unfold mbind at 1, self, gets. destruct (get_obj t (v_data a)) as [o|] eqn:G; [|apply Er].
    destruct (Z.eqb_spec et INVALID) as [Ei|Ei], (Z.eqb_spec et (o_ext o)) as [Ee|Ee]; cbn [negb andb]; cbv iota; [| | |apply Er];
    (destruct Rec as [J|Rec]; auto; destruct (Z0 J) as [-> ->]; cbn [fst snd] in Hm; rewrite G in Hm; exfalso; intuition congruence).
  - destruct Rec as [J|Rec]; auto. destruct (Z0 J) as [-> ->]. cbn [fst] in Hm. exfalso. intuition congruence.
Qed.

Lemma function_fun s fv f g : function_is s fv f -> function_is s fv g -> f = g.
Proof. intros (_ & A) (_ & B). congruence. Qed.

Lemma native_run host s st v args n t fv cb r t2 : rs s (st ++ call_frame v args) n t ->
  good_native s fv args cb -> host cb args t = Ok (r, t2) -> stack_is t2 (st ++ call_frame v args) ->
  exists s', call_rest host (Some (Some fv, zlen args)) t = Ok (tt, s') /\ restacked t2 (st ++ [r]) s'.
Proof.
  intros R (f & xf & (Tf & Hf) & Ac & Xf & Hx & Cb & Ax & Ty) Hh St. unfold call_rest. rewrite Tf. change (T_FUNC =? T_FUNC) with true. cbn [negb]. cbv iota.
  unfold mbind at 1, self, gets. destruct (rs_frame _ _ _ _ R) as (E1 & E2 & E3). rewrite E1, Hf.
  apply accepts_test in Ac. rewrite Ac. cbv iota. destruct (Z.eqb_spec (f_ext f) INVALID); [congruence|]. cbn [negb]. cbv iota.
  unfold call_native. unfold mbind at 1, self, gets. rewrite E2, Hx, Cb.
  destruct (rs_at _ _ _ _ R) as (k & (c & Hc & Ek) & W & C & N). rewrite (cur_ctx_run _ _ _ Hc).
  unfold mbind at 1, lift. rewrite Ek. rewrite (copy_args_run k st v args W C).
  match goal with |- context[(if x_argc xf =? INVALID then ?X else ?Y)] => assert ((if x_argc xf =? INVALID then X else Y) t = Ok (true, t)) as Chk end.
  { destruct (Z.eqb_spec (x_argc xf) INVALID) as [Ei|Ei]; [reflexivity|].
    destruct Ax as [Ax|Ax]; [congruence|]. rewrite Ax, Z.eqb_refl. cbn [negb]. cbv iota.
    destruct (Ty Ei) as (TL & Tm). apply check_args_ok; [lia|lia|]. intros j d a Hd Ha M. apply (Tm j d a); auto.
    unfold mismatch, get_obj in *. rewrite E3 in M. exact M. }
  rewrite (bind_run _ _ _ _ _ Chk). rewrite (bind_run _ _ _ _ _ Hh).
  pose proof (rs_start _ _ St) as R2. pose proof (rs_len _ _ _ _ R2) as Ln. rewrite frame_len in Ln. pose proof (zlen_nonneg st). pose proof (zlen_nonneg args).
  rewrite u32_id by (unfold is_u32, W31, W32 in *; lia).
  destruct (pop_n_rs _ _ _ _ _ R2) as (t3 & P3 & R3).
  replace (zlen (call_frame v args)) with (zlen args + 2) in P3, R3 by (unfold call_frame; repeat rewrite ?zlen_app, ?zlen_cons, ?zlen_nil; lia).
  rewrite (bind_run _ _ _ _ _ P3). destruct (push_rs _ _ r _ _ R3) as (t4 & P4 & R4); [lia|]. rewrite P4.
  eexists. split; [reflexivity|]. eapply rs_restacked; eauto.
Qed.

Ltac fin := match goal with Er : forall m, exists s', add_error m ?t = _ /\ _ |- context[add_error ?m ?t] =>
  let s' := fresh in let E := fresh in let F := fresh in destruct (Er m) as (s' & E & F); exists s'; split; auto end.

Lemma bad_run s st v args n t fv : rs s (st ++ call_frame v args) n t -> bad_call s fv args ->
  (forall j xf, znth (v_extfuncs s) j = Some xf -> x_argc xf <> INVALID -> zlen (x_types xf) = x_argc xf) ->
  exists s', (forall host, call_rest host (Some (Some fv, zlen args)) t = Ok (tt, s')) /\ failed s (st ++ call_frame v args) s'.
Proof.
  intros R B Wx. destruct (rs_frame _ _ _ _ R) as (E1 & E2 & E3).
  assert (forall msg, exists s', add_error msg t = Ok (tt, s') /\ failed s (st ++ call_frame v args) s') as Er
    by (intro msg; apply (rs_error _ _ _ _ msg R)).
  unfold call_rest.
  destruct (Z.eqb_spec (v_type fv) T_FUNC) as [Tf|Tf]; cbn [negb]; cbv iota; [|fin].
  unfold mbind at 1, self, gets. rewrite E1.
  destruct (znth (v_funcs s) (v_data fv)) as [f|] eqn:Hf; [|fin].
  assert (function_is s fv f) as Fi by (split; auto).
  destruct (accepts_dec (f_argc f) (zlen args)) as [Ac|Ac]; [|rewrite (accepts_test_no _ _ Ac); fin].
  rewrite (proj2 (accepts_test _ _) Ac). cbv iota.
  assert (f_ext f <> INVALID) as Xf.
  { destruct B as [B|B1 B2|g B1 B2|g B1 B2|g xf B1 B2|g xf B1 B2|g xf i d a B1 B2]; try congruence;
    rewrite (function_fun _ _ _ _ Fi B1) in *; tauto. }
  destruct (Z.eqb_spec (f_ext f) INVALID); [congruence|]. cbn [negb]. cbv iota.
  unfold call_native. unfold mbind at 1, self, gets. rewrite E2.
  destruct (znth (v_extfuncs s) (f_ext f)) as [xf|] eqn:Hx; [|fin].
  destruct (x_cb xf) as [cb|] eqn:Cb; [|fin].
  destruct (rs_at _ _ _ _ R) as (k & (c & Hc & Ek) & W & C & N).
  assert (exists s', (if x_argc xf =? INVALID then ret true else if negb (x_argc xf =? zlen args) then
               add_error (bs "Tried to call an external function " ++ x_name xf
                 ++ bs " with an incorrect number of arguments.") ;;; ret false
             else check_args xf 0 args) t = Ok (false, s') /\ failed s (st ++ call_frame v args) s') as (s' & Chk & Fl).
  { assert (~ accepts (x_argc xf) (zlen args) \/ (x_argc xf <> INVALID /\ exists i d a, znth (x_types xf) i = Some d /\ znth args i = Some a /\ mismatch s d a)) as Q.
    { destruct B as [B|B1 B2|g B1 B2|g B1 B2 B3|g xg B1 B2 B3 B4|g xg B1 B2 B3 B4|g xg i d a B1 B2 B3 B4 B5 B6 B7]; try congruence;
      rewrite (function_fun _ _ _ _ Fi B1) in *; try tauto; try congruence;
      assert (xg = xf) as -> by congruence; try congruence; [left; auto|right; split; eauto 10]. }
    destruct (Z.eqb_spec (x_argc xf) INVALID) as [Ei|Ei].
    { destruct Q as [Q|[Q _]]; [|congruence]. exfalso. apply Q. left. auto. }
    destruct (Z.eqb_spec (x_argc xf) (zlen args)) as [Ea|Ea]; cbn [negb]; cbv iota.
    - destruct Q as [Q|(_ & i & d & a & Q1 & Q2 & Q3)]; [exfalso; apply Q; right; auto|].
      apply (check_args_bad xf args s _ n t R 0); [lia|rewrite (Wx _ _ Hx Ei); lia|].
      exists i, d, a. sp; auto. unfold mismatch, get_obj in *. rewrite E3. exact Q3.
    - destruct (Er (bs "Tried to call an external function " ++ x_name xf ++ bs " with an incorrect number of arguments.")) as (t' & E & F).
      exists t'. rewrite (bind_run _ _ _ _ _ E). auto. }
  exists s'. split; [|auto]. intro host. rewrite (cur_ctx_run _ _ _ Hc).
  unfold mbind at 1, lift. rewrite Ek. rewrite (copy_args_run k st v args W C).
  rewrite (bind_run _ _ _ _ _ Chk). reflexivity.
Qed.

(** ** Returning *)
Lemma pop_back_run s st fv args ra locals rv n t : stack_is s (st ++ call_frame fv args ++ [vint ra] ++ locals ++ [rv; vint (zlen locals)]) ->
  n = zlen args + zlen locals + 5 ->
  t = 0 ->
  exists t2, rs s st n t2 /\
    forall U (K : Z -> value -> M U),
    (cc <- pop ;; rv <- pop ;; n <- to_int cc ;; pop_n (u32 n) ;;; rav <- pop ;; ra <- to_int rav ;;
     acv <- pop ;; ac <- to_int acv ;; pop_n (u32 ac) ;;; _ <- pop ;; K ra rv) s = K (s32 ra) rv t2.
Proof.
  intros S -> ->. pose proof (rs_start _ _ S) as R. pose proof (rs_len _ _ _ _ R) as Ln.
  revert Ln. repeat rewrite ?zlen_app, ?zlen_cons, ?zlen_nil. unfold call_frame. repeat rewrite ?zlen_app, ?zlen_cons, ?zlen_nil. intro Ln.
  pose proof (zlen_nonneg st). pose proof (zlen_nonneg args). pose proof (zlen_nonneg locals).
  assert (forall z t, to_int (vint z) t = Ok (s32 z, t)) as TI.
  { intros z t. unfold to_int. cbn [v_type vint]. change (T_INT =? T_INT) with true. cbv iota. unfold v_int, vint. cbn [v_data].
    rewrite s32_of_u32. auto. }
  assert (forall x, 0 <= x < W31 -> s32 x = x /\ u32 x = x) as SU.
  { intros x X. split; [apply s32_id; unfold is_s32, W31 in *; lia|apply u32_id; unfold is_u32, W31, W32 in *; lia]. }
  unfold call_frame in R.
  assert (st ++ (fv :: args ++ [vint (zlen args)]) ++ [vint ra] ++ locals ++ [rv; vint (zlen locals)] =
    ((((((st ++ [fv]) ++ args) ++ [vint (zlen args)]) ++ [vint ra]) ++ locals) ++ [rv]) ++ [vint (zlen locals)]) as E.
  { repeat (rewrite <- !app_assoc; cbn [app]). reflexivity. }
  rewrite E in R. clear E S.
  destruct (pop_rs _ _ _ _ _ R) as (t1 & P1 & R1). destruct (pop_rs _ _ _ _ _ R1) as (t2 & P2 & R2).
  destruct (pop_n_rs _ _ _ _ _ R2) as (t3 & P3 & R3). destruct (pop_rs _ _ _ _ _ R3) as (t4 & P4 & R4).
  destruct (pop_rs _ _ _ _ _ R4) as (t5 & P5 & R5). destruct (pop_n_rs _ _ _ _ _ R5) as (t6 & P6 & R6).
  destruct (pop_rs _ _ _ _ _ R6) as (t7 & P7 & R7).
  exists t7. split; [eapply rs_weak; [exact R7|lia]|]. intros U K.
  rewrite (bind_run _ _ _ _ _ P1), (bind_run _ _ _ _ _ P2), (bind_run _ _ _ _ _ (TI _ _)).
  destruct (SU (zlen locals)) as [-> ->]; [lia|]. rewrite (bind_run _ _ _ _ _ P3), (bind_run _ _ _ _ _ P4), (bind_run _ _ _ _ _ (TI _ _)).
  rewrite (bind_run _ _ _ _ _ P5), (bind_run _ _ _ _ _ (TI _ _)). destruct (SU (zlen args)) as [-> ->]; [lia|].
  rewrite (bind_run _ _ _ _ _ P6), (bind_run _ _ _ _ _ P7). reflexivity.
Qed.

Lemma return_run s st fv args ra locals rv :
  stack_is s (st ++ call_frame fv args ++ [vint ra] ++ locals ++ [rv; vint (zlen locals)]) -> 0 <= ra < INVALID ->
  exists s', op_return s = Ok (tt, s') /\ moved s (st ++ [rv]) ra s'.
Proof.
  intros S Ra. destruct (pop_back_run _ _ _ _ _ _ _ _ 0 S eq_refl eq_refl) as (t & R & E). unfold op_return. rewrite E.
  rewrite u32_s32. rewrite u32_id by (unfold is_u32, INVALID, W32 in *; lia).
  destruct (Z.eqb_spec ra INVALID); [lia|].
  pose proof (zlen_nonneg args). pose proof (zlen_nonneg locals).
  destruct (push_rs _ _ rv _ _ R) as (t2 & P & R2); [lia|]. rewrite (bind_run _ _ _ _ _ P). eapply set_ip_run; eauto.
Qed.

(** ** Chains that are too long *)
Lemma obj_inv_back s m l n t : obj_inv t m -> rs s l n t -> obj_inv s m.
Proof.
  intros [A1 A2 A3 A4] (c & kk & Hc & Wk & Ck & Nk & E1).
  assert (v_strs t = v_strs s /\ v_objs t = v_objs s /\ v_byhash t = v_byhash s) as (B1 & B2 & B3).
  { rewrite E1. unfold with_stack, upd_cur. rewrite Hc. auto. }
  split; rewrite <- ?B1, <- ?B2, <- ?B3; auto; [exists c; auto|].
  intros i p Gp. unfold get_obj in Gp. rewrite <- B2 in Gp. specialize (A4 i p Gp).
  eapply obj_ok_same; [| |exact A4]; apply same_strs; intros j e; unfold get_str_entry; rewrite B1; auto.
Qed.
Lemma ready_same t t' : v_strs t' = v_strs t -> ready t -> ready t'.
Proof.
  intros S Rd. assert (forall i, get_str t' i = get_str t i) as Q by (intro i; unfold get_str, get_str_entry; rewrite S; reflexivity).
  unfold ready, has_text, free1, string_room in *. destruct Rd as (Q1 & Q2 & Q3).
  split; [destruct Q1 as [(i & ?)|(i & ? & ?)]; [left; exists i|right; exists i]; rewrite Q; auto|].
  split; [destruct Q2 as [(i & ?)|(i & ? & ?)]; [left; exists i|right; exists i]; rewrite Q; auto|].
  destruct Q3 as [(i & ?)|[(i & ?)|(i & j & ? & ? & ? & ? & ?)]]; [left; exists i|right; left; exists i|right; right; exists i, j]; rewrite ?Q; auto 10.
Qed.

Lemma deep_rs s0 m : obj_inv s0 m -> forall v n q, deep s0 m v n q ->
  forall fuel st v0 args s t k, (fuel < n)%nat -> more_strings s0 s -> rs s (st ++ call_frame v0 args) k t -> obj_inv t m ->
  ready t -> v_objs t = v_objs s0 -> zlen st + zlen args + 2 + Z.of_nat q <= 65536 ->
  2 * (zlen st + zlen args + 2 + Z.of_nat q) - 2 <= v_maxstack s0 ->
  exists l s' t', resolve_callee fuel (Some v) (zlen args) t = Ok (None, t') /\
    more_strings s0 s' /\ failed s' (st ++ v0 :: l) t'.
Proof.
  intros I0 v n q D. 
  assert (forall fuel v st v0 args s t k, fuel = O -> v_type v = T_OBJ -> more_strings s0 s -> rs s (st ++ call_frame v0 args) k t ->
     exists l s' t', resolve_callee fuel (Some v) (zlen args) t = Ok (None, t') /\ more_strings s0 s' /\ failed s' (st ++ v0 :: l) t') as Z0.
  { intros fuel w st v0 args s t k -> T Ms R. cbn [resolve_callee]. rewrite T. change (T_OBJ =? T_OBJ) with true. cbn [negb]. cbv iota.
    destruct (rs_error _ _ _ _ (bs "Too many callable object redirections.") R) as (t' & E & F).
    exists (args ++ [vint (zlen args)]), s, t'. rewrite (bind_run _ _ _ _ _ E). auto. }
  assert (forall s l k t n, rs s l k t -> zlen l + n <= 65536 -> 2 * (zlen l + n) - 2 <= v_maxstack s -> True) as _ by auto.
  induction D as [v T G|v x n q T Gv Fx Fd D IH|v x d n q T Gv Fx Fd Td D IH];
    intros fuel st v0 args s t k L Ms R I Rd Ob F1 F2.
  - assert (fuel = O) as -> by lia. eapply Z0; eauto.
  - destruct fuel as [|fuel]; [eapply Z0; eauto|]. cbn [resolve_callee]. rewrite T. change (T_OBJ =? T_OBJ) with true. cbn [negb]. cbv iota.
    destruct (get_obj s0 (v_data v)) as [o|] eqn:G; [|congruence].
    destruct (step_rs s0 m v o x vnil _ k s t _ (fun x d => match d with None => resolve_callee fuel x (zlen args)
       | Some dv => r <- insert_data (zlen args) dv ;; match r with None => ret None | Some argc' => resolve_callee fuel x argc' end end)
       I0 T G Fx Fd Ms R I Rd Ob) as (s1 & t1 & M1 & R1 & I1 & Rd1 & Ob1 & E).
    rewrite E. change (looked t1 vnil) with (@None value). cbv beta iota.
    assert (v_type x = T_OBJ) as Tx by (inversion D; auto).
    unfold looked. rewrite Tx. change (T_OBJ =? T_NIL) with false. cbv iota.
    apply (IH fuel st v0 args s1 t1 k); auto. lia.
  - destruct fuel as [|fuel]; [eapply Z0; eauto|]. cbn [resolve_callee]. rewrite T. change (T_OBJ =? T_OBJ) with true. cbn [negb]. cbv iota.
    destruct (get_obj s0 (v_data v)) as [o|] eqn:G; [|congruence].
    destruct (step_rs s0 m v o x d _ k s t _ (fun x d => match d with None => resolve_callee fuel x (zlen args)
       | Some dv => r <- insert_data (zlen args) dv ;; match r with None => ret None | Some argc' => resolve_callee fuel x argc' end end)
       I0 T G Fx Fd Ms R I Rd Ob) as (s1 & t1 & M1 & R1 & I1 & Rd1 & Ob1 & E).
    rewrite E. destruct (looked_cases t1 d) as [[-> _]|[_ Nd]]; [|congruence].
    assert (v_type x = T_OBJ) as Tx by (inversion D; auto).
    unfold looked. rewrite Tx. change (T_OBJ =? T_NIL) with false. cbv iota.
    destruct (insert_rs s1 st v0 args d k t1 R1) as (t2 & E2 & R2).
    { eapply more_fits; [exact M1|]. unfold fits. rewrite frame_len, zlen_cons. lia. }
    rewrite (bind_run _ _ _ _ _ E2).
    apply (IH fuel st v0 (d :: args) s1 t2 0); auto; try (rewrite zlen_cons); try lia.
    + eapply obj_inv_rs; [|exact R2]. eapply obj_inv_back; [exact I1|exact R1].
    + eapply ready_same; [|exact Rd1]. rewrite (rs_strs _ _ _ _ R1), (rs_strs _ _ _ _ R2). auto.
    + rewrite <- Ob1. destruct (rs_frame _ _ _ _ R1) as (_ & _ & ->). apply (rs_frame _ _ _ _ R2).
Qed.
