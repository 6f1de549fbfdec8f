(** * ObjInsn: the instructions on objects and floats, run on a known stack
    (used by MachProofs) *)

From Verif Require Import Base BaseFacts State MonadFacts StrModel ValueModel StackModel ObjsModel VmModel
  StrSpec ValueSpec ObjsSpec StackProofs ObjsProofs OpSpec OpProofs InsnSpec InsnProofs CallSpec CallProofs TableProofs VmInv.

Ltac Zify.zify_post_hook ::= Z.div_mod_to_equations.

Lemma zlen_one {A} (x : A) : zlen [x] = 1.
Proof. reflexivity. Qed.
Lemma rs_objs s l n s' : rs s l n s' -> v_objs s' = v_objs s.
Proof. intros (c & k & _ & _ & _ & _ & ->). apply with_stack_objs. Qed.
Lemma rs_get_obj s l n s' i : rs s l n s' -> get_obj s' i = get_obj s i.
Proof. intro R. unfold get_obj. rewrite (rs_objs _ _ _ _ R). reflexivity. Qed.
Lemma rs_ordinary s l n s' k : rs s l n s' -> ordinary s k -> ordinary s' k.
Proof. intros R. unfold ordinary, get_str, get_str_entry. rewrite (rs_strs _ _ _ _ R). auto. Qed.

Ltac kpop R := let t := fresh "t" in let P := fresh "P" in let Q := fresh "Q" in
  destruct (pop_rs _ _ _ _ _ R) as (t & P & Q); rewrite (bind_run _ _ _ _ _ P); clear P R; rename Q into R.

Lemma rs_sized s l n t : rs s l n t -> stack_size t = Ok (zlen l, t).
Proof.
  intro R. destruct (rs_at _ _ _ _ R) as (k & A & W & C & N). rewrite (stack_size_ok _ _ A).
  pose proof (contents_len _ W) as CL. rewrite C in CL. rewrite CL. reflexivity.
Qed.

Lemma field_read s mm l n t ob o key (K : M unit) (f : value -> M unit) : obj_inv s mm -> rs s l n t ->
  get_obj s ob = Some o -> ordinary s key -> K = f vnil ->
  (p <- find_or_add_entry ob key true ;; match p with Some q => x <- el_get ob q ;; f x | None => K end) t = f (mm ob key) t.
Proof.
  intros I R G Ky ->. pose proof (obj_inv_rs _ _ _ _ _ I R) as It.
  assert (get_obj t ob = Some o) as Gt by (rewrite (rs_get_obj _ _ _ _ _ R); exact G).
  pose proof (read_field_ok t mm ob o key It Gt (rs_ordinary _ _ _ _ _ R Ky)) as E. unfold read_field in E.
  destruct (bind_inv _ _ _ _ _ E) as (p & s1 & P1 & P2). rewrite (bind_run _ _ _ _ _ P1). destruct p as [q|].
  - rewrite (bind_run _ _ _ _ _ P2). reflexivity.
  - unfold ret in P2. injection P2 as <- <-. reflexivity.
Qed.

(** a.b: the value takes the place of the object and the key. *)
Lemma field_get_run s mm st ob o key : obj_inv s mm -> get_obj s ob = Some o -> ordinary s key ->
  stack_is s (st ++ [vobj ob; key]) ->
  exists s', op_field_get true s = Ok (tt, s') /\ restacked s (st ++ [mm ob key]) s'.
Proof.
  intros I G Ky S. rewrite snoc2 in S. unfold op_field_get. pose proof (rs_start _ _ S) as R. kpop R. kpop R.
  cbn [v_type vobj v_data]. change (negb (T_OBJ =? T_OBJ)) with false. cbv iota. unfold mbind at 1, self, gets.
  rewrite (rs_get_obj _ _ _ _ _ R), G. destruct (rs_slot _ _ _ _ R ltac:(lia)) as (j & t1 & E1 & R1).
  rewrite (bind_run _ _ _ _ _ E1). rewrite (field_read s mm _ _ t1 ob o key _ (fun x => set_slot (zlen st) x) I R1 G Ky eq_refl).
  destruct (rs_set _ _ _ _ (zlen st) (mm ob key) R1) as (t2 & E2 & R2).
  { rewrite zlen_app, zlen_one. pose proof (zlen_nonneg st). lia. }
  rewrite zupd_last in R2. exists t2. split; [exact E2|]. eapply rs_restacked; eauto.
Qed.

(** The same, leaving the object where it is. *)
Lemma field_keep_run s mm st ob o key : obj_inv s mm -> get_obj s ob = Some o -> ordinary s key ->
  stack_is s (st ++ [vobj ob; key]) ->
  exists s', op_field_get false s = Ok (tt, s') /\ restacked s (st ++ [vobj ob; mm ob key]) s'.
Proof.
  intros I G Ky S. rewrite snoc2 in S. unfold op_field_get. pose proof (rs_start _ _ S) as R. kpop R.
  assert (zlen (st ++ [vobj ob]) = zlen st + 1) as Zl by (rewrite zlen_app, zlen_one; lia).
  pose proof (zlen_nonneg st) as Z0.
  assert (u32 (zlen (st ++ [vobj ob]) - 1) = zlen st) as U.
  { rewrite Zl. replace (zlen st + 1 - 1) with (zlen st) by lia. apply u32_id.
    destruct (rs_at _ _ _ _ R) as (k & A & W & C & N). pose proof (contents_len _ W) as CL. rewrite C, Zl in CL.
    pose proof (kw_size _ W). pose proof (kwf_cap _ W). unfold is_u32, W31, W32 in *. lia. }
  assert ((sz <- stack_size ;; peek (sz - 1)) t = Ok (vobj ob, t)) as Pk.
  { rewrite (bind_run _ _ _ _ _ (rs_sized _ _ _ _ R)). apply (rs_peek _ _ _ _ _ _ R); rewrite U; [lia|].
    rewrite znth_app_r by lia. replace (zlen st - zlen st) with 0 by lia. reflexivity. }
  rewrite (bind_run _ _ _ _ _ Pk).
  cbn [v_type vobj v_data]. change (negb (T_OBJ =? T_OBJ)) with false. cbv iota. unfold mbind at 1, self, gets.
  rewrite (rs_get_obj _ _ _ _ _ R), G. destruct (rs_slot _ _ _ _ R ltac:(lia)) as (j & t1 & E1 & R1).
  rewrite (bind_run _ _ _ _ _ E1). rewrite (field_read s mm _ _ t1 ob o key _ (fun x => set_slot (zlen (st ++ [vobj ob])) x) I R1 G Ky eq_refl).
  destruct (rs_set _ _ _ _ (zlen (st ++ [vobj ob])) (mm ob key) R1) as (t2 & E2 & R2).
  { rewrite (zlen_app (st ++ [vobj ob])), zlen_one. lia. }
  rewrite zupd_last in R2. exists t2. split; [exact E2|]. rewrite snoc2. eapply rs_restacked; eauto.
Qed.

(** Writing a field keeps every object, and of what kind it is. *)
Definition kept (s s' : vm) : Prop :=
  forall j, match get_obj s j with Some o => exists o', get_obj s' j = Some o' /\ o_ext o' = o_ext o | None => get_obj s' j = None end.
Lemma kept_refl s s' : v_objs s' = v_objs s -> kept s s'.
Proof. intros E j. unfold get_obj. rewrite E. destruct (tab_get _ j); eauto. Qed.
Lemma kept_trans a b c : kept a b -> kept b c -> kept a c.
Proof.
  intros K1 K2 j. specialize (K1 j). specialize (K2 j). destruct (get_obj a j) as [o|].
  - destruct K1 as (o' & G & E). rewrite G in K2. destruct K2 as (o2 & G2 & E2). exists o2. split; [exact G2|congruence].
  - rewrite K1 in K2. exact K2.
Qed.
Lemma wr_kept s i o o' s' : get_obj s i = Some o -> o_ext o' = o_ext o -> wr_obj i o' s = Ok (tt, s') -> kept s s'.
Proof.
  intros G E W. rewrite (wr_obj_ok s i o o' G) in W. injection W as <-. intro j.
  unfold get_obj, put_obj in *. vs. rewrite !tab_get_znth in *. cbn [t_slots].
  assert (znth (t_slots (v_objs s)) i = Some (Some o)) as Z1 by (destruct (znth _ i) as [[|]|]; congruence).
  pose proof (znth_some_range _ _ _ Z1). destruct (Z.eq_dec i j) as [<-|N].
  - rewrite G, znth_zupd_same by lia. eauto.
  - rewrite znth_zupd_other by exact N. destruct (znth _ j) as [[|]|]; eauto.
Qed.
Lemma write_kept s ob key v s' : live_ctx s (v_cur s) -> write_field ob key v s = Ok (tt, s') -> kept s s'.
Proof.
  intros Lv W. unfold write_field in W. destruct (v_type v =? T_NIL).
  - unfold clear_entry in W. unfold mbind at 1, gets in W. destruct (bind_inv _ _ _ _ _ W) as (o & s1 & R1 & W1).
    unfold rd_obj in R1. destruct (get_obj s ob) as [o0|] eqn:G; [|discriminate]. injection R1 as <- <-.
    destruct (bind_inv _ _ _ _ _ W1) as (ch & s1 & R1 & W2). unfold lift in R1. destruct (rd _ _) as [c0|]; [|discriminate]. injection R1 as <- <-.
    destruct (bind_inv _ _ _ _ _ W2) as (f & s1 & R1 & W3). destruct (find_key_run key c0 s 0 Lv) as (r & es & E & _). rewrite E in R1.
    injection R1 as <- <-. destruct r as [q|]; [|injection W3 as <-; apply kept_refl; reflexivity].
    destruct (o_size o0 =? 0); [discriminate W3|]. refine (wr_kept (set_errs (v_errs s ++ es) s) ob o0 _ _ G _ W3). reflexivity.
  - destruct (bind_inv _ _ _ _ _ W) as (p & s1 & F & W1). clear W. rename W1 into W.
    assert (kept s s1 /\ live_ctx s1 (v_cur s1)) as [K1 _].
    { unfold find_or_add_entry in F. unfold mbind at 1, gets in F. destruct (bind_inv _ _ _ _ _ F) as (o & s2 & R1 & W1).
      unfold rd_obj in R1. destruct (get_obj s ob) as [o0|] eqn:G; [|discriminate]. injection R1 as <- <-.
      destruct (bind_inv _ _ _ _ _ W1) as (ch & s2 & R1 & W2). unfold lift in R1. destruct (rd _ _) as [c0|]; [|discriminate]. injection R1 as <- <-.
      destruct (bind_inv _ _ _ _ _ W2) as (f & s2 & R1 & W3). destruct (find_key_run key c0 s 0 Lv) as (r & es & E & _). rewrite E in R1.
      injection R1 as <- <-. destruct r as [q|]; [injection W3 as <- <-; split; [apply kept_refl; reflexivity|exact Lv]|].
      cbv zeta in W3. destruct ((u32 (o_size o0 + 1) =? 0) || (v_maxfields s <? u32 (o_size o0 + 1)))%bool.
      - destruct (bind_inv _ _ _ _ _ W3) as (u & s3 & R3 & W4).
        assert (kept (set_errs (v_errs s ++ es) s) s3 /\ live_ctx s3 (v_cur s3)) as [K3 L3].
        { destruct u. split; [refine (wr_kept (set_errs (v_errs s ++ es) s) ob o0 _ _ G _ R3); reflexivity|]. unfold wr_obj in R3. change (get_obj (set_errs (v_errs s ++ es) s) ob) with (get_obj s ob) in R3.
          rewrite G in R3. injection R3 as <-. exact Lv. }
        destruct (bind_inv _ _ _ _ _ W4) as (u2 & s4 & R4 & W5). injection W5 as <- <-.
        assert (v_objs s4 = v_objs s3 /\ live_ctx s4 (v_cur s4)) as [K4 L4].
        { destruct (add_error_ok s3 (bs "Reached object field count limit.") L3) as (e & Ee). rewrite Ee in R4. injection R4 as _ <-. split; [reflexivity|exact L3]. }
        split; [|exact L4]. eapply kept_trans; [|apply kept_refl; exact K4]. exact K3.
      - destruct (bind_inv _ _ _ _ _ W3) as (u & s3 & R3 & W4). injection W4 as <- <-. destruct u. split; [refine (wr_kept (set_errs (v_errs s ++ es) s) ob o0 _ _ G _ R3); reflexivity|].
        unfold wr_obj in R3. change (get_obj (set_errs (v_errs s ++ es) s) ob) with (get_obj s ob) in R3.
        rewrite G in R3. injection R3 as <-. exact Lv. }
    destruct p as [q|]; [|injection W as <-; exact K1]. apply (kept_trans _ _ _ K1). unfold el_set in W.
    destruct (bind_inv _ _ _ _ _ W) as (o & s2 & R1 & W1).
    unfold rd_obj in R1. destruct (get_obj s1 ob) as [o0|] eqn:G; [|discriminate]. injection R1 as <- <-.
    destruct (bind_inv _ _ _ _ _ W1) as (ch & s2 & R1 & W2). unfold lift in R1. destruct (rd _ _) as [c0|]; [|discriminate]. injection R1 as <- <-.
    destruct (bind_inv _ _ _ _ _ W2) as (kv & s2 & R1 & W3). unfold lift in R1. destruct (rd _ _) as [kv0|]; [|discriminate]. injection R1 as <- <-.
    refine (wr_kept _ ob o0 _ _ G _ W3). reflexivity.
Qed.

(** a.b = v. *)
Lemma field_set_run s mm st ob o key v : obj_inv s mm -> get_obj s ob = Some o -> ordinary s key ->
  v_type v = T_NIL \/ (o_size o < v_maxfields s /\ o_size o + 1 < W32) \/ mm ob key <> vnil ->
  stack_is s (st ++ [v; vobj ob; key]) ->
  exists tb s', op_field_set s = Ok (tt, s') /\ restacked (set_objs tb s) (st ++ [v]) s' /\
    obj_inv (set_objs tb s) (mem_write mm ob key (if v_type v =? T_NIL then vnil else v)) /\ kept s (set_objs tb s).
Proof.
  intros I G Ky L S. rewrite snoc3 in S. unfold op_field_set. pose proof (rs_start _ _ S) as R. kpop R. kpop R. kpop R.
  cbn [v_type vobj v_data]. change (negb (T_OBJ =? T_OBJ)) with false. cbv iota. unfold mbind at 1, self, gets.
  rewrite (rs_get_obj _ _ _ _ _ R), G.
  pose proof (obj_inv_rs _ _ _ _ _ I R) as It.
  assert (get_obj t1 ob = Some o) as Gt by (rewrite (rs_get_obj _ _ _ _ _ R); exact G).
  pose proof (rs_ordinary _ _ _ _ _ R Ky) as Kt.
  assert (exists t2, write_field ob key v t1 = Ok (tt, t2) /\
    obj_inv t2 (mem_write mm ob key (if v_type v =? T_NIL then vnil else v)) /\ (exists tb, t2 = set_objs tb t1)) as (t2 & E2 & I2 & (tb & Et2)).
  { destruct (Z.eqb_spec (v_type v) T_NIL) as [Tv|Tv].
    - destruct (clear_entry_ok t1 mm ob o key It Gt Kt) as (t2 & E2 & _ & I2 & F2). exists t2. split; [|auto].
      unfold write_field. rewrite Tv. exact E2.
    - destruct (write_entry_ok t1 mm ob o key v It Gt Kt Tv) as (t2 & E2 & _ & I2 & F2); [|exists t2; auto].
      destruct R as (c & k & _ & _ & _ & _ & ->). destruct L as [L|L]; [contradiction|].
      assert (v_maxfields (with_stack k s) = v_maxfields s) as -> by (unfold with_stack, upd_cur; destruct (znth _ _) as [[cc|]|]; reflexivity).
      exact L. }
  fold (write_field ob key v). rewrite (bind_run _ _ _ _ _ E2).
  assert (rs (set_objs tb s) st (0 + 1 + 1 + 1) t2) as R2.
  { destruct R as (c & k & Hc & Wk & Ck & Nk & Ek). exists c, k. split; [exact Hc|]. split; [exact Wk|]. split; [exact Ck|]. split; [exact Nk|].
    rewrite Et2, Ek. unfold with_stack, upd_cur. vs. rewrite Hc. reflexivity. }
  destruct (push_rs _ _ v _ _ R2 ltac:(lia)) as (t3 & E3 & R3). exists tb, t3. split; [exact E3|].
  split; [eapply rs_restacked; eauto|]. split; [exact (obj_inv_back _ _ _ _ _ I2 R2)|].
  assert (kept t1 t2) as K by (apply (write_kept t1 ob key v t2); [apply (oi_live _ _ It)|exact E2]).
  intro j. specialize (K j). rewrite (rs_get_obj _ _ _ _ _ R) in K. rewrite Et2 in K. exact K.
Qed.

(** len(a). *)
Lemma len_run s st ob o : get_obj s ob = Some o -> stack_is s (st ++ [vobj ob]) ->
  exists s', op_len s = Ok (tt, s') /\ restacked s (st ++ [vint (o_size o)]) s'.
Proof.
  intros G S. unfold op_len. pose proof (rs_start _ _ S) as R. kpop R.
  destruct (rs_slot _ _ _ _ R ltac:(lia)) as (j & t1 & E1 & R1). rewrite (bind_run _ _ _ _ _ E1).
  cbn [v_type vobj v_data]. change (negb (T_OBJ =? T_OBJ)) with false. cbv iota.
  assert (get_obj_size (vobj ob) t1 = Ok (o_size o, t1)) as Z1.
  { assert (get_obj t1 ob = Some o) as Gt by (rewrite (rs_get_obj _ _ _ _ _ R1); exact G).
    unfold get_obj_size, mbind, gets, obj_of_value, rd_obj, vobj, ret. cbn [v_type v_data].
    rewrite Z.eqb_refl, Gt, Gt. reflexivity. }
  fold (vobj ob). rewrite (bind_run _ _ _ _ _ Z1).
  destruct (rs_set _ _ _ _ (zlen st) (vint (o_size o)) R1) as (t2 & E2 & R2).
  { rewrite zlen_app, zlen_one. pose proof (zlen_nonneg st). lia. }
  rewrite zupd_last in R2. exists t2. split; [exact E2|]. eapply rs_restacked; eauto.
Qed.

(** object(): the slot is pushed first, then the object is made. *)
Lemma can_push_rs s l : stack_is s l -> can_push s -> exists j t, push_slot s = Ok (zlen l, t) /\ rs s (l ++ [j]) 0 t.
Proof.
  intros (c & H & W & C) (c' & H' & P). rewrite H in H'. injection H' as <-.
  assert (at_stack s (c_stack c)) as A by (exists c; auto).
  assert (room s (c_stack c) = true) as Rm.
  { unfold room. destruct P as [P|[P Q]].
    - apply Z.ltb_lt in P. rewrite P. reflexivity.
    - apply Z.leb_le in P, Q. rewrite P, Q. apply orb_true_r. }
  pose proof (contents_len _ W) as CL. rewrite C in CL.
  rewrite (push_slot_room _ _ A W Rm), <- CL.
  pose proof (grown_wf _ _ W Rm) as Wg. pose proof (grown_size (c_stack c)) as Sg. pose proof (kw_size _ Wg) as Zg. pose proof (kw_len _ Wg) as Lg.
  pose proof (zlen_nonneg l) as Z0.
  destruct (znth_in_range (k_vals (grown (c_stack c))) (zlen l)) as [j J]; [lia|].
  exists j. eexists. split; [reflexivity|]. exists c, (grown (c_stack c)). split; [exact H|]. split; [exact Wg|]. split; [|split; [lia|reflexivity]].
  unfold contents. rewrite Sg, <- CL. rewrite (firstn_snoc _ _ _ J).
  pose proof (grown_contents _ W) as GC. rewrite C, <- CL in GC. rewrite GC. reflexivity.
Qed.

Lemma create_run s mm st : obj_inv s mm -> stack_is s st -> can_push s -> (exists i, 0 <= i < W31 /\ get_obj s i = None) ->
  exists i tb n s', op_create_object s = Ok (tt, s') /\ restacked (set_newcount n (set_objs tb s)) (st ++ [vobj i]) s' /\
    get_obj s i = None /\ 0 <= i < W31 /\ (forall j, tab_get tb j = if j =? i then Some (new_obj i) else get_obj s j) /\
    obj_inv (set_newcount n (set_objs tb s)) (fun o k => if o =? i then vnil else mm o k).
Proof.
  intros I S P (q & Rq & Fq). unfold op_create_object. destruct (can_push_rs _ _ S P) as (j & t & E & R).
  rewrite (bind_run _ _ _ _ _ E). pose proof (zlen_nonneg st) as Z0.
  assert (zlen (st ++ [j]) = zlen st + 1) as Zl by (rewrite zlen_app, zlen_one; lia).
  destruct (rs_at _ _ _ _ R) as (k & A & W & C & N). pose proof (contents_len _ W) as CL. rewrite C in CL.
  pose proof (kw_len _ W) as Ln. pose proof (kw_size _ W) as Sz.
  destruct (get_slot_ok t k (zlen st) A ltac:(lia)) as (old & _ & Gs). rewrite (bind_run _ _ _ _ _ Gs).
  destruct (rs_set _ _ _ _ (zlen st) (mkV T_OBJ (v_data old)) R ltac:(lia)) as (t1 & E1 & R1).
  rewrite (bind_run _ _ _ _ _ E1). rewrite zupd_last in R1.
  pose proof (obj_inv_rs _ _ _ _ _ I R1) as I1.
  destruct (create_object_ok t1 (oi_tab _ _ I1) (oi_live _ _ I1)) as (i & t2 & E2 & Cr).
  pose proof (create_obj_inv _ _ _ _ I1 E2) as I2.
  rewrite (bind_run _ _ _ _ _ E2).
  destruct Cr as [(tb & n & Et2 & Wt & Fr & Ri & Gt)|(_ & _ & Full)].
  2:{ destruct (Full q Rq) as (o & Ho). rewrite (rs_get_obj _ _ _ _ _ R1) in Ho. congruence. }
  assert (rs (set_newcount n (set_objs tb s)) (st ++ [mkV T_OBJ (v_data old)]) 0 t2) as R2.
  { destruct R1 as (c1 & k1 & Hc & Wk & Ck & Nk & Ek). exists c1, k1. split; [exact Hc|]. split; [exact Wk|]. split; [exact Ck|]. split; [exact Nk|].
    rewrite Et2, Ek. unfold with_stack, upd_cur. vs. rewrite Hc. reflexivity. }
  destruct (rs_set _ _ _ _ (zlen st) (vobj i) R2) as (t3 & E3 & R3).
  { rewrite zlen_app, zlen_one. lia. }
  rewrite zupd_last in R3. exists i, tb, n, t3. split; [exact E3|]. split; [eapply rs_restacked; eauto|].
  rewrite (rs_get_obj _ _ _ _ _ R1) in Fr. split; [exact Fr|]. split; [exact Ri|]. split.
  - intro x. rewrite Gt. rewrite (rs_get_obj _ _ _ _ _ R1). reflexivity.
  - exact (obj_inv_back _ _ _ _ _ I2 R2).
Qed.

(** ** Floats *)

Lemma float_bin_run s st x b y : stack_is s (st ++ [mkV T_FLOAT x; b]) -> as_float s b y ->
  (exists s', op_add s = Ok (tt, s') /\ restacked s (st ++ [mkV T_FLOAT (f_add x y)]) s') /\
  (exists s', op_subtract s = Ok (tt, s') /\ restacked s (st ++ [mkV T_FLOAT (f_sub x y)]) s') /\
  (exists s', op_multiply s = Ok (tt, s') /\ restacked s (st ++ [mkV T_FLOAT (f_mul x y)]) s') /\
  (exists s', op_divide s = Ok (tt, s') /\ restacked s (st ++ [mkV T_FLOAT (f_div x y)]) s').
Proof.
  intros S Y. rewrite snoc2 in S.
  split; [|split; [|split]]; unfold op_add, op_subtract, op_multiply, op_divide; pose proof (rs_start _ _ S) as R; kpop R; kpop R;
  pose proof (as_float_run _ _ _ _ Y (rs_strs _ _ _ _ R)) as E;
  cbv zeta; cbn [v_type v_data]; change (T_FLOAT =? T_INT) with false; change (T_FLOAT =? T_FLOAT) with true; cbv iota;
  rewrite (bind_run _ _ _ _ _ E); unfold push_float;
  (match goal with |- exists s', push ?v _ = _ /\ _ => destruct (push_rs _ _ v _ _ R ltac:(lia)) as (t1 & E1 & R1) end);
  exists t1; (split; [exact E1|]); eapply rs_restacked; eauto.
Qed.

Lemma float_neg_run s st x : stack_is s (st ++ [mkV T_FLOAT x]) ->
  exists s', op_negate s = Ok (tt, s') /\ restacked s (st ++ [mkV T_FLOAT (f_neg x)]) s'.
Proof.
  intro S. pose proof (rs_start _ _ S) as R. unfold op_negate. kpop R. cbv zeta. cbn [v_type v_data].
  change (T_FLOAT =? T_INT) with false. change (T_FLOAT =? T_FLOAT) with true. cbv iota. unfold push_float.
  destruct (push_rs _ _ (mkV T_FLOAT (f_neg x)) _ _ R ltac:(lia)) as (t1 & E1 & R1).
  exists t1. split; [exact E1|]. eapply rs_restacked; eauto.
Qed.
