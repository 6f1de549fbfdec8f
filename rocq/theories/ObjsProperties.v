(** * Properties C13, C14, C15: objects as finite maps *)
From Verif Require Import Base BaseFacts State StrModel ValueModel ObjsModel StackModel VmModel.
From Verif Require Import StrSpec ValueSpec StackSpec OpSpec ObjsSpec StackProofs ObjsProofs StrProperties.

(** The operand stack of the running context, bottom first. *)
Definition stack_is (s : vm) (l : list value) : Prop :=
  exists k, at_stack s k /\ kwf k /\ contents k = l.

(** ** C13 *)

(** Reading gives the value most recently written under an equal key. *)
Theorem C13_read s m ob key :
  obj_history s m -> get_obj s ob <> None -> ordinary s key ->
  read_field ob key s = Ok (m ob key, s).
Proof.
  intros H G Ky. destruct (get_obj s ob) as [o|] eqn:E; [|contradiction].
  eapply read_field_ok; eauto. apply obj_history_inv. auto.
Qed.
Print Assumptions C13_read.

(** Deleting is always possible, never reports an error, and forgets
    exactly that key. *)
Theorem C13_delete s m ob key :
  obj_history s m -> get_obj s ob <> None -> ordinary s key ->
  exists s', write_field ob key vnil s = Ok (tt, s') /\ v_errs s' = v_errs s /\
             obj_history s' (mem_write m ob key vnil).
Proof.
  intros H G Ky. destruct (get_obj s ob) as [o|] eqn:E; [|contradiction].
  destruct (clear_entry_ok s m ob o key (obj_history_inv _ _ H) E Ky) as (s' & R & Er & _).
  exists s'. split; [exact R|]. split; [exact Er|].
  apply (oh_write s m ob key vnil s'); auto. congruence.
Qed.
Print Assumptions C13_delete.

(** Writing within the limit, or under a key that already has a value, never
    reports an error. *)
Theorem C13_write s m ob key v n :
  obj_history s m -> get_obj_size (vobj ob) s = Ok (n, s) -> get_obj s ob <> None -> ordinary s key ->
  v_type v <> T_NIL ->
  (n < v_maxfields s /\ n + 1 < W32) \/ m ob key <> vnil ->
  exists s', write_field ob key v s = Ok (tt, s') /\ v_errs s' = v_errs s /\
             obj_history s' (mem_write m ob key v).
Proof.
  intros H Z G Ky Nv L. destruct (get_obj s ob) as [o|] eqn:E; [|contradiction].
  assert (n = o_size o) as ->.
  { unfold get_obj_size, mbind, gets, obj_of_value, rd_obj, vobj, ret in Z. cbn [v_type v_data] in Z.
    rewrite Z.eqb_refl, E, E in Z. congruence. }
  destruct (write_entry_ok s m ob o key v (obj_history_inv _ _ H) E Ky Nv L) as (s' & R & Er & _).
  exists s'. split; [exact R|]. split; [exact Er|].
  pose proof (oh_write s m ob key v s' H) as Q. destruct (Z.eqb_spec (v_type v) T_NIL); [contradiction|].
  apply Q; auto. congruence.
Qed.
Print Assumptions C13_write.

(** *** The same through the two instructions *)

Lemma with_stack_fields k s : v_strs (with_stack k s) = v_strs s /\ v_byhash (with_stack k s) = v_byhash s /\
  v_objs (with_stack k s) = v_objs s /\ v_maxfields (with_stack k s) = v_maxfields s /\
  v_errs (with_stack k s) = v_errs s /\ v_cur (with_stack k s) = v_cur s.
Proof. unfold with_stack, upd_cur. destruct (znth _ _) as [[c|]|]; auto 10. Qed.

Lemma oh_with_stack s m k k' : obj_history s m -> at_stack s k -> obj_history (with_stack k' s) m.
Proof.
  intros H A. destruct (with_stack_fields k' s) as (E1 & E2 & E3 & _).
  eapply oh_other; eauto. pose proof (with_stack_at k k' s A) as (c & Hc & _). eauto.
Qed.

Lemma put_obj_at ob o s k : at_stack s k -> at_stack (put_obj ob o s) k.
Proof. auto. Qed.

(** [a.b] pushes the value last written under [b]. *)
Theorem C13_instruction_get host s m st ob key :
  obj_history s m -> get_obj s ob <> None -> ordinary s key ->
  stack_is s (st ++ [vobj ob; key]) ->
  exists s', opcode host O_FIELDGET s = Ok (tt, s') /\ stack_is s' (st ++ [m ob key]) /\
             obj_history s' m /\ v_errs s' = v_errs s.
Proof.
  intros H G Ky (k & A & W & C).
  replace (st ++ [vobj ob; key]) with ((st ++ [vobj ob]) ++ [key]) in C by (rewrite <- app_assoc; reflexivity).
  destruct (pop_run s k _ key A W C) as (E1 & W1 & C1 & Z1).
  pose proof (with_stack_at k (shrunk k 1) s A) as A1.
  destruct (pop_run _ _ _ _ A1 W1 C1) as (E2 & W2 & C2 & Z2). rewrite with_stack_twice, shrunk_shrunk in E2.
  change (1 + 1) with 2 in E2. rewrite shrunk_shrunk in W2, C2. change (1 + 1) with 2 in W2, C2.
  pose proof (with_stack_at k (shrunk k 2) s A) as A2.
  pose proof (kw_size _ W) as Sz. 
  assert (k_size (shrunk k 2) < k_cap (shrunk k 2)) as Sp by (cbn; lia).
  pose proof (push_slot_spare _ _ A2 W2 Sp) as E3. rewrite with_stack_twice in E3.
  remember (shrunk (shrunk k 2) (-1)) as k3 eqn:Ek3.
  pose proof (with_stack_at k k3 s A) as A3.
  pose proof (oh_with_stack s m k k3 H A) as H3.
  destruct (with_stack_fields k3 s) as (F1 & F2 & F3 & _).
  destruct (fill_spare (shrunk k 2) (m ob key) W2 Sp) as [Wf Cf].
  change (opcode host O_FIELDGET) with (op_field_get true). unfold op_field_get. rewrite (bind_run _ _ _ _ _ E1). cbv iota. rewrite (bind_run _ _ _ _ _ E2).
  cbn [v_type vobj]. change (negb (T_OBJ =? T_OBJ)) with false. cbv iota.
  unfold self. unfold mbind at 1, gets at 1. cbv beta iota. cbn [v_data vobj].
  destruct (get_obj (with_stack (shrunk k 2) s) ob) eqn:Go.
  2:{ exfalso. destruct (with_stack_fields (shrunk k 2) s) as (_ & _ & X & _). unfold get_obj in *. congruence. }
  rewrite (bind_run _ _ _ _ _ E3).
  assert (ordinary (with_stack k3 s) key) as Ky3.
  { unfold ordinary, get_str, get_str_entry in *. rewrite F1. auto. }
  assert (get_obj (with_stack k3 s) ob <> None) as G3 by (unfold get_obj in *; rewrite F3; auto).
  pose proof (C13_read _ _ _ _ H3 G3 Ky3) as R. unfold read_field in R.
  destruct (bind_inv _ _ _ _ _ R) as (p & s1 & P1 & P2).
  rewrite (bind_run _ _ _ _ _ P1).
  assert (set_slot (k_size (shrunk k 2)) (m ob key) (with_stack k3 s) =
          Ok (tt, with_stack (poke k3 (k_size (shrunk k 2)) (m ob key)) s)) as Fin.
  { rewrite (set_slot_ok _ k3); [rewrite with_stack_twice; auto|auto|].
    subst k3. pose proof (kw_len _ W). pose proof (kw_size _ W2). cbn in *. lia. }
  exists (with_stack (poke k3 (k_size (shrunk k 2)) (m ob key)) s).
  split; [|split; [|split]].
  - destruct p as [q|].
    + rewrite (bind_run _ _ _ _ _ P2). exact Fin.
    + assert (s1 = with_stack k3 s /\ vnil = m ob key) as [-> Q] by (unfold ret in P2; split; congruence).
      rewrite Q. exact Fin.
  - exists (poke k3 (k_size (shrunk k 2)) (m ob key)). split; [eapply with_stack_at; eauto|].
    subst k3. split; [exact Wf|]. rewrite Cf, C2. reflexivity.
  - eapply oh_with_stack; eauto.
  - apply with_stack_fields.
Qed.
Print Assumptions C13_instruction_get.

(** [a.b = v] records [v] under [b] (deleting when [v] is nil) and leaves [v]
    on the stack. *)
Theorem C13_instruction_set host s m st ob key v n :
  obj_history s m -> get_obj s ob <> None -> ordinary s key ->
  get_obj_size (vobj ob) s = Ok (n, s) ->
  v_type v = T_NIL \/ (n < v_maxfields s /\ n + 1 < W32) \/ m ob key <> vnil ->
  stack_is s (st ++ [v; vobj ob; key]) ->
  exists s', opcode host O_FIELDSET s = Ok (tt, s') /\ stack_is s' (st ++ [v]) /\
             obj_history s' (mem_write m ob key (if v_type v =? T_NIL then vnil else v)) /\ v_errs s' = v_errs s.
Proof.
  intros H G Ky Sz0 Lim (k & A & W & C).
  replace (st ++ [v; vobj ob; key]) with (((st ++ [v]) ++ [vobj ob]) ++ [key]) in C by (rewrite <- !app_assoc; reflexivity).
  destruct (pop_run s k _ key A W C) as (E1 & W1 & C1 & Z1).
  pose proof (with_stack_at k (shrunk k 1) s A) as A1.
  destruct (pop_run _ _ _ _ A1 W1 C1) as (E2 & W2 & C2 & Z2). rewrite with_stack_twice, shrunk_shrunk in E2.
  change (1 + 1) with 2 in E2. rewrite shrunk_shrunk in W2, C2. change (1 + 1) with 2 in W2, C2.
  pose proof (with_stack_at k (shrunk k 2) s A) as A2.
  destruct (pop_run _ _ _ _ A2 W2 C2) as (E3 & W3 & C3 & Z3). rewrite with_stack_twice, shrunk_shrunk in E3.
  change (2 + 1) with 3 in E3. rewrite shrunk_shrunk in W3, C3. change (2 + 1) with 3 in W3, C3.
  pose proof (with_stack_at k (shrunk k 3) s A) as A3.
  pose proof (kw_size _ W) as Sz. 
  assert (k_size (shrunk k 3) < k_cap (shrunk k 3)) as Sp by (cbn; lia).
  pose proof (oh_with_stack s m k (shrunk k 3) H A) as H3.
  destruct (with_stack_fields (shrunk k 3) s) as (F1 & F2 & F3 & F4 & F5 & _).
  remember (with_stack (shrunk k 3) s) as s3 eqn:Es3.
  assert (ordinary s3 key) as Ky3.
  { unfold ordinary, get_str, get_str_entry in *. rewrite F1. auto. }
  assert (get_obj s3 ob = get_obj s ob) as G3 by (unfold get_obj in *; rewrite F3; auto).
  destruct (get_obj s ob) as [o|] eqn:Go; [|contradiction].
  assert (n = o_size o) as En.
  { unfold get_obj_size, mbind, gets, obj_of_value, rd_obj, vobj, ret in Sz0. cbn [v_type v_data] in Sz0.
    rewrite Z.eqb_refl, Go, Go in Sz0. congruence. }
  assert (exists s4, write_field ob key v s3 = Ok (tt, s4) /\ v_errs s4 = v_errs s3 /\ (exists t, s4 = set_objs t s3)) as (s4 & R & Er & (t & Et)).
  { destruct (Z.eqb_spec (v_type v) T_NIL) as [Q|Q].
    - destruct (clear_entry_ok s3 m ob o key (obj_history_inv _ _ H3) G3 Ky3) as (s' & R & Er & _ & T).
      exists s'. split; [|auto]. unfold write_field. rewrite Q. exact R.
    - destruct (write_entry_ok s3 m ob o key v (obj_history_inv _ _ H3) G3 Ky3 Q) as (s' & R & Er & _ & T); eauto.
      rewrite F4. destruct Lim as [|[|]]; subst; auto. }
  change (opcode host O_FIELDSET) with op_field_set. unfold op_field_set. rewrite (bind_run _ _ _ _ _ E1), (bind_run _ _ _ _ _ E2), (bind_run _ _ _ _ _ E3).
  cbn [v_type vobj]. change (negb (T_OBJ =? T_OBJ)) with false. cbv iota.
  unfold self. unfold mbind at 1, gets at 1. cbv beta iota. cbn [v_data vobj]. rewrite G3.
  fold (write_field ob key v). rewrite (bind_run _ _ _ _ _ R).
  assert (at_stack s4 (shrunk k 3)) as A4 by (subst s4; exact A3).
  rewrite (push_spare s4 _ v A4 W3 Sp). eexists. split; [reflexivity|].
  destruct (fill_spare (shrunk k 3) v W3 Sp) as [Wf Cf]. split; [|split].
  - eexists. split; [eapply with_stack_at; eauto|]. split; [exact Wf|]. rewrite Cf, C3. reflexivity.
  - eapply oh_with_stack; eauto. apply (oh_write s3 m ob key v s4); auto. congruence.
  - destruct (with_stack_fields (poke (shrunk (shrunk k 3) (-1)) (k_size (shrunk k 3)) v) s4) as (_ & _ & _ & _ & X & _).
    congruence.
Qed.
Print Assumptions C13_instruction_set.

(** ** C14 *)

Lemma kdistinct_app a : forall b, kdistinct a -> kdistinct b ->
  Forall (fun kv => alook (fst kv) b = None) a -> kdistinct (a ++ b).
Proof.
  induction a as [|[k v] r IH]; intros b Da Db F; cbn [app kdistinct]; auto.
  destruct Da as [D1 D2]. inversion F; subst. split; [|apply IH; auto].
  apply alook_none_forall. apply Forall_app. split; apply alook_none_forall; auto.
Qed.

Lemma kdistinct_concat s bks : str_wf (v_strs s) (v_byhash s) -> forall b0,
  (forall b c, znth bks b = Some c -> keys_ok s c /\ kdistinct c /\ Forall (fun kv => key_bucket s (fst kv) = b0 + b) c) ->
  kdistinct (concat bks) /\ keys_ok s (concat bks) /\ Forall (fun kv => b0 <= key_bucket s (fst kv)) (concat bks).
Proof.
  intro W. induction bks as [|c r IH]; intros b0 H; cbn [concat].
  - split; [exact I|]. split; constructor.
  - destruct (IH (b0 + 1)) as (D & K & B).
    { intros b c' Hc. pose proof (znth_some_range _ _ _ Hc). destruct (H (b + 1) c') as (X & Y & Z).
      - rewrite znth_cons_S by lia. replace (b + 1 - 1) with b by lia. auto.
      - sp; auto. eapply Forall_impl; [|exact Z]. cbn. intros. lia. }
    destruct (H 0 c) as (X & Y & Z); [apply znth_cons_0|]. rewrite Z.add_0_r in Z.
    sp.
    + apply kdistinct_app; auto. unfold keys_ok in *. rewrite Forall_forall in *. intros x Hx.
      apply alook_none_forall. apply Forall_forall. intros y Hy.
      destruct (key_eq (fst x) (fst y)) eqn:E; auto. exfalso.
      pose proof (key_bucket_eq s (fst x) (fst y) W (X _ Hx) (K _ Hy) E). pose proof (Z _ Hx). pose proof (B _ Hy). cbn in *. lia.
    + apply Forall_app. auto.
    + apply Forall_app. split; eapply Forall_impl; eauto; cbn; intros; lia.
Qed.

Lemma kdistinct_index s l : keys_ok s l -> kdistinct l -> forall i j a b,
  znth (map fst l) i = Some a -> znth (map fst l) j = Some b -> key_eq a b = true -> i = j.
Proof.
  induction l as [|[k v] r IH]; intros K D i j a b Hi Hj E.
  - apply znth_some_range in Hi. unfold zlen in Hi. cbn in Hi. lia.
  - inversion K as [|? ? K1 K2]; subst. destruct D as [D1 D2]. cbn [fst] in K1. cbn [map fst] in *.
    pose proof (znth_some_range _ _ _ Hi). pose proof (znth_some_range _ _ _ Hj).
    assert (forall x i, znth (map fst r) i = Some x -> key_eq k x = false /\ ordinary s x) as Q.
    { intros x i' Hx. apply alook_none_forall in D1. rewrite Forall_forall in D1.
      assert (In x (map fst r)) as Ix by (apply In_znth; eauto). apply in_map_iff in Ix. destruct Ix as (y & <- & Iy).
      split; [apply D1; auto|]. unfold keys_ok in K2. rewrite Forall_forall in K2. apply K2. auto. }
    destruct (Z.eq_dec i 0) as [Ei|Ei], (Z.eq_dec j 0) as [Ej|Ej]; [lia|..].
    + subst i. rewrite znth_cons_0 in Hi. injection Hi as <-. rewrite znth_cons_S in Hj by lia.
      destruct (Q _ _ Hj). congruence.
    + subst j. rewrite znth_cons_0 in Hj. injection Hj as <-. rewrite znth_cons_S in Hi by lia.
      destruct (Q _ _ Hi) as [Q1 Q2]. rewrite key_eq_sym in E by (eapply ordinary_not_nan; eauto). congruence.
    + rewrite znth_cons_S in Hi, Hj by lia. assert (i - 1 = j - 1); [|lia]. eapply IH; eauto.
Qed.

(** nkxVmObjectGetSize is the number of distinct keys. *)
Theorem C14_size s m ob :
  obj_history s m -> get_obj s ob <> None ->
  exists ks, keys_of s m ob ks /\ get_obj_size (vobj ob) s = Ok (zlen ks, s).
Proof.
  intros H G. pose proof (obj_history_inv _ _ H) as I. destruct (get_obj s ob) as [o|] eqn:E; [|contradiction].
  pose proof (oi_objs _ _ I _ _ E) as O.
  destruct (kdistinct_concat s (o_buckets o) (oi_str _ _ I) 0) as (D & K & _).
  { intros b c Hc. destruct (oo_keys _ _ _ O _ _ Hc) as (X & Y & Z & _). auto. }
  fold (entries o) in *. exists (map fst (entries o)). split; [split; [|split]|].
  - apply keys_ok_map. auto.
  - eapply kdistinct_index; eauto.
  - intros k Hk. rewrite (oo_look _ _ _ O k Hk).
    pose proof (bucket_of_ok _ _ _ _ O (key_bucket_range s k)) as NB.
    destruct (oo_keys _ _ _ O _ _ NB) as (Kk & Kd & Kb & Kv). split.
    + intro Hn. destruct (kfind k (bucket_of o (key_bucket s k)) 0) as [p|] eqn:F.
      * destruct (kfind_some _ _ _ _ F) as (k' & v' & N & Ek & _). exists k'. split; auto.
        apply in_map_iff. exists (k', v'). split; auto. unfold entries. apply in_concat.
        exists (bucket_of o (key_bucket s k)). split; apply In_znth; eauto.
      * apply kfind_none in F. rewrite F in Hn. congruence.
    + intros (k' & Ik & Ek). apply in_map_iff in Ik. destruct Ik as ([k1 v1] & E1 & Ie). cbn [fst] in E1. subst k1.
      unfold entries in Ie. apply in_concat in Ie. destruct Ie as (c & Ic & Ie). apply In_znth in Ic. destruct Ic as [b Hb].
      destruct (oo_keys _ _ _ O _ _ Hb) as (Ck & _ & Cb & _).
      unfold keys_ok in Ck. rewrite Forall_forall in Ck, Cb. pose proof (Ck _ Ie) as Ok'. pose proof (Cb _ Ie) as Eb. cbn [fst] in *.
      rewrite <- (key_bucket_eq s k k' (oi_str _ _ I) Hk Ok' Ek) in Eb. subst b.
      assert (c = bucket_of o (key_bucket s k)) by congruence. subst c.
      destruct (alook k (bucket_of o (key_bucket s k))) as [v|] eqn:Al.
      * pose proof (proj1 (kfind_none k (bucket_of o (key_bucket s k)) 0)) as KN.
        destruct (kfind k (bucket_of o (key_bucket s k)) 0) as [p|] eqn:F; [|rewrite KN in Al; congruence].
        destruct (kfind_some _ _ _ _ F) as (k2 & v2 & N & _ & Al2). assert (v2 = v) by congruence. subst v2.
        rewrite Forall_forall in Kv. intro X. apply (Kv (k2, v)); [apply In_znth; eauto|]. cbn. rewrite X. reflexivity.
      * exfalso. apply alook_none_forall in Al. rewrite Forall_forall in Al. specialize (Al _ Ie). cbn in Al. congruence.
  - unfold get_obj_size, mbind, gets, obj_of_value, rd_obj, vobj, ret. cbn [v_type v_data].
    rewrite Z.eqb_refl, E, E. rewrite (oo_size _ _ _ O). unfold zlen. rewrite map_length. reflexivity.
Qed.
Print Assumptions C14_size.

(** len(a) pushes that number. *)
Theorem C14_len host s m st ob :
  obj_history s m -> get_obj s ob <> None -> stack_is s (st ++ [vobj ob]) ->
  exists s' ks, opcode host O_LEN s = Ok (tt, s') /\ keys_of s m ob ks /\ stack_is s' (st ++ [vint (zlen ks)]) /\
    obj_history s' m.
Proof.
  intros H G (k & A & W & C). destruct (C14_size s m ob H G) as (ks & K & Z).
  destruct (pop_run s k _ _ A W C) as (E1 & W1 & C1 & Z1). pose proof (kw_size _ W) as Sz.
  assert (k_size (shrunk k 1) < k_cap (shrunk k 1)) as Sp by (cbn; lia).
  pose proof (with_stack_at k (shrunk k 1) s A) as A1.
  pose proof (push_slot_spare _ _ A1 W1 Sp) as E2. rewrite with_stack_twice in E2.
  remember (shrunk (shrunk k 1) (-1)) as k2 eqn:Ek2. pose proof (with_stack_at k k2 s A) as A2.
  destruct (fill_spare (shrunk k 1) (vint (zlen ks)) W1 Sp) as [Wf Cf].
  assert (get_obj_size (vobj ob) (with_stack k2 s) = Ok (zlen ks, with_stack k2 s)) as Z2.
  { destruct (with_stack_fields k2 s) as (_ & _ & F3 & _).
    destruct (get_obj s ob) as [o|] eqn:Go; [|contradiction].
    assert (get_obj (with_stack k2 s) ob = Some o) as G2 by (unfold get_obj in *; rewrite F3; auto).
    unfold get_obj_size, mbind, gets, obj_of_value, rd_obj, vobj, ret in *. cbn [v_type v_data] in *.
    rewrite Z.eqb_refl in *. rewrite Go, Go in Z. rewrite G2, G2. congruence. }
  change (opcode host O_LEN) with op_len. unfold op_len. rewrite (bind_run _ _ _ _ _ E1), (bind_run _ _ _ _ _ E2).
  cbn [v_type vobj]. change (negb (T_OBJ =? T_OBJ)) with false. cbv iota.
  rewrite (bind_run _ _ _ _ _ Z2). rewrite (set_slot_ok _ k2 _ _ A2).
  2:{ subst k2. pose proof (kw_len _ W). pose proof (kw_size _ W1). cbn in *. lia. }
  rewrite with_stack_twice. eexists _, ks. split; [reflexivity|]. split; [auto|]. split.
  - eexists. split; [eapply with_stack_at; eauto|]. subst k2. split; [exact Wf|]. rewrite Cf, C1. reflexivity.
  - eapply oh_with_stack; eauto.
Qed.
Print Assumptions C14_len.

(** ** C15 *)

(** A limit of one field, one object, one field written. *)
Definition ex_o1 := ex_run create_object (set_maxfields 1 vm_init).
Definition ex_o2 := ex_run (write_field 0 (vint 7) (vint 70)) ex_o1.
Definition ex_o3 := ex_run (write_field 0 (vint 23) (vint 71)) ex_o2.   (* same bucket as 7; refused *)

Lemma ex_o2_history : obj_history ex_o2
  (mem_write (fun o k => if o =? 0 then vnil else vnil) 0 (vint 7) (vint 70)).
Proof.
  change (vint 70) with (if v_type (vint 70) =? T_NIL then vnil else vint 70).
  eapply (oh_write ex_o1 _ 0 (vint 7) (vint 70)).
  - eapply (oh_create (set_maxfields 1 vm_init) (fun _ _ => vnil)).
    + apply oh_init; try reflexivity. eexists. vm_compute. reflexivity.
    + vm_compute. reflexivity.
  - vm_compute. discriminate.
  - split; [vm_compute; split; congruence|left; reflexivity].
  - vm_compute. reflexivity.
  - vm_compute. reflexivity.
Qed.

(** As stated the property is false: the new element stays in the object. *)
Theorem C15_limit_refuted :
  exists s m ob key v s',
    obj_history s m /\ get_obj s ob <> None /\ ordinary s key /\ m ob key = vnil /\
    get_obj_size (vobj ob) s = Ok (v_maxfields s, s) /\
    write_field ob key v s = Ok (tt, s') /\
    v_errs s' <> v_errs s /\ read_field ob key s' <> Ok (vnil, s').
Proof.
  exists ex_o2. eexists. exists 0, (vint 23), (vint 71), ex_o3.
  split; [apply ex_o2_history|]. split; [vm_compute; discriminate|].
  split; [split; [vm_compute; split; congruence|left; reflexivity]|].
  split; [reflexivity|]. split; [vm_compute; reflexivity|]. split; [vm_compute; reflexivity|].
  split; vm_compute; discriminate.
Qed.
Print Assumptions C15_limit_refuted.

(** Reading when only the one chain is known to be in order. *)
Lemma read_raw s ob o key : str_wf (v_strs s) (v_byhash s) -> get_obj s ob = Some o -> ordinary s key ->
  znth (o_buckets o) (key_bucket s key) = Some (bucket_of o (key_bucket s key)) ->
  keys_ok s (bucket_of o (key_bucket s key)) ->
  read_field ob key s = Ok (match alook key (bucket_of o (key_bucket s key)) with Some v => v | None => vnil end, s).
Proof.
  intros W G Ky NB Kk. unfold read_field.
  assert (find_or_add_entry ob key true s =
    Ok (match kfind key (bucket_of o (key_bucket s key)) 0 with Some p => Some (key_bucket s key, p) | None => None end, s)) as E.
  { unfold find_or_add_entry. unfold mbind at 1, gets at 1. cbv beta iota. rewrite (bind_run _ _ _ _ _ (rd_obj_ok _ _ _ G)).
    cbv beta zeta. unfold mbind at 1, lift at 1. unfold rd. rewrite NB. cbv beta iota.
    rewrite (bind_run _ _ _ _ _ (find_key_ok s key W Ky _ 0 Kk)).
    destruct (kfind _ _ _); reflexivity. }
  rewrite (bind_run _ _ _ _ _ E).
  destruct (kfind key (bucket_of o (key_bucket s key)) 0) as [p|] eqn:F.
  - destruct (kfind_some _ _ _ _ F) as (k & v & N & _ & Al). rewrite Al. rewrite Z.sub_0_r in N.
    unfold el_get. rewrite (bind_run _ _ _ _ _ (rd_obj_ok _ _ _ G)). cbn [fst snd].
    unfold mbind at 1, lift at 1. unfold rd at 1. rewrite NB. cbv beta iota.
    unfold mbind, lift, rd. rewrite N. reflexivity.
  - apply kfind_none in F. rewrite F. reflexivity.
Qed.

Lemma size_of s ob o : get_obj s ob = Some o -> get_obj_size (vobj ob) s = Ok (o_size o, s).
Proof.
  intro E. unfold get_obj_size, mbind, gets, obj_of_value, rd_obj, vobj, ret. cbn [v_type v_data].
  rewrite Z.eqb_refl, E, E. reflexivity.
Qed.

(** What does hold: an error is reported, the size is unchanged, and every
    other key -- in this object and all others -- reads as before. *)
Theorem C15_limit_partial s m ob key v :
  obj_history s m -> get_obj s ob <> None -> ordinary s key -> v_type v <> T_NIL -> m ob key = vnil ->
  (exists n, get_obj_size (vobj ob) s = Ok (n, s) /\ v_maxfields s <= n) ->
  exists s' e, write_field ob key v s = Ok (tt, s') /\ v_errs s' = v_errs s ++ [e] /\
    (forall ob', get_obj s ob' <> None -> 
       exists n, get_obj_size (vobj ob') s = Ok (n, s) /\ get_obj_size (vobj ob') s' = Ok (n, s')) /\
    (forall ob' k, get_obj s ob' <> None -> ordinary s k -> ob' <> ob \/ key_eq k key = false ->
       read_field ob' k s' = Ok (m ob' k, s')).
Proof.
  intros H G Ky Nv Nl (n & Z & L). pose proof (obj_history_inv _ _ H) as I.
  destruct (get_obj s ob) as [o|] eqn:E; [|contradiction]. rewrite (size_of _ _ _ E) in Z. injection Z as <-.
  destruct (write_entry_limit s m ob o key v I E Ky Nv Nl (or_introl L)) as (e & R).
  pose proof (oi_objs _ _ I _ _ E) as O. pose proof (key_bucket_range s key) as Rk.
  remember (set_errs (v_errs s ++ [e]) (overfull s ob o key)) as s' eqn:Es'.
  remember (set_o_buckets (zupd (o_buckets o) (key_bucket s key) ((key, mkV 0 0) :: bucket_of o (key_bucket s key))) o) as o' eqn:Eo'.
  assert (forall j, get_obj s' j = if j =? ob then Some o' else get_obj s j) as Gs.
  { intro j. subst s' o'. destruct (put_obj_wf s ob o (set_o_buckets (zupd (o_buckets o) (key_bucket s key)
                ((key, mkV 0 0) :: bucket_of o (key_bucket s key))) o) (oi_tab _ _ I) E) as [_ Q]. apply Q. }
  exists s', e. split; [exact R|]. split; [subst s'; reflexivity|]. split.
  - intros ob' G'. destruct (get_obj s ob') as [oo|] eqn:E'; [|contradiction].
    exists (o_size oo). split; [apply size_of; auto|]. pose proof (Gs ob') as Q.
    destruct (Z.eqb_spec ob' ob) as [->|].
    + rewrite (size_of _ _ _ Q). assert (oo = o) by congruence. subst oo o'. reflexivity.
    + apply size_of. congruence.
  - intros ob' k G' Hk D. destruct (get_obj s ob') as [oo|] eqn:E'; [|contradiction]. pose proof (Gs ob') as Q.
    assert (str_wf (v_strs s') (v_byhash s')) as W' by (subst s'; apply I).
    assert (forall x, ordinary s x -> ordinary s' x) as Os by (subst s'; auto).
    assert (forall x, key_bucket s' x = key_bucket s x) as Bs by (subst s'; reflexivity).
    pose proof (oi_objs _ _ I _ _ E') as OO.
    pose proof (bucket_of_ok _ _ _ _ OO (key_bucket_range s k)) as NB.
    destruct (oo_keys _ _ _ OO _ _ NB) as (Kk & _).
    assert (keys_ok s' (bucket_of oo (key_bucket s k))) as Kk' by (eapply Forall_impl; [|exact Kk]; auto).
    rewrite (oo_look _ _ _ OO k Hk).
    destruct (Z.eqb_spec ob' ob) as [Eob|Nob].
    + subst ob'. assert (oo = o) by congruence. subst oo. destruct D as [D|D]; [congruence|].
      assert (bucket_of o' (key_bucket s k) = (if key_bucket s key =? key_bucket s k then [(key, mkV 0 0)] else []) ++ bucket_of o (key_bucket s k) /\
              znth (o_buckets o') (key_bucket s k) = Some (bucket_of o' (key_bucket s k))) as [B1 B2].
      { unfold bucket_of at 1 3. subst o'. os. rewrite znth_zupd, (oo_len _ _ _ O).
        destruct (Z.eqb_spec (key_bucket s key) (key_bucket s k)) as [Eb|Nb].
        - destruct (Z.leb_spec 0 (key_bucket s key)), (Z.ltb_spec (key_bucket s key) OBJ_BUCKETS); try lia.
          cbn [andb]. rewrite Eb. auto.
        - rewrite NB. auto. }
      rewrite (read_raw s' ob o' k); auto; rewrite ?Bs; auto.
      * rewrite B1. destruct (_ =? _); auto. cbn [app alook]. rewrite D. reflexivity.
      * rewrite B1. apply Forall_app. split; auto. destruct (_ =? _); constructor; [apply Os; auto|constructor].
    + rewrite E' in Q. rewrite (read_raw s' ob' oo k); auto; rewrite ?Bs; auto.
Qed.
Print Assumptions C15_limit_partial.

(** ** Concrete cases *)

Example ex_map_reads :
  ex_res vzero (read_field 0 (vint 7)) ex_o2 = vint 70 /\ ex_res vzero (read_field 0 (vint 8)) ex_o2 = vnil /\
  ex_res vzero (read_field 0 (vint 7)) (ex_run (write_field 0 (vint 7) vnil) ex_o2) = vnil.
Proof. vm_compute. auto. Qed.

Example ex_map_keys : keys_of ex_o2 (mem_write (fun o k => if o =? 0 then vnil else vnil) 0 (vint 7) (vint 70)) 0 [vint 7].
Proof.
  split; [|split].
  - constructor; [|constructor]. split; [vm_compute; split; congruence|left; reflexivity].
  - intros i j a b Hi Hj _. apply znth_some_range in Hi, Hj. unfold zlen in *. cbn in *. lia.
  - intros k _. unfold mem_write. rewrite Z.eqb_refl. cbn [andb]. destruct (key_eq k (vint 7)) eqn:E; split.
    + intros _. exists (vint 7). split; [left; auto|auto].
    + intros _. discriminate.
    + intro Q. congruence.
    + intros (k' & [<-|[]] & X). congruence.
Qed.

Example ex_limit_hyps : get_obj_size (vobj 0) ex_o2 = Ok (1, ex_o2) /\ v_maxfields ex_o2 = 1.
Proof. vm_compute. auto. Qed.

(** The two instructions on a concrete stack. *)
Definition ex_o5 := ex_run (push (vint 7)) (ex_run (push (vobj 0)) (ex_run (push (vint 5)) ex_o2)).
Example ex_get_stack : stack_is ex_o5 ([vint 5] ++ [vobj 0; vint 7]).
Proof.
  eexists. split; [eexists; split; vm_compute; reflexivity|]. split; [|reflexivity].
  split; cbn; try reflexivity; try lia. exists 2. split; [lia|reflexivity].
Qed.
