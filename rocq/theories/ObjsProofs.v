(** * ObjsProofs: lemmas about objects *)
From Coq Require Import Floats.SpecFloat.
From Verif Require Import Base.
From Verif Require Export StackProofs ObjsModel ObjsSpec.

(** ** Overwriting a table entry *)

Lemma tab_upd_ok {A} (t : table A) i x y : tab_wf t -> tab_get t i = Some x ->
  tab_wf (mkT (zupd (t_slots t) i (Some y)) (t_holes t)) /\
  (forall j, tab_get (mkT (zupd (t_slots t) i (Some y)) (t_holes t)) j =
             if j =? i then Some y else tab_get t j).
Proof.
  intros W E. apply tab_get_some in E. pose proof (znth_some_range _ _ _ E) as R.
  assert (forall j, znth (zupd (t_slots t) i (Some y)) j = if j =? i then Some (Some y) else znth (t_slots t) j) as G.
  { intro j. rewrite znth_zupd, (Z.eqb_sym i j). destruct (Z.eqb_spec j i); auto.
    destruct (Z.leb_spec 0 i), (Z.ltb_spec i (zlen (t_slots t))); auto; lia. }
  split.
  - split; cbn [t_slots t_holes]; try apply W.
    + intro j. rewrite (tw_holes _ W), G. destruct (Z.eqb_spec j i) as [->|]; [|tauto]. rewrite E.
      split; congruence.
    + unfold t_cap. cbn [t_slots]. rewrite zlen_zupd. apply W.
  - intro j. rewrite !tab_get_znth. cbn [t_slots]. rewrite G. destruct (j =? i); auto.
Qed.

(** ** Object access *)

Definition put_obj (i : Z) (o : nkobj) (s : vm) : vm :=
  set_objs (mkT (zupd (t_slots (v_objs s)) i (Some o)) (t_holes (v_objs s))) s.

Lemma rd_obj_ok s i o : get_obj s i = Some o -> rd_obj i s = Ok (o, s).
Proof. intro H. unfold rd_obj. rewrite H. reflexivity. Qed.

Lemma wr_obj_ok s i o o' : get_obj s i = Some o -> wr_obj i o' s = Ok (tt, put_obj i o' s).
Proof. intro H. unfold wr_obj. rewrite H. reflexivity. Qed.

Lemma put_obj_wf s i o o' : tab_wf (v_objs s) -> get_obj s i = Some o ->
  tab_wf (v_objs (put_obj i o' s)) /\
  (forall j, get_obj (put_obj i o' s) j = if j =? i then Some o' else get_obj s j).
Proof. intros W H. apply (tab_upd_ok (v_objs s) i o o' W H). Qed.

Lemma put_obj_twice s i o o' : put_obj i o' (put_obj i o s) = put_obj i o' s.
Proof. unfold put_obj. vs. cbn [t_slots t_holes]. rewrite zupd_zupd. reflexivity. Qed.

Lemma obj_range s i o : tab_wf (v_objs s) -> get_obj s i = Some o -> 0 <= i < W31.
Proof.
  intros W H. pose proof (tab_get_range _ _ _ H). pose proof (pow2_bounds _ (tw_cap _ W)). lia.
Qed.

(** What create_object does. *)
Definition created (s : vm) (i : Z) (s' : vm) : Prop :=
  (exists t n, s' = set_newcount n (set_objs t s) /\ tab_wf t /\ get_obj s i = None /\ 0 <= i < W31 /\
     (forall j, tab_get t j = if j =? i then Some (new_obj i) else get_obj s j)) \/
  (i = INVALID /\ (exists e, s' = set_errs (v_errs s ++ [e]) s) /\
     forall j, 0 <= j < W31 -> exists o, get_obj s j = Some o).

Lemma create_object_ok s : tab_wf (v_objs s) -> live_ctx s (v_cur s) ->
  exists i s', create_object s = Ok (i, s') /\ created s i s'.
Proof.
  intros W L. unfold create_object. unfold mbind at 1, gets at 1. cbv beta iota.
  destruct (tab_add (v_objs s) (new_obj 0)) as [[i t]|] eqn:A.
  - destruct (tab_add_ok _ _ _ _ W A) as (W' & Fr & Ri & Ci & G).
    unfold mbind at 1, modify at 1. cbv beta iota.
    assert (get_obj (set_objs t s) i = Some (new_obj 0)) as Gi by (unfold get_obj; vs; rewrite G, Z.eqb_refl; auto).
    rewrite (bind_run _ _ _ _ _ (wr_obj_ok _ _ _ (new_obj i) Gi)).
    destruct (put_obj_wf (set_objs t s) i _ (new_obj i) W' Gi) as [W2 G2].
    unfold mbind, modify, ret. cbv beta iota. eexists i, _. split; [reflexivity|]. left.
    exists (v_objs (put_obj i (new_obj i) (set_objs t s))).
    exists (if v_newcount s =? 0 then v_newcount s else v_newcount s - 1).
    split; [|split; [exact W2|split; [exact Fr|split; [exact Ri|]]]].
    + unfold put_obj. vs. destruct (v_newcount s =? 0); destruct s; reflexivity.
    + intro j. pose proof (G2 j) as Q. unfold get_obj in Q. rewrite Q. destruct (Z.eqb_spec j i); auto.
      vs. rewrite G. destruct (Z.eqb_spec j i); [congruence|]. reflexivity.
  - destruct (add_error_ok s (bs "Address space exhaustion when adding item to table.") L) as [e Ee].
    rewrite (bind_run _ _ _ _ _ Ee). exists INVALID. eexists. split; [reflexivity|]. right. sp; eauto.
    intros j Hj. apply (tab_add_fails _ _ W A). auto.
Qed.

(** ** Keys *)

(** A normal form: same key, same normal form. *)
Definition knorm (v : value) : Z * Z :=
  (v_type v, if v_type v =? T_NIL then 0 else if v_type v =? T_FLOAT then f_key (v_data v) else v_data v).

Definition not_nan (v : value) : Prop := v_type v = T_FLOAT -> f_dec (v_data v) <> S754_nan.

Lemma ordinary_not_nan s v : ordinary s v -> not_nan v.
Proof. intros [_ H] T. rewrite T in H. tag. intuition congruence. Qed.

Lemma key_eq_norm a b : not_nan a -> not_nan b -> (key_eq a b = true <-> knorm a = knorm b).
Proof.
  intros Ha Hb. unfold key_eq, knorm. destruct (Z.eqb_spec (v_type a) (v_type b)) as [E|N]; cbn [andb].
  - rewrite <- E. destruct (v_type a =? T_NIL); [split; congruence|].
    destruct (Z.eqb_spec (v_type a) T_FLOAT) as [F|].
    + unfold f_eq. rewrite f_compare_key by (auto; apply Hb; congruence).
      destruct (Z.compare_spec (f_key (v_data a)) (f_key (v_data b))); split; intro Q; try congruence; inversion Q; lia.
    + rewrite Z.eqb_eq. split; congruence.
  - split; congruence.
Qed.

Lemma key_eq_refl a : not_nan a -> key_eq a a = true.
Proof. intro H. apply key_eq_norm; auto. Qed.
Lemma key_eq_sym a b : not_nan a -> not_nan b -> key_eq a b = key_eq b a.
Proof.
  intros Ha Hb. destruct (key_eq a b) eqn:E, (key_eq b a) eqn:F; auto; exfalso.
  - apply key_eq_norm in E; auto. symmetry in E. apply key_eq_norm in E; auto. congruence.
  - apply key_eq_norm in F; auto. symmetry in F. apply key_eq_norm in F; auto. congruence.
Qed.
Lemma key_eq_subst a b c : not_nan a -> not_nan b -> not_nan c -> key_eq a b = true -> key_eq a c = key_eq b c.
Proof.
  intros Ha Hb Hc E. apply key_eq_norm in E; auto.
  destruct (key_eq a c) eqn:P, (key_eq b c) eqn:Q; auto; exfalso.
  - apply key_eq_norm in P; auto. assert (key_eq b c = true) by (apply key_eq_norm; auto; congruence). congruence.
  - apply key_eq_norm in Q; auto. assert (key_eq a c = true) by (apply key_eq_norm; auto; congruence). congruence.
Qed.

Lemma key_eq_cmp s a b : str_wf (v_strs s) (v_byhash s) -> ordinary s a -> ordinary s b ->
  (strict_cmp s a b =? 0) = key_eq a b.
Proof.
  intros W Ha Hb. apply eq_true_iff_eq. rewrite Z.eqb_eq.
  rewrite key_eq_norm by (eapply ordinary_not_nan; eauto).
  unfold strict_cmp, knorm.
  destruct (Z.ltb_spec (v_type a) (v_type b)); [split; [discriminate|intro Q; inversion Q; lia]|].
  destruct (Z.ltb_spec (v_type b) (v_type a)); [split; [discriminate|intro Q; inversion Q; lia]|].
  assert (v_type b = v_type a) as E by lia. rewrite E.
  destruct (Z.eqb_spec (v_type a) T_NIL) as [T|N1]; [tauto|].
  destruct (Z.eqb_spec (v_type a) T_INT) as [T|N2].
  { rewrite zcmp_eq, T. tag. change (0 =? 1) with false. cbv iota. unfold v_int.
    destruct Ha as [Da _], Hb as [Db _]. split; intro Q; [|congruence].
    rewrite <- (u32_id (v_data a) Da), <- (u32_id (v_data b) Db).
    rewrite <- (u32_s32 (v_data a)), <- (u32_s32 (v_data b)). congruence. }
  destruct (Z.eqb_spec (v_type a) T_FLOAT) as [T|N3]; [rewrite zcmp_eq; split; congruence|].
  destruct (Z.eqb_spec (v_type a) T_STRING) as [T|N4]; [|rewrite zcmp_eq; split; congruence].
  destruct (ordinary_str s a Ha T) as [x Ex]. destruct (ordinary_str s b Hb) as [y Ey]; [congruence|].
  rewrite Ex, Ey. rewrite str_cmp_eq; [|eapply get_str_text; eauto|eapply get_str_text; eauto].
  unfold get_str in Ex, Ey. destruct (get_str_entry s (v_data a)) as [e|] eqn:Ea; [|discriminate].
  destruct (get_str_entry s (v_data b)) as [f|] eqn:Eb; [|discriminate].
  inversion Ex; inversion Ey. split.
  - intro Q. subst. f_equal. eapply (sw_uniq _ _ W); eauto.
  - intro Q. inversion Q as [Q']. rewrite Q' in Ea. unfold get_str_entry in *. congruence.
Qed.

(** ** Chains as association lists *)

Fixpoint kfind (key : value) (chain : list (value * value)) (pos : Z) : option Z :=
  match chain with
  | [] => None
  | (k, _) :: r => if key_eq key k then Some pos else kfind key r (pos + 1)
  end.

Fixpoint alook (key : value) (chain : list (value * value)) : option value :=
  match chain with
  | [] => None
  | (k, v) :: r => if key_eq key k then Some v else alook key r
  end.

Definition keys_ok (s : vm) (chain : list (value * value)) : Prop :=
  Forall (fun kv => ordinary s (fst kv)) chain.

Lemma find_key_ok s key : str_wf (v_strs s) (v_byhash s) -> ordinary s key ->
  forall chain pos, keys_ok s chain -> find_key key chain pos s = Ok (kfind key chain pos, s).
Proof.
  intros W O. induction chain as [|[k v] r IH]; intros pos H; cbn [find_key kfind]; [reflexivity|].
  inversion H as [|? ? Hk Hr]; subst. cbn [fst] in Hk.
  rewrite (bind_run _ _ _ _ _ (value_compare_strict s key k O Hk)).
  rewrite (key_eq_cmp s key k W O Hk). destruct (key_eq key k); [reflexivity|]. apply IH. auto.
Qed.

Lemma kfind_ge key chain : forall pos p, kfind key chain pos = Some p -> pos <= p.
Proof.
  induction chain as [|[k v] r IH]; intros pos p H; cbn [kfind] in H; [discriminate|].
  destruct (key_eq key k); [inversion H; lia|]. apply IH in H. lia.
Qed.

Lemma kfind_none key chain : forall pos, kfind key chain pos = None <-> alook key chain = None.
Proof.
  induction chain as [|[k v] r IH]; intros pos; cbn [kfind alook]; [tauto|].
  destruct (key_eq key k); [split; discriminate|]. apply IH.
Qed.

Lemma kfind_some key chain : forall pos p, kfind key chain pos = Some p ->
  exists k v, znth chain (p - pos) = Some (k, v) /\ key_eq key k = true /\ alook key chain = Some v.
Proof.
  induction chain as [|[k v] r IH]; intros pos p H; cbn [kfind alook] in *; [discriminate|].
  destruct (key_eq key k) eqn:E.
  - inversion H; subst. exists k, v. rewrite Z.sub_diag, znth_cons_0. auto.
  - pose proof (kfind_ge _ _ _ _ H). destruct (IH _ _ H) as (k' & v' & A & B & C).
    exists k', v'. rewrite znth_cons_S by lia. replace (p - pos - 1) with (p - (pos + 1)) by lia. auto.
Qed.

(** Lookup after overwriting the value at the position found. *)
Lemma alook_set s key x v : ordinary s key -> ordinary s x ->
  forall chain pos p k0 v0, keys_ok s chain -> kfind key chain pos = Some p ->
  znth chain (p - pos) = Some (k0, v0) ->
  alook x (zupd chain (p - pos) (k0, v)) = if key_eq x key then Some v else alook x chain.
Proof.
  intros Ok Ox. induction chain as [|[k v'] r IH]; intros pos p k0 v0 H F N; cbn [kfind] in F; [discriminate|].
  inversion H as [|? ? Hk Hr]; subst. cbn [fst] in Hk. destruct (key_eq key k) eqn:E.
  - inversion F; subst p. rewrite Z.sub_diag in *. rewrite znth_cons_0 in N. inversion N; subst k0 v0.
    unfold zupd. cbn. 
    rewrite (key_eq_sym x k), (key_eq_sym x key) by (eapply ordinary_not_nan; eauto).
    rewrite <- (key_eq_subst key k x) by (auto; eapply ordinary_not_nan; eauto).
    destruct (key_eq key x); reflexivity.
  - pose proof (kfind_ge _ _ _ _ F).
    assert (zupd ((k, v') :: r) (p - pos) (k0, v) = (k, v') :: zupd r (p - (pos + 1)) (k0, v)) as ->.
    { unfold zupd. destruct (Z.ltb_spec (p - pos) 0); [lia|]. destruct (Z.ltb_spec (p - (pos + 1)) 0); [lia|].
      replace (Z.to_nat (p - pos)) with (S (Z.to_nat (p - (pos + 1)))) by lia. reflexivity. }
    rewrite znth_cons_S in N by lia. replace (p - pos - 1) with (p - (pos + 1)) in N by lia.
    cbn [alook]. rewrite (IH _ _ _ _ Hr F N).
    destruct (key_eq x k) eqn:Q; auto. destruct (key_eq x key) eqn:Q'; auto.
    exfalso. rewrite (key_eq_subst x key k) in Q by (auto; eapply ordinary_not_nan; eauto). congruence.
Qed.

(** No key twice in a chain. *)
Fixpoint kdistinct (chain : list (value * value)) : Prop :=
  match chain with
  | [] => True
  | (k, _) :: r => alook k r = None /\ kdistinct r
  end.

Lemma alook_subst s a b : ordinary s a -> ordinary s b -> key_eq a b = true ->
  forall chain, keys_ok s chain -> alook a chain = alook b chain.
Proof.
  intros Ha Hb E. induction chain as [|[k v] r IH]; intro H; cbn [alook]; auto.
  inversion H as [|? ? Hk Hr]; subst. cbn [fst] in Hk.
  rewrite (key_eq_subst a b k) by (auto; eapply ordinary_not_nan; eauto).
  destruct (key_eq b k); auto.
Qed.

Lemma remove_nth_S {A} (a : A) r p : 0 < p -> remove_nth (Z.to_nat p) (a :: r) = a :: remove_nth (Z.to_nat (p - 1)) r.
Proof. intro H. replace (Z.to_nat p) with (S (Z.to_nat (p - 1))) by lia. reflexivity. Qed.

Lemma alook_remove s key x : ordinary s key -> ordinary s x ->
  forall chain pos p, keys_ok s chain -> kdistinct chain -> kfind key chain pos = Some p ->
  alook x (remove_nth (Z.to_nat (p - pos)) chain) = if key_eq x key then None else alook x chain.
Proof.
  intros Ok Ox. induction chain as [|[k v] r IH]; intros pos p H D F; cbn [kfind] in F; [discriminate|].
  inversion H as [|? ? Hk Hr]; subst. cbn [fst] in Hk. destruct D as [D1 D2]. destruct (key_eq key k) eqn:E.
  - inversion F; subst p. rewrite Z.sub_diag. cbn [Z.to_nat remove_nth alook].
    assert (key_eq x k = key_eq x key) as ->.
    { rewrite (key_eq_sym x k), (key_eq_sym x key) by (eapply ordinary_not_nan; eauto).
      rewrite <- (key_eq_subst key k x) by (auto; eapply ordinary_not_nan; eauto). reflexivity. }
    destruct (key_eq x key) eqn:Q; auto.
    rewrite (alook_subst s x k); auto. 
    rewrite (key_eq_subst x key k) by (auto; eapply ordinary_not_nan; eauto). auto.
  - pose proof (kfind_ge _ _ _ _ F). rewrite remove_nth_S by lia. cbn [alook].
    replace (p - pos - 1) with (p - (pos + 1)) by lia. rewrite (IH _ _ Hr D2 F).
    destruct (key_eq x k) eqn:Q; auto. destruct (key_eq x key) eqn:Q'; auto.
    exfalso. rewrite (key_eq_subst x key k) in Q by (auto; eapply ordinary_not_nan; eauto). congruence.
Qed.

Lemma alook_none_forall key chain : alook key chain = None <-> Forall (fun kv => key_eq key (fst kv) = false) chain.
Proof.
  induction chain as [|[k v] r IH]; cbn [alook]; split; intro H; try constructor; auto.
  - cbn. destruct (key_eq key k); congruence.
  - destruct (key_eq key k); [congruence|]. apply IH. auto.
  - inversion H as [|? ? A B]; subst. cbn in A. rewrite A. apply IH. auto.
Qed.

Lemma In_remove_nth {A} n : forall (l : list A) x, In x (remove_nth n l) -> In x l.
Proof. induction n as [|n IH]; intros [|a l] x; cbn; auto. intros [->|H]; auto. Qed.

Lemma Forall_remove_nth {A} (P : A -> Prop) n l : Forall P l -> Forall P (remove_nth n l).
Proof. rewrite !Forall_forall. intros H x Hx. apply H. eapply In_remove_nth; eauto. Qed.

Lemma kdistinct_remove n : forall chain, kdistinct chain -> kdistinct (remove_nth n chain).
Proof.
  induction n as [|n IH]; intros [|[k v] r]; cbn [remove_nth kdistinct]; auto.
  - tauto.
  - intros [D1 D2]. split; auto. apply alook_none_forall. apply Forall_remove_nth. apply alook_none_forall. auto.
Qed.

Lemma map_fst_zupd {A B} (l : list (A * B)) i k v v0 : znth l i = Some (k, v0) ->
  map fst (zupd l i (k, v)) = map fst l.
Proof.
  intro H. apply list_ext_znth. intro j. rewrite !znth_map, znth_zupd.
  destruct (Z.eqb_spec i j) as [E|]; auto. subst j. rewrite H. pose proof (znth_some_range _ _ _ H).
  destruct (Z.leb_spec 0 i), (Z.ltb_spec i (zlen l)); auto; lia.
Qed.

Lemma keys_ok_map s chain : keys_ok s chain <-> Forall (ordinary s) (map fst chain).
Proof. unfold keys_ok. rewrite Forall_map. tauto. Qed.

Lemma kdistinct_map c : forall c', map fst c = map fst c' -> kdistinct c -> kdistinct c'.
Proof.
  induction c as [|[k v] r IH]; intros [|[k' v'] r'] E; cbn in *; try discriminate; auto.
  inversion E; subst. intros [D1 D2]. split; [|eapply IH; eauto].
  apply alook_none_forall. apply alook_none_forall in D1.
  rewrite <- (Forall_map fst (fun k => key_eq k' k = false)) in *. congruence.
Qed.

Lemma length_remove_nth {A} n : forall (l : list A), (n < length l)%nat -> length (remove_nth n l) = (length l - 1)%nat.
Proof. induction n as [|n IH]; intros [|a l] H; cbn in *; try lia. rewrite IH; lia. Qed.

(** ** The object invariant for histories *)

Definition bucket_of (o : nkobj) (b : Z) : list (value * value) :=
  match znth (o_buckets o) b with Some c => c | None => [] end.

Definition entries (o : nkobj) : list (value * value) := concat (o_buckets o).

Record obj_ok (s : vm) (o : nkobj) (f : value -> value) : Prop := {
  oo_len : zlen (o_buckets o) = OBJ_BUCKETS;
  oo_keys : forall b c, znth (o_buckets o) b = Some c ->
              keys_ok s c /\ kdistinct c /\ Forall (fun kv => key_bucket s (fst kv) = b) c /\
              Forall (fun kv => v_type (snd kv) <> T_NIL) c;
  oo_look : forall k, ordinary s k -> 
              f k = match alook k (bucket_of o (key_bucket s k)) with Some v => v | None => vnil end;
  oo_size : o_size o = zlen (entries o);
  oo_max : o_size o < W32;
  oo_out : forall k, 0 <= v_data k < W32 -> ~ ordinary s k -> f k = vnil
}.

Lemma key_eq_ordinary s a b : 0 <= v_data a < W32 -> ordinary s b -> key_eq a b = true -> ordinary s a.
Proof.
  unfold key_eq. intros R [Rb T] E. apply andb_prop in E. destruct E as [E1 E2]. apply Z.eqb_eq in E1.
  split; auto. rewrite <- E1 in T. destruct (Z.eqb_spec (v_type a) T_NIL); [auto 10|].
  destruct (Z.eqb_spec (v_type a) T_FLOAT) as [F|F].
  - right. left. split; auto. unfold f_eq in E2. intro N. rewrite N in E2. discriminate.
  - apply Z.eqb_eq in E2. rewrite E2. destruct T as [T|[[T _]|T]]; auto 10.
Qed.

Lemma key_bucket_range s k : 0 <= key_bucket s k < OBJ_BUCKETS.
Proof. unfold key_bucket, OBJ_BUCKETS. apply (land_mask_range _ 4). lia. Qed.

Lemma key_bucket_eq s a b : str_wf (v_strs s) (v_byhash s) -> ordinary s a -> ordinary s b ->
  key_eq a b = true -> key_bucket s a = key_bucket s b.
Proof.
  intros W Ha Hb E. apply (value_hash_same s a b W Ha Hb). apply strict_cmp_same; auto.
  apply Z.eqb_eq. rewrite key_eq_cmp; auto.
Qed.

(** Total number of elements after replacing one bucket. *)
Lemma concat_zupd {A} (bks : list (list A)) b c c' : znth bks b = Some c ->
  zlen (concat (zupd bks b c')) = zlen (concat bks) - zlen c + zlen c'.
Proof.
  revert b. induction bks as [|d r IH]; intros b H.
  - apply znth_some_range in H. unfold zlen in H. cbn [length] in H. lia.
  - pose proof (znth_some_range _ _ _ H) as R. destruct (Z.eq_dec b 0) as [->|].
    + rewrite znth_cons_0 in H. inversion H; subst d. change (zupd (c :: r) 0 c') with (c' :: r). cbn [concat].
      rewrite !zlen_app. lia.
    + rewrite znth_cons_S in H by lia.
      assert (zupd (d :: r) b c' = d :: zupd r (b - 1) c') as ->.
      { unfold zupd. destruct (Z.ltb_spec b 0); [lia|]. destruct (Z.ltb_spec (b - 1) 0); [lia|].
        replace (Z.to_nat b) with (S (Z.to_nat (b - 1))) by lia. reflexivity. }
      cbn [concat]. rewrite !zlen_app. rewrite (IH _ H). lia.
Qed.

(** ** The invariant of object histories *)

Record obj_inv (s : vm) (m : memory) : Prop := {
  oi_str : str_wf (v_strs s) (v_byhash s);
  oi_tab : tab_wf (v_objs s);
  oi_live : live_ctx s (v_cur s);
  oi_objs : forall i o, get_obj s i = Some o -> obj_ok s o (m i)
}.

Lemma bucket_of_ok o s f b : obj_ok s o f -> 0 <= b < OBJ_BUCKETS -> znth (o_buckets o) b = Some (bucket_of o b).
Proof.
  intros O H. unfold bucket_of. destruct (znth_in_range (o_buckets o) b) as [c E]; [rewrite (oo_len _ _ _ O); auto|].
  rewrite E. reflexivity.
Qed.

Lemma rd_bucket o s f b : obj_ok s o f -> 0 <= b < OBJ_BUCKETS -> rd (o_buckets o) b = Ok (bucket_of o b).
Proof. intros O H. unfold rd. rewrite (bucket_of_ok _ _ _ _ O H). reflexivity. Qed.

Lemma ordinary_put s i o v : ordinary (put_obj i o s) v <-> ordinary s v.
Proof. reflexivity. Qed.
Lemma key_bucket_put s i o v : key_bucket (put_obj i o s) v = key_bucket s v.
Proof. reflexivity. Qed.

(** Replacing one bucket of an object. *)
Lemma obj_ok_upd s o f o' b c' f' :
  obj_ok s o f -> 0 <= b < OBJ_BUCKETS ->
  o_buckets o' = zupd (o_buckets o) b c' ->
  keys_ok s c' -> kdistinct c' -> Forall (fun kv => key_bucket s (fst kv) = b) c' ->
  Forall (fun kv => v_type (snd kv) <> T_NIL) c' ->
  o_size o' = o_size o - zlen (bucket_of o b) + zlen c' -> o_size o' < W32 ->
  (forall k, ordinary s k -> key_bucket s k = b -> f' k = match alook k c' with Some v => v | None => vnil end) ->
  (forall k, ordinary s k -> key_bucket s k <> b -> f' k = f k) ->
  (forall k, 0 <= v_data k < W32 -> ~ ordinary s k -> f' k = f k) ->
  obj_ok s o' f'.
Proof.
  intros O R B K D P V Z1 Z2 F1 F2 F3.
  assert (forall b', znth (o_buckets o') b' = if b =? b' then Some c' else znth (o_buckets o) b') as N.
  { intro b'. rewrite B, znth_zupd, (oo_len _ _ _ O). destruct (Z.eqb_spec b b'); auto.
    destruct (Z.leb_spec 0 b), (Z.ltb_spec b OBJ_BUCKETS); auto; lia. }
  split.
  - rewrite B, zlen_zupd. apply O.
  - intros b' c. rewrite N. destruct (Z.eqb_spec b b') as [E|E]; [|apply O].
    subst b'. intro Q; inversion Q; subst c. auto.
  - intros k Hk. unfold bucket_of at 1. rewrite N. destruct (Z.eqb_spec b (key_bucket s k)) as [E|E].
    + apply F1; auto.
    + rewrite F2 by auto. apply (oo_look _ _ _ O k Hk).
  - unfold entries. rewrite B, (concat_zupd _ _ _ _ (bucket_of_ok _ _ _ _ O R)), Z1, (oo_size _ _ _ O). reflexivity.
  - exact Z2.
  - intros k Hk No. rewrite F3 by auto. apply (oo_out _ _ _ O); auto.
Qed.

Lemma obj_ok_put s i o' o f : obj_ok s o f -> obj_ok (put_obj i o' s) o f.
Proof. intros [A B C D Mx X]. split; auto. Qed.

Lemma obj_inv_put s m m' ob o o' : obj_inv s m -> get_obj s ob = Some o -> obj_ok s o' (m' ob) ->
  (forall i, i <> ob -> m' i = m i) -> obj_inv (put_obj ob o' s) m'.
Proof.
  intros [S T L O] G H E. destruct (put_obj_wf s ob o o' T G) as [T' G'].
  split; auto. intros i oi Hi. rewrite G' in Hi. apply obj_ok_put.
  destruct (Z.eqb_spec i ob) as [E'|N]; [subst i; inversion Hi; subst oi; auto|].
  rewrite E by auto. apply O. auto.
Qed.

(** What find_or_add_entry and clear_entry see. *)
Lemma find_chain s m ob o key : obj_inv s m -> get_obj s ob = Some o -> ordinary s key ->
  forall A (K : option Z -> M A),
  (s0 <- gets (fun s => s) ;; o <- rd_obj ob ;;
   chain <- lift (rd (o_buckets o) (key_bucket s0 key)) ;;
   found <- find_key key chain 0 ;; K found) s =
  K (kfind key (bucket_of o (key_bucket s key)) 0) s.
Proof.
  intros I G Ky A K. pose proof (oi_objs _ _ I _ _ G) as O. pose proof (key_bucket_range s key) as R.
  unfold mbind at 1, gets at 1. cbv beta iota. rewrite (bind_run _ _ _ _ _ (rd_obj_ok _ _ _ G)).
  unfold mbind at 1, lift at 1. rewrite (rd_bucket _ _ _ _ O R). cbv beta iota.
  destruct (oo_keys _ _ _ O _ _ (bucket_of_ok _ _ _ _ O R)) as (Kk & _).
  rewrite (bind_run _ _ _ _ _ (find_key_ok s key (oi_str _ _ I) Ky _ 0 Kk)). reflexivity.
Qed.

Lemma read_field_ok s m ob o key : obj_inv s m -> get_obj s ob = Some o -> ordinary s key ->
  read_field ob key s = Ok (m ob key, s).
Proof.
  intros I G Ky. pose proof (oi_objs _ _ I _ _ G) as O. pose proof (key_bucket_range s key) as R.
  rewrite (oo_look _ _ _ O key Ky). unfold read_field.
  assert (find_or_add_entry ob key true s =
    Ok (match kfind key (bucket_of o (key_bucket s key)) 0 with Some p => Some (key_bucket s key, p) | None => None end, s)) as E.
  { unfold find_or_add_entry. unfold mbind at 1, gets at 1. cbv beta iota. rewrite (bind_run _ _ _ _ _ (rd_obj_ok _ _ _ G)).
    cbv beta zeta. unfold mbind at 1, lift at 1. rewrite (rd_bucket _ _ _ _ O R). cbv beta iota.
    destruct (oo_keys _ _ _ O _ _ (bucket_of_ok _ _ _ _ O R)) as (Kk & _).
    rewrite (bind_run _ _ _ _ _ (find_key_ok s key (oi_str _ _ I) Ky _ 0 Kk)).
    destruct (kfind _ _ _); reflexivity. }
  rewrite (bind_run _ _ _ _ _ E).
  destruct (kfind key (bucket_of o (key_bucket s key)) 0) as [p|] eqn:F.
  - destruct (kfind_some _ _ _ _ F) as (k & v & N & _ & Al). rewrite Al. rewrite Z.sub_0_r in N.
    unfold el_get. rewrite (bind_run _ _ _ _ _ (rd_obj_ok _ _ _ G)). cbn [fst snd].
    unfold mbind at 1, lift at 1. rewrite (rd_bucket _ _ _ _ O R). cbv beta iota.
    unfold mbind, lift, rd. rewrite N. reflexivity.
  - apply kfind_none in F. rewrite F. reflexivity.
Qed.

Lemma key_eq_self s k : ordinary s k -> key_eq k k = true.
Proof. intro H. apply key_eq_refl. eapply ordinary_not_nan; eauto. Qed.

Lemma zlen_remove {A} (l : list A) p : 0 <= p < zlen l -> zlen (remove_nth (Z.to_nat p) l) = zlen l - 1.
Proof. unfold zlen. intro H. rewrite length_remove_nth; lia. Qed.

Lemma zlen_concat_pos {A} (bks : list (list A)) b c : znth bks b = Some c -> zlen c <= zlen (concat bks).
Proof.
  intro H. pose proof (concat_zupd bks b c [] H) as Q. rewrite zlen_nil in Q.
  pose proof (zlen_nonneg (concat (zupd bks b []))). lia.
Qed.

Lemma clear_entry_ok s m ob o key : obj_inv s m -> get_obj s ob = Some o -> ordinary s key ->
  exists s', clear_entry ob key s = Ok (tt, s') /\ v_errs s' = v_errs s /\
    obj_inv s' (mem_write m ob key vnil) /\ (exists t, s' = set_objs t s).
Proof.
  intros I G Ky. pose proof (oi_objs _ _ I _ _ G) as O. pose proof (key_bucket_range s key) as R.
  remember (key_bucket s key) as b eqn:Eb.
  pose proof (bucket_of_ok _ _ _ _ O R) as NB. destruct (oo_keys _ _ _ O _ _ NB) as (Kk & Kd & Kb & Kv).
  assert (clear_entry ob key s = 
    match kfind key (bucket_of o b) 0 with
    | None => Ok (tt, s)
    | Some p => if o_size o =? 0 then Ub UbAssert else
        Ok (tt, put_obj ob (set_o_size (o_size o - 1)
           (set_o_buckets (zupd (o_buckets o) b (remove_nth (Z.to_nat p) (bucket_of o b))) o)) s)
    end) as E.
  { unfold clear_entry. unfold mbind at 1, gets at 1. cbv beta iota. rewrite (bind_run _ _ _ _ _ (rd_obj_ok _ _ _ G)).
    cbv beta zeta. rewrite <- Eb. unfold mbind at 1, lift at 1. rewrite (rd_bucket _ _ _ _ O R). cbv beta iota.
    rewrite (bind_run _ _ _ _ _ (find_key_ok s key (oi_str _ _ I) Ky _ 0 Kk)).
    destruct (kfind _ _ _); [|reflexivity]. destruct (o_size o =? 0); [reflexivity|]. apply (wr_obj_ok _ _ _ _ G). }
  rewrite E. clear E. destruct (kfind key (bucket_of o b) 0) as [p|] eqn:F.
  - destruct (kfind_some _ _ _ _ F) as (k & v & N & Ek & Al). rewrite Z.sub_0_r in N.
    pose proof (znth_some_range _ _ _ N) as Rp. pose proof (zlen_concat_pos _ _ _ NB) as ZC.
    pose proof (oo_size _ _ _ O) as OS. unfold entries in OS.
    destruct (Z.eqb_spec (o_size o) 0); [lia|]. eexists. split; [reflexivity|]. split; [reflexivity|].
    split; [|eexists; reflexivity].
    eapply obj_inv_put; eauto.
    + eapply (obj_ok_upd s o (m ob)) with (b := b) (c' := remove_nth (Z.to_nat p) (bucket_of o b)); auto.
      * apply Forall_remove_nth. auto.
      * apply kdistinct_remove. auto.
      * apply Forall_remove_nth. auto.
      * apply Forall_remove_nth. auto.
      * cbn [o_size set_o_size]. rewrite zlen_remove by auto. lia.
      * cbn [o_size set_o_size]. pose proof (oo_max _ _ _ O). lia.
      * intros x Hx Bx. unfold mem_write. rewrite Z.eqb_refl. cbn [andb].
        pose proof (alook_remove s key x Ky Hx _ _ _ Kk Kd F) as Q. rewrite Z.sub_0_r in Q. rewrite Q.
        destruct (key_eq x key); auto. rewrite (oo_look _ _ _ O x Hx), Bx. reflexivity.
      * intros x Hx Bx. unfold mem_write. rewrite Z.eqb_refl. cbn [andb].
        destruct (key_eq x key) eqn:Q; auto. exfalso. apply Bx. rewrite Eb.
        apply key_bucket_eq; auto. apply I.
      * intros x Hx No. unfold mem_write. rewrite Z.eqb_refl. cbn [andb].
        destruct (key_eq x key) eqn:Q; auto. exfalso. apply No. eapply key_eq_ordinary; eauto.
    + intros i Hi. unfold mem_write. destruct (Z.eqb_spec i ob); [contradiction|]. reflexivity.
  - apply kfind_none in F. exists s. split; [reflexivity|]. split; [reflexivity|]. split; [|exists (v_objs s); destruct s; reflexivity].
    split; try apply I. intros i oi Hi. pose proof (oi_objs _ _ I _ _ Hi) as [A B C D Mx X]. split; auto;
      [|intros x Hx No; unfold mem_write; destruct (_ && _); auto].
    intros x Hx. rewrite <- C by auto. unfold mem_write. destruct (Z.eqb_spec i ob) as [E|]; auto. subst i.
    cbn [andb]. assert (oi = o) by congruence. subst oi. destruct (key_eq x key) eqn:Q; auto.
    rewrite C by auto.
    rewrite (key_bucket_eq s x key (oi_str _ _ I) Hx Ky Q), <- Eb.
    rewrite (alook_subst s x key Hx Ky Q) by auto. rewrite F. reflexivity.
Qed.

(** The two outcomes of a write. *)
Lemma write_entry_ok s m ob o key v : obj_inv s m -> get_obj s ob = Some o -> ordinary s key -> v_type v <> T_NIL ->
  (o_size o < v_maxfields s /\ o_size o + 1 < W32) \/ m ob key <> vnil ->
  exists s', write_field ob key v s = Ok (tt, s') /\ v_errs s' = v_errs s /\
    obj_inv s' (mem_write m ob key v) /\ (exists t, s' = set_objs t s).
Proof.
  intros I G Ky Nv Lim. pose proof (oi_objs _ _ I _ _ G) as O. pose proof (key_bucket_range s key) as R.
  remember (key_bucket s key) as b eqn:Eb.
  pose proof (bucket_of_ok _ _ _ _ O R) as NB. destruct (oo_keys _ _ _ O _ _ NB) as (Kk & Kd & Kb & Kv).
  pose proof (oo_size _ _ _ O) as OS. pose proof (zlen_nonneg (entries o)) as ZN.
  unfold write_field. destruct (Z.eqb_spec (v_type v) T_NIL); [contradiction|].
  assert (find_or_add_entry ob key false s = 
    match kfind key (bucket_of o b) 0 with
    | Some p => Ok (Some (b, p), s)
    | None => Ok (Some (b, 0), put_obj ob (set_o_size (o_size o + 1)
           (set_o_buckets (zupd (o_buckets o) b ((key, mkV 0 0) :: bucket_of o b)) o)) s)
    end) as E.
  { unfold find_or_add_entry. unfold mbind at 1, gets at 1. cbv beta iota. rewrite (bind_run _ _ _ _ _ (rd_obj_ok _ _ _ G)).
    cbv beta zeta. rewrite <- Eb. unfold mbind at 1, lift at 1. rewrite (rd_bucket _ _ _ _ O R). cbv beta iota.
    rewrite (bind_run _ _ _ _ _ (find_key_ok s key (oi_str _ _ I) Ky _ 0 Kk)).
    destruct (kfind key (bucket_of o b) 0) as [p|] eqn:F; [reflexivity|].
    apply kfind_none in F. 
    destruct Lim as [[Lim MF]|Lim]; [|exfalso; apply Lim; rewrite (oo_look _ _ _ O key Ky), <- Eb, F; reflexivity].
    rewrite (u32_id (o_size o + 1)) by (split; lia).
    destruct (Z.eqb_spec (o_size o + 1) 0); [lia|]. destruct (Z.ltb_spec (v_maxfields s) (o_size o + 1)); [lia|].
    cbn [orb]. rewrite (bind_run _ _ _ _ _ (wr_obj_ok _ _ _ _ G)). reflexivity. }
  assert (forall i, i <> ob -> mem_write m ob key v i = m i) as Oth.
  { intros i Hi. unfold mem_write. destruct (Z.eqb_spec i ob); [contradiction|]. reflexivity. }
  assert (forall x, ordinary s x -> key_bucket s x <> b -> mem_write m ob key v ob x = m ob x) as OthB.
  { intros x Hx Bx. unfold mem_write. rewrite Z.eqb_refl. cbn [andb].
    destruct (key_eq x key) eqn:Q; auto. exfalso. apply Bx. rewrite Eb. apply key_bucket_eq; auto. apply I. }
  assert (forall x, 0 <= v_data x < W32 -> ~ ordinary s x -> mem_write m ob key v ob x = m ob x) as OthO.
  { intros x Hx No. unfold mem_write. rewrite Z.eqb_refl. cbn [andb].
    destruct (key_eq x key) eqn:Q; auto. exfalso. apply No. eapply key_eq_ordinary; eauto. }
  destruct (kfind key (bucket_of o b) 0) as [p|] eqn:F.
  - rewrite (bind_run _ _ _ _ _ E). clear E.
    destruct (kfind_some _ _ _ _ F) as (k & v0 & N & Ek & Al). rewrite Z.sub_0_r in N.
    unfold el_set. rewrite (bind_run _ _ _ _ _ (rd_obj_ok _ _ _ G)). cbn [fst snd].
    unfold mbind at 1, lift at 1. rewrite (rd_bucket _ _ _ _ O R). cbv beta iota.
    unfold mbind at 1, lift at 1. unfold rd at 1. rewrite N. cbv beta iota. cbn [fst].
    rewrite (wr_obj_ok _ _ _ _ G). eexists. split; [reflexivity|]. split; [reflexivity|]. split; [|eexists; reflexivity].
    eapply obj_inv_put; eauto.
    pose proof (map_fst_zupd (bucket_of o b) p k v v0 N) as MF'.
    eapply (obj_ok_upd s o (m ob)) with (b := b) (c' := zupd (bucket_of o b) p (k, v)); auto.
    + apply keys_ok_map. rewrite MF'. apply keys_ok_map. auto.
    + eapply kdistinct_map; [symmetry; exact MF'|auto].
    + apply (Forall_map fst (fun x => key_bucket s x = b)). rewrite MF'. apply Forall_map. auto.
    + apply Forall_forall. intros x Hx. apply In_znth in Hx. destruct Hx as [j Hj]. rewrite znth_zupd in Hj.
      rewrite Forall_forall in Kv.
      destruct (p =? j); [destruct (_ && _); [injection Hj as <-; exact Nv|]|]; apply Kv; apply In_znth; exists j; exact Hj.
    + cbn [o_size set_o_buckets]. rewrite zlen_zupd. lia.
    + apply (oo_max _ _ _ O).
    + intros x Hx Bx. pose proof (alook_set s key x v Ky Hx _ _ _ k v0 Kk F) as Q. rewrite Z.sub_0_r in Q.
      rewrite Q by auto. unfold mem_write. rewrite Z.eqb_refl. cbn [andb]. destruct (key_eq x key); auto.
      rewrite (oo_look _ _ _ O x Hx), Bx. reflexivity.
  - rewrite (bind_run _ _ _ _ _ E). clear E. pose proof (proj1 (kfind_none _ _ _) F) as Al.
    remember (set_o_size (o_size o + 1) (set_o_buckets (zupd (o_buckets o) b ((key, mkV 0 0) :: bucket_of o b)) o)) as o1 eqn:E1.
    assert (get_obj (put_obj ob o1 s) ob = Some o1) as G1.
    { destruct (put_obj_wf s ob o o1 (oi_tab _ _ I) G) as [_ G']. rewrite G', Z.eqb_refl. reflexivity. }
    unfold el_set. rewrite (bind_run _ _ _ _ _ (rd_obj_ok _ _ _ G1)). cbn [fst snd].
    assert (znth (o_buckets o1) b = Some ((key, mkV 0 0) :: bucket_of o b)) as N1.
    { rewrite E1. cbn [o_buckets set_o_size set_o_buckets]. rewrite znth_zupd, Z.eqb_refl, (oo_len _ _ _ O).
      destruct (Z.leb_spec 0 b), (Z.ltb_spec b OBJ_BUCKETS); auto; lia. }
    unfold mbind at 1, lift at 1. unfold rd at 1. rewrite N1. cbv beta iota.
    unfold mbind at 1, lift at 1. unfold rd at 1. rewrite znth_cons_0. cbv beta iota. cbn [fst].
    rewrite (wr_obj_ok _ _ _ _ G1). eexists. split; [reflexivity|]. split; [reflexivity|]. 
    rewrite put_obj_twice. split; [|eexists; reflexivity].
    eapply obj_inv_put; eauto.
    assert (zupd ((key, mkV 0 0) :: bucket_of o b) 0 (key, v) = (key, v) :: bucket_of o b) as -> by reflexivity.
    eapply (obj_ok_upd s o (m ob)) with (b := b) (c' := (key, v) :: bucket_of o b); auto.
    + rewrite E1. cbn [o_buckets set_o_size set_o_buckets]. rewrite zupd_zupd. reflexivity.
    + constructor; auto.
    + constructor; auto.
    + rewrite E1. cbn [o_size set_o_size set_o_buckets]. rewrite zlen_cons. lia.
    + rewrite E1. cbn [o_size set_o_size set_o_buckets].
      destruct Lim as [Lim|Lim]; [lia|]. exfalso. apply Lim. rewrite (oo_look _ _ _ O key Ky), <- Eb, Al. reflexivity.
    + intros x Hx Bx. cbn [alook]. unfold mem_write. rewrite Z.eqb_refl. cbn [andb]. destruct (key_eq x key); auto.
      rewrite (oo_look _ _ _ O x Hx), Bx. reflexivity.
Qed.

(** A write beyond the limit: the element is linked in, its value is integer
    0, and the count is left unchanged. *)
Definition overfull (s : vm) (ob : Z) (o : nkobj) (key : value) : vm :=
  put_obj ob (set_o_buckets (zupd (o_buckets o) (key_bucket s key)
                ((key, mkV 0 0) :: bucket_of o (key_bucket s key))) o) s.

Lemma write_entry_limit s m ob o key v : obj_inv s m -> get_obj s ob = Some o -> ordinary s key -> v_type v <> T_NIL ->
  m ob key = vnil -> v_maxfields s <= o_size o \/ o_size o + 1 = W32 ->
  exists e, write_field ob key v s = Ok (tt, set_errs (v_errs s ++ [e]) (overfull s ob o key)).
Proof.
  intros I G Ky Nv Nl Lim. pose proof (oi_objs _ _ I _ _ G) as O. pose proof (oo_max _ _ _ O) as SW. pose proof (key_bucket_range s key) as R.
  unfold overfull. remember (key_bucket s key) as b eqn:Eb.
  pose proof (bucket_of_ok _ _ _ _ O R) as NB. destruct (oo_keys _ _ _ O _ _ NB) as (Kk & Kd & Kb & Kv).
  pose proof (oo_size _ _ _ O) as OS. pose proof (zlen_nonneg (entries o)) as ZN.
  unfold write_field. destruct (Z.eqb_spec (v_type v) T_NIL); [contradiction|].
  unfold find_or_add_entry. unfold mbind at 1. unfold mbind at 1, gets at 1. cbv beta iota.
  rewrite (bind_run _ _ _ _ _ (rd_obj_ok _ _ _ G)).
  cbv beta zeta. rewrite <- Eb. unfold mbind at 1, lift at 1. rewrite (rd_bucket _ _ _ _ O R). cbv beta iota.
  rewrite (bind_run _ _ _ _ _ (find_key_ok s key (oi_str _ _ I) Ky _ 0 Kk)).
  destruct (kfind key (bucket_of o b) 0) as [p|] eqn:F.
  { destruct (kfind_some _ _ _ _ F) as (k & v0 & N & Ek & Al).
    rewrite (oo_look _ _ _ O key Ky), <- Eb, Al in Nl. exfalso.
    rewrite Forall_forall in Kv. apply (Kv (k, v0)); [apply In_znth; eauto|]. cbn [snd]. rewrite Nl. reflexivity. }
  assert ((u32 (o_size o + 1) =? 0) || (v_maxfields s <? u32 (o_size o + 1)) = true) as ->.
  { destruct (Z.eq_dec (o_size o + 1) W32) as [E|E].
    - rewrite E. reflexivity.
    - rewrite u32_id by (split; lia). destruct (Z.ltb_spec (v_maxfields s) (o_size o + 1)); [apply orb_true_r|lia]. }
  assert (u32 (u32 (o_size o + 1) - 1) = o_size o) as ->.
  { unfold u32. rewrite Zminus_mod_idemp_l. replace (o_size o + 1 - 1) with (o_size o) by lia.
    apply u32_id. split; lia. }
  rewrite (bind_run _ _ _ _ _ (wr_obj_ok _ _ _ _ G)).
  remember (put_obj ob (set_o_size (o_size o) (set_o_buckets (zupd (o_buckets o) b ((key, mkV 0 0) :: bucket_of o b)) o)) s) as s1 eqn:E1.
  assert (live_ctx s1 (v_cur s1)) as L1 by (subst s1; apply I).
  destruct (add_error_ok s1 (bs "Reached object field count limit.") L1) as [e Ee].
  rewrite (bind_run _ _ _ _ _ Ee). exists e. unfold ret. subst s1. f_equal.
Qed.

(** The invariant holds along every history. *)
Lemma obj_ok_same s s' o f : (forall k, ordinary s k -> ordinary s' k) ->
  (forall k, ordinary s k -> key_bucket s' k = key_bucket s k) -> obj_ok s o f -> obj_ok s' o f.
Proof.
  intros H2 H3 [A B C D Mx X]. split; auto.
  - intros b c Hc. destruct (B _ _ Hc) as (K1 & K2 & K3 & K4). sp; auto.
    + eapply Forall_impl; [|exact K1]. auto.
    + unfold keys_ok in K1. rewrite Forall_forall in *. intros x Hx. rewrite H3; auto.
  - intros k Hk. assert (ordinary s k \/ ~ ordinary s k) as [Ho|No].
    { destruct Hk as [Rk Tk]. unfold ordinary. destruct (get_str s (v_data k)) as [t|] eqn:G.
      - left. split; auto. intuition eauto 10.
      - destruct (Z.eq_dec (v_type k) T_STRING) as [E|E].
        + right. intros [_ T]. rewrite E in T. tag. destruct T as [T|[[T _]|[[_ [x T]]|[T|[T|T]]]]]; discriminate.
        + left. split; auto. intuition auto. }
    + rewrite H3 by auto. auto.
    + rewrite X by (auto; apply Hk). destruct (alook k _) eqn:Al; auto. exfalso. apply No.
      assert (forall c, alook k c <> None -> keys_ok s c -> exists k', ordinary s k' /\ key_eq k k' = true) as Q.
      { induction c as [|[k' v'] r IH]; cbn [alook]; [congruence|]. intros Q1 Q2. inversion Q2; subst.
        destruct (key_eq k k') eqn:Q3; eauto. }
      destruct (Q (bucket_of o (key_bucket s' k))) as (k' & O' & E').
      * congruence.
      * unfold bucket_of. destruct (znth _ _) eqn:N; [eapply B; eauto|constructor].
      * eapply key_eq_ordinary; eauto. apply Hk.
Qed.

Lemma interned_obj s t i s' : interned s t i s' ->
  v_objs s' = v_objs s /\ v_ctxs s' = v_ctxs s /\ v_cur s' = v_cur s /\
  (forall j e, get_str_entry s j = Some e -> get_str_entry s' j = Some e).
Proof.
  intros [(e & E & Et & ->)|[(t' & bh & -> & N & _ & G & _)|(-> & (e & ->) & _)]]; sp; auto.
  intros j e. unfold get_str_entry in *. vs. rewrite G. destruct (Z.eqb_spec j i); auto. subst. congruence.
Qed.

Lemma same_strs s s' : (forall j e, get_str_entry s j = Some e -> get_str_entry s' j = Some e) ->
  (forall k, ordinary s k -> ordinary s' k) /\ (forall k, ordinary s k -> key_bucket s' k = key_bucket s k).
Proof.
  intro H. split.
  - intros k [R T]. split; auto. destruct T as [T|[T|[[T [t E]]|T]]]; auto. right. right. left. split; auto.
    exists t. unfold get_str in *. destruct (get_str_entry s (v_data k)) eqn:G; [|discriminate].
    rewrite (H _ _ G). auto.
  - intros k Hk. unfold key_bucket. f_equal. unfold value_hash. destruct (_ || _); auto.
    destruct (Z.eqb_spec (v_type k) T_STRING) as [E|]; auto. destruct (ordinary_str s k Hk E) as [t Et].
    unfold get_str in Et. destruct (get_str_entry s (v_data k)) eqn:G; [|discriminate]. rewrite (H _ _ G). auto.
Qed.

Lemma new_obj_ok s i f : (forall k, f k = vnil) -> obj_ok s (new_obj i) f.
Proof.
  intro H. split.
  - reflexivity.
  - intros b c Hc. apply znth_In_repeat_nil in Hc. subst c. sp; constructor.
  - intros k Hk. rewrite H. unfold bucket_of. destruct (znth _ _) eqn:N; auto.
    apply znth_In_repeat_nil in N. subst. reflexivity.
  - reflexivity.
  - reflexivity.
  - intros. apply H.
Qed.

Lemma create_obj_inv s m i s' : obj_inv s m -> create_object s = Ok (i, s') ->
  obj_inv s' (fun o k => if o =? i then vnil else m o k).
Proof.
  intros I E. destruct (create_object_ok s (oi_tab _ _ I) (oi_live _ _ I)) as (i' & s1 & E' & C).
  rewrite E in E'. injection E' as <- <-. destruct C as [(t & n & -> & W & Fr & Ri & G)|(-> & (e & ->) & Full)].
  - split; try apply I; auto. intros j o Hj. unfold get_obj in Hj. vsin Hj. rewrite G in Hj.
    destruct (Z.eqb_spec j i) as [Q|Q].
    + injection Hj as <-. apply new_obj_ok. auto.
    + pose proof (oi_objs _ _ I _ _ Hj) as [A B C D Mx X]. split; auto.
  - split; try apply I. intros j o Hj. pose proof (obj_range s j o (oi_tab _ _ I) Hj) as R.
    destruct (Z.eqb_spec j INVALID) as [Q|Q]; [unfold INVALID, W31 in *; lia|].
    pose proof (oi_objs _ _ I _ _ Hj) as [A B C D Mx X]. split; auto.
Qed.

Lemma write_obj_inv s m ob key v s' : obj_inv s m -> get_obj s ob <> None -> ordinary s key ->
  write_field ob key v s = Ok (tt, s') -> v_errs s' = v_errs s ->
  obj_inv s' (mem_write m ob key (if v_type v =? T_NIL then vnil else v)).
Proof.
  intros I G Ky E Er. destruct (get_obj s ob) as [o|] eqn:Go; [|contradiction]. clear G.
  destruct (Z.eqb_spec (v_type v) T_NIL) as [Q|Q].
  - destruct (clear_entry_ok s m ob o key I Go Ky) as (s1 & E1 & _ & I1 & _).
    unfold write_field in E. rewrite Q, Z.eqb_refl in E. rewrite E1 in E. injection E as <-. auto.
  - pose proof (oi_objs _ _ I _ _ Go) as O. pose proof (oo_size _ _ _ O) as OS.
    pose proof (zlen_nonneg (entries o)).
    pose proof (oo_max _ _ _ O) as SW.
    assert (((o_size o < v_maxfields s /\ o_size o + 1 < W32) \/ m ob key <> vnil) \/
            (m ob key = vnil /\ (v_maxfields s <= o_size o \/ o_size o + 1 = W32))) as D.
    { assert (m ob key = vnil \/ m ob key <> vnil) as [M|M].
      { destruct (m ob key) as [ty d]. unfold vnil. destruct (Z.eq_dec ty T_NIL), (Z.eq_dec d 0); try (right; congruence).
        left. congruence. }
      - destruct (Z_lt_dec (o_size o) (v_maxfields s)), (Z.eq_dec (o_size o + 1) W32);
          try (right; split; [auto|lia]). left. left. lia.
      - left. right. auto. }
    destruct D as [D|(M & D)].
    + destruct (write_entry_ok s m ob o key v I Go Ky Q D) as (s1 & E1 & _ & I1 & _).
      rewrite E in E1. injection E1 as <-. auto.
    + destruct (write_entry_limit s m ob o key v I Go Ky Q M D) as (e & E1).
      rewrite E in E1. injection E1 as ->. exfalso. revert Er. vs. 
      unfold overfull, put_obj. vs. intro X. apply (f_equal (@length _)) in X. rewrite app_length in X. cbn in X. lia.
Qed.

Theorem obj_history_inv s m : obj_history s m -> obj_inv s m.
Proof.
  induction 1 as [s H1 H2 H3 H4|s m t i s' _ IH Ht E|s m i s' _ IH E|s m ob key v s' _ IH G Ky E Er|s m s' _ IH E1 E2 E3 L].
  - split; auto.
    + rewrite H1, H2. apply str_wf_init.
    + rewrite H3. apply tab_init_wf.
    + intros i o Ho. unfold get_obj in Ho. rewrite H3 in Ho. rewrite tab_init_get in Ho. discriminate.
  - destruct (find_or_add_ok s t (oi_str _ _ IH) (oi_live _ _ IH)) as (i' & s1 & E' & W & Q); [apply Ht|].
    rewrite E in E'. injection E' as <- <-. destruct (interned_obj _ _ _ _ Q) as (Q1 & Q2 & Q3 & Q4).
    destruct (same_strs _ _ Q4) as [S1 S2]. split; auto.
    + rewrite Q1. apply IH.
    + unfold live_ctx. rewrite Q2, Q3. apply IH.
    + intros j o Hj. unfold get_obj in Hj. rewrite Q1 in Hj. eapply obj_ok_same; eauto. apply IH. exact Hj.
  - eapply create_obj_inv; eauto.
  - eapply write_obj_inv; eauto.
  - split.
    + rewrite E1, E2. apply IH.
    + rewrite E3. apply IH.
    + exact L.
    + intros j o Hj. unfold get_obj in Hj. rewrite E3 in Hj.
      assert (forall j, get_str_entry s j = get_str_entry s' j) as Q by (intro; unfold get_str_entry; congruence).
      destruct (same_strs s s') as [S1 S2]; [intros x e; rewrite Q; auto|].
      eapply obj_ok_same; eauto. apply IH. exact Hj.
Qed.
