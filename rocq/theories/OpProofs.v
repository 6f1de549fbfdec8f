(** * OpProofs: running instructions on a known stack *)
From Verif Require Import Base BaseFacts.
From Verif Require Import MonadFacts StackProofs FrameProofs HostModel.
From Verif Require Export OpSpec.
Ltac Zify.zify_post_hook ::= Z.div_mod_to_equations.

(** [rs s l n s']: as [restacked], with at least [n] free slots. *)
Definition rs (s : vm) (l : list value) (n : Z) (s' : vm) : Prop :=
  exists c k, znth (v_ctxs s) (v_cur s) = Some (Some c) /\ kwf k /\ contents k = l /\
    n <= k_cap k - k_size k /\ s' = with_stack k s.

Lemma with_stack_eq s c k : znth (v_ctxs s) (v_cur s) = Some (Some c) ->
  with_stack k s = set_ctxs (zupd (v_ctxs s) (v_cur s) (Some (set_c_stack k c))) s.
Proof. intro H. unfold with_stack, upd_cur. rewrite H. reflexivity. Qed.

Lemma rs_restacked s l n s' : rs s l n s' -> restacked s l s'.
Proof. intros (c & k & H & W & C & N & ->). exists c, k. sp; auto. apply with_stack_eq. auto. Qed.

Lemma rs_start s l : stack_is s l -> rs s l 0 s.
Proof.
  intros (c & H & W & C). exists c, (c_stack c). sp; auto.
  - pose proof (kw_size _ W). lia.
  - symmetry. apply with_stack_same. exists c. auto.
Qed.

Lemma rs_at s l n s' : rs s l n s' -> exists k, at_stack s' k /\ kwf k /\ contents k = l /\ n <= k_cap k - k_size k.
Proof.
  intros (c & k & H & W & C & N & ->). exists k. sp; auto. eapply with_stack_at. exists c. split; eauto.
Qed.

Lemma rs_is s l n s' : rs s l n s' -> stack_is s' l.
Proof. intro R. destruct (rs_at _ _ _ _ R) as (k & (c & H & E) & W & C & N). exists c. subst k. auto. Qed.

Lemma rs_weak s l n m s' : rs s l n s' -> m <= n -> rs s l m s'.
Proof. intros (c & k & H & W & C & N & E) L. exists c, k. sp; auto. lia. Qed.

Lemma rs_trans s l n s' l' n' s'' : rs s l n s' -> rs s' l' n' s'' -> rs s l' n' s''.
Proof.
  intros (c & k & H & W & C & N & ->) (c' & k' & H' & W' & C' & N' & ->).
  exists c, k'. sp; auto. apply with_stack_twice.
Qed.

Lemma with_stack_strs k s : v_strs (with_stack k s) = v_strs s.
Proof. unfold with_stack, upd_cur. destruct (znth _ _) as [[c|]|]; reflexivity. Qed.
Lemma with_stack_objs k s : v_objs (with_stack k s) = v_objs s.
Proof. unfold with_stack, upd_cur. destruct (znth _ _) as [[c|]|]; reflexivity. Qed.
Lemma with_stack_errs k s : v_errs (with_stack k s) = v_errs s.
Proof. unfold with_stack, upd_cur. destruct (znth _ _) as [[c|]|]; reflexivity. Qed.
Lemma with_stack_set_errs k s e : with_stack k (set_errs e s) = set_errs e (with_stack k s).
Proof. unfold with_stack, upd_cur. vs. destruct (znth _ _) as [[c|]|]; reflexivity. Qed.

Lemma pop_rs s l v n s1 : rs s (l ++ [v]) n s1 -> exists s2, pop s1 = Ok (v, s2) /\ rs s l (n + 1) s2.
Proof.
  intro R. destruct (rs_at _ _ _ _ R) as (k & A & W & C & N).
  destruct (pop_run s1 k l v A W C) as (P & W' & C' & S). eexists. split; [exact P|].
  destruct R as (c & k0 & H & W0 & C0 & N0 & E). exists c, (shrunk k 1). sp; auto.
  - cbn. lia.
  - subst s1. apply with_stack_twice.
Qed.

Lemma push_rs s l v n s1 : rs s l n s1 -> 0 < n -> exists s2, push v s1 = Ok (tt, s2) /\ rs s (l ++ [v]) (n - 1) s2.
Proof.
  intros R Hn. destruct (rs_at _ _ _ _ R) as (k & A & W & C & N).
  rewrite (push_spare s1 k v A W) by lia. eexists. split; [reflexivity|].
  destruct (fill_spare k v W ltac:(lia)) as (W' & C').
  destruct R as (c & k0 & H & W0 & C0 & N0 & E). exists c. eexists. sp; [exact H|exact W'|rewrite C', C; reflexivity| |].
  - unfold poke, shrunk. cs. lia.
  - subst s1. apply with_stack_twice.
Qed.

(** The general push: fails only for want of room. *)
Lemma push_rs_room s l v n s1 k : rs s l n s1 -> at_stack s1 k -> room s1 k = true ->
  exists s2, push v s1 = Ok (tt, s2) /\ rs s (l ++ [v]) 0 s2.
Proof.
  intros R A Rm. destruct (rs_at _ _ _ _ R) as (k1 & (c1 & A1 & E1) & W & C & N).
  destruct A as (c2 & A2 & E2). rewrite A1 in A2. injection A2 as <-. rewrite E2 in E1. subst k1.
  destruct (push_ok s1 k v) as (k' & P & W' & C'); [exists c1; auto|auto|auto|].
  eexists. split; [exact P|]. destruct R as (c & k0 & H & W0 & C0 & N0 & E). exists c, k'. sp; auto.
  - rewrite C', C. auto.
  - pose proof (kw_size _ W'). lia.
  - subst s1. apply with_stack_twice.
Qed.

Lemma as_int_run s v z s' : as_int s v z -> v_strs s' = v_strs s -> to_int v s' = Ok (z, s').
Proof.
  intros H E. unfold to_int. destruct H as [v T|v z T F|v t T G|v T|v T]; rewrite T; try reflexivity.
  - change (T_FLOAT =? T_INT) with false. change (T_FLOAT =? T_FLOAT) with true. cbv iota. rewrite F. reflexivity.
  - change (T_STRING =? T_INT) with false. change (T_STRING =? T_FLOAT) with false.
    change (T_STRING =? T_STRING) with true. cbv iota. unfold mbind, gets.
    unfold get_str, get_str_entry in *. rewrite E, G. reflexivity.
Qed.

Lemma rs_strs s l n s' : rs s l n s' -> v_strs s' = v_strs s.
Proof. intros (c & k & _ & _ & _ & _ & ->). apply with_stack_strs. Qed.

Lemma rs_error s l n s1 msg : rs s l n s1 ->
  exists s2, add_error msg s1 = Ok (tt, s2) /\ failed s l s2.
Proof.
  intros (c & k & H & W & C & N & ->).
  destruct (add_error_ok (with_stack k s) msg) as (e & E).
  { exists (set_c_stack k c). rewrite with_stack_eq with (c := c) by auto. vs.
    apply znth_zupd_same. apply (znth_some_range _ _ _ H). }
  eexists. split; [exact E|]. exists e. exists c, k. vs. sp; auto.
  rewrite with_stack_errs. rewrite with_stack_eq with (c := c) by auto. reflexivity.
Qed.

Lemma failed_errors s l s' : failed s l s' -> has_errors s' = true.
Proof. intros (e & c & k & H & W & C & ->). unfold has_errors. vs. destruct (v_errs s); reflexivity. Qed.

(** ** Division *)
Lemma quot_truncating x y : y <> 0 -> truncating x y (Z.quot x y) (Z.rem x y).
Proof.
  intro N. pose proof (Z.quot_rem x y N). pose proof (Z.rem_bound_abs x y N).
  unfold truncating. sp; auto; intro S.
  - apply Z.rem_nonneg; auto.
  - apply Z.rem_nonpos; auto.
Qed.

Lemma quot_s32 x y : is_s32 x -> y <> 0 -> ~ (x = - W31 /\ y = -1) -> is_s32 (Z.quot x y).
Proof.
  unfold is_s32, W31. intros X N E. destruct (quot_truncating x y N) as (A & B & C & D). revert A B C D.
  generalize (Z.quot x y) (Z.rem x y). intros q r A B C D.
  assert (Z.abs q <= Z.abs x) by nia. assert (q = 2147483648 -> False).
  { intros ->. assert (y >= 1 \/ y = -1 \/ y <= -2) as [Y|[Y|Y]] by lia; lia. }
  lia.
Qed.

Lemma v_int_s32 v : is_s32 (v_int v).
Proof. apply s32_range. Qed.

Lemma snoc2 {T} (l : list T) a b : l ++ [a; b] = (l ++ [a]) ++ [b].
Proof. rewrite <- app_assoc. reflexivity. Qed.
Lemma snoc3 {T} (l : list T) a b c : l ++ [a; b; c] = ((l ++ [a]) ++ [b]) ++ [c].
Proof. rewrite <- !app_assoc. reflexivity. Qed.

Ltac rpop R :=
  let t := fresh "t" in let P := fresh "P" in let Q := fresh "Q" in
  destruct (pop_rs _ _ _ _ _ R) as (t & P & Q); rewrite (bind_run _ _ _ _ _ P); clear P R; rename Q into R.
Ltac rpush R v :=
  let t := fresh "t" in let P := fresh "P" in let Q := fresh "Q" in
  destruct (push_rs _ _ v _ _ R ltac:(lia)) as (t & P & Q).

(** Two operands popped, the second converted. *)
Lemma two_ints s st a b x y : stack_is s (st ++ [a; b]) -> v_type a = T_INT -> v_int a = x -> as_int s b y ->
  exists t, rs s st 2 t /\ to_int b t = Ok (y, t) /\
    forall U (K : value -> value -> M U), (in2 <- pop ;; in1 <- pop ;; K in1 in2) s = K a b t.
Proof.
  intros S T X Y. rewrite snoc2 in S. pose proof (rs_start _ _ S) as R.
  destruct (pop_rs _ _ _ _ _ R) as (t1 & P1 & R1). destruct (pop_rs _ _ _ _ _ R1) as (t2 & P2 & R2).
  exists t2. split; [exact R2|]. split.
  - eapply as_int_run; eauto. eapply rs_strs; eauto.
  - intros U K. rewrite (bind_run _ _ _ _ _ P1), (bind_run _ _ _ _ _ P2). reflexivity.
Qed.

Lemma c_div_ok x y : y <> 0 -> ~ (x = - W31 /\ y = -1) -> c_div x y = Ok (Z.quot x y).
Proof.
  intros N E. unfold c_div. destruct (Z.eqb_spec y 0); [lia|].
  destruct (Z.eqb_spec x (- W31)), (Z.eqb_spec y (-1)); cbn [andb]; auto. tauto.
Qed.
Lemma c_rem_ok x y : y <> 0 -> ~ (x = - W31 /\ y = -1) -> c_rem x y = Ok (Z.rem x y).
Proof.
  intros N E. unfold c_rem. destruct (Z.eqb_spec y 0); [lia|].
  destruct (Z.eqb_spec x (- W31)), (Z.eqb_spec y (-1)); cbn [andb]; auto. tauto.
Qed.

Lemma divide_run s st a b x y : stack_is s (st ++ [a; b]) -> v_type a = T_INT -> v_int a = x -> as_int s b y ->
  exists s', op_divide s = Ok (tt, s') /\
  if (y =? 0) || ((x =? - W31) && (y =? -1)) then failed s st s' else restacked s (st ++ [vint (Z.quot x y)]) s'.
Proof.
  intros S T X Y. unfold op_divide.
  destruct (two_ints s st a b x y S T X Y) as (t & R & C & D). rewrite D. cbv beta zeta. rewrite T, X. change (T_INT =? T_INT) with true. cbv iota.
  rewrite (bind_run _ _ _ _ _ C). change (-2147483647 - 1) with (- W31). rewrite (andb_comm (y =? -1)).
  destruct (Z.eqb_spec y 0) as [E|N]; cbn [orb].
  { destruct (rs_error _ _ _ _ (bs "Integer divide-by-zero or division overflow.") R) as (s2 & E2 & F). eauto. }
  destruct ((x =? - W31) && (y =? -1)) eqn:E.
  { destruct (rs_error _ _ _ _ (bs "Integer divide-by-zero or division overflow.") R) as (s2 & E2 & F). eauto. }
  rewrite c_div_ok; [|auto|intros [E1 E2]; rewrite E1, E2 in E; discriminate].
  unfold mbind at 1, lift. unfold push_int. rpush R (vint (Z.quot x y)). rewrite P. eexists. split; [reflexivity|].
  eapply rs_restacked; eauto.
Qed.

Lemma modulo_run s st a b x y : stack_is s (st ++ [a; b]) -> v_type a = T_INT -> v_int a = x -> as_int s b y ->
  exists s', op_modulo s = Ok (tt, s') /\
  if (y =? 0) || ((x =? - W31) && (y =? -1)) then failed s st s' else restacked s (st ++ [vint (Z.rem x y)]) s'.
Proof.
  intros S T X Y. unfold op_modulo.
  destruct (two_ints s st a b x y S T X Y) as (t & R & C & D). rewrite D. cbv beta zeta. rewrite T, X. change (T_INT =? T_INT) with true. cbv iota.
  rewrite (bind_run _ _ _ _ _ C). change (-2147483648) with (- W31).
  destruct (Z.eqb_spec y 0) as [E|N]; cbn [orb].
  { destruct (rs_error _ _ _ _ (bs "Integer divide-by-zero.") R) as (s2 & E2 & F). eauto. }
  destruct ((x =? - W31) && (y =? -1)) eqn:E.
  { destruct (rs_error _ _ _ _ (bs "Integer divide-by-zero.") R) as (s2 & E2 & F). eauto. }
  rewrite c_rem_ok; [|auto|intros [E1 E2]; rewrite E1, E2 in E; discriminate].
  unfold mbind at 1, lift. unfold push_int. rpush R (vint (Z.rem x y)). rewrite P. eexists. split; [reflexivity|].
  eapply rs_restacked; eauto.
Qed.

Lemma signed_run s st z t : rs s st 2 t ->
  if in_s32 z then exists s', push_signed z t = Ok (tt, s') /\ restacked s (st ++ [vint z]) s'
  else push_signed z t = Ub UbSignedOverflow.
Proof.
  intro R. unfold push_signed. destruct (in_s32 z); [|reflexivity].
  unfold push_int. rpush R (vint z). rewrite P. eexists. split; [reflexivity|]. eapply rs_restacked; eauto.
Qed.

(** ** Logic *)
Lemma bool_run s st b n t : rs s st n t -> 0 < n ->
  exists s', push_int (b2z b) t = Ok (tt, s') /\ restacked s (st ++ [vint (b2z b)]) s'.
Proof.
  intros R N. unfold push_int. rpush R (vint (b2z b)). rewrite P. eexists. split; [reflexivity|]. eapply rs_restacked; eauto.
Qed.

Lemma not_run s st a x : stack_is s (st ++ [a]) -> as_int s a x ->
  exists s', op_not s = Ok (tt, s') /\ restacked s (st ++ [vint (b2z (x =? 0))]) s'.
Proof.
  intros S X. unfold op_not. pose proof (rs_start _ _ S) as R. rpop R.
  rewrite (bind_run _ _ _ _ _ (as_int_run _ _ _ _ X (rs_strs _ _ _ _ R))).
  eapply bool_run; eauto. lia.
Qed.

Lemma two_truths s st a b x y (f : bool -> bool -> bool) : stack_is s (st ++ [a; b]) -> as_int s a x -> as_int s b y ->
  exists s', (b <- pop ;; y <- to_int b ;; a <- pop ;; x <- to_int a ;; push_int (b2z (f (nkbool_of y) (nkbool_of x)))) s = Ok (tt, s') /\
    restacked s (st ++ [vint (b2z (f (nkbool_of y) (nkbool_of x)))]) s'.
Proof.
  intros S X Y. rewrite snoc2 in S. pose proof (rs_start _ _ S) as R. rpop R.
  rewrite (bind_run _ _ _ _ _ (as_int_run _ _ _ _ Y (rs_strs _ _ _ _ R))). rpop R.
  rewrite (bind_run _ _ _ _ _ (as_int_run _ _ _ _ X (rs_strs _ _ _ _ R))). eapply bool_run; eauto. lia.
Qed.

Lemma nkbool_zero n : nkbool_of n = false <-> n mod 256 = 0.
Proof.
  unfold nkbool_of. change 255 with (Z.ones 8). rewrite Z.land_ones by lia. change (2 ^ 8) with 256.
  assert (u32 n mod 256 = n mod 256) as ->.
  { unfold u32, W32. lia. }
  destruct (Z.eqb_spec (n mod 256) 0); cbn [negb]; split; intro; congruence.
Qed.

(** ** Jumps *)
Lemma set_ip_run s l n s1 ip : rs s l n s1 -> exists s2, set_ip ip s1 = Ok (tt, s2) /\ moved s l ip s2.
Proof.
  intros (c & k & H & W & C & N & ->).
  assert (live_ctx (with_stack k s) (v_cur (with_stack k s))) as L.
  { exists (set_c_stack k c). unfold with_stack. rewrite upd_cur_cur. rewrite (upd_cur_znth _ _ _ H). reflexivity. }
  unfold set_ip. rewrite (mod_cur_upd _ _ L). eexists. split; [reflexivity|].
  exists c, k. sp; auto. unfold with_stack. rewrite upd_cur_upd. unfold upd_cur. rewrite H. reflexivity.
Qed.
Lemma get_ip_run s l n s1 ip : rs s l n s1 -> ip_is s ip -> get_ip s1 = Ok (ip, s1).
Proof.
  intros (c & k & H & W & C & N & ->) (c' & H' & I). rewrite H in H'. injection H' as <-.
  assert (znth (v_ctxs (with_stack k s)) (v_cur (with_stack k s)) = Some (Some (set_c_stack k c))) as E.
  { unfold with_stack. rewrite upd_cur_cur. apply (upd_cur_znth _ _ _ H). }
  unfold get_ip. rewrite (bind_run _ _ _ _ _ (cur_ctx_ok _ _ E)). cs. rewrite I. reflexivity.
Qed.

Lemma jz_run s st test off x n ip : stack_is s (st ++ [test; off]) -> as_int s test x -> as_int s off n -> ip_is s ip ->
  exists s', op_jz s = Ok (tt, s') /\
    if x =? 0 then moved s st (u32 (ip + n)) s' else restacked s st s'.
Proof.
  intros S X Y I. unfold op_jz. rewrite snoc2 in S. pose proof (rs_start _ _ S) as R. rpop R. rpop R.
  rewrite (bind_run _ _ _ _ _ (as_int_run _ _ _ _ X (rs_strs _ _ _ _ R))).
  destruct (x =? 0).
  - rewrite (bind_run _ _ _ _ _ (as_int_run _ _ _ _ Y (rs_strs _ _ _ _ R))).
    rewrite (bind_run _ _ _ _ _ (get_ip_run _ _ _ _ _ R I)).
    eapply set_ip_run; eauto.
  - eexists. split; [reflexivity|]. eapply rs_restacked; eauto.
Qed.

(** ** Counting instructions *)
Section Count.
Variable hostmark : Z -> Z -> option Z -> list value.
Variable host : Z -> list value -> M value.
Hypothesis Hhost : forall cb args, settles (host cb args).

(** One iteration without an error uses up exactly one unit. *)
Lemma iterate_clock s s' : iterate hostmark host s = Ok (tt, s') ->
  1 <= v_gccount s < W32 -> 1 <= v_gcint s < W32 -> 0 <= v_left s < INVALID ->
  v_gcint s' = v_gcint s /\
  ((v_left s' + v_gccount s' = v_left s + v_gccount s - 1 /\ 1 <= v_gccount s' < W32 /\ 0 <= v_left s' <= v_left s /\
    (v_gccount s' <= v_gcint s \/ v_gccount s' < v_gccount s)) \/
   (v_gccount s = 1 /\ v_left s < v_gcint s /\ has_errors s' = true)).
Proof.
  intros E C G L. unfold iterate in E.
  destruct (bind_inv _ _ _ _ _ E) as (w & s1 & E1 & E2). clear E.
  assert (settled s s1) as S1 by (eapply k_fetch; eauto).
  destruct (bind_inv _ _ _ _ _ E2) as (go & s2 & E3 & E4). clear E2.
  assert (forall s2, go = true -> settled s2 s' \/ True) as _ by auto.
  assert (go = true -> settled s2 s') as S2.
  { intros ->. destruct (bind_inv _ _ _ _ _ E4) as (u & s3 & E5 & E6).
    eapply settled_trans; [eapply k_opcode; eauto|].
    assert (settles (ip <- get_ip ;; set_ip (u32 (ip + 1)))) as K by keep. eapply K; eauto. }
  rewrite <- (st_gccount _ _ S1) in *. rewrite <- (st_gcint _ _ S1) in *. rewrite <- (st_left _ _ S1) in *.
  clear S1 E1. unfold tick in E3. unfold mbind at 1, modify at 1 in E3. unfold mbind at 1, self, gets in E3. vsin E3.
  assert (u32 (v_gccount s1 - 1) = v_gccount s1 - 1) as U by (apply u32_id; unfold is_u32; lia). rewrite U in E3.
  destruct (Z.eqb_spec (v_gccount s1 - 1) 0) as [Z0|Z0]; cbn [negb] in E3.
  - destruct (Z.eqb_spec (v_left s1) INVALID) as [Q|_]; [lia|].
    destruct (Z.ltb_spec (v_left s1) (v_gcint s1)) as [LT|GE].
    + destruct (bind_inv _ _ _ _ _ E3) as (go' & s3 & E5 & E6). clear E3.
      destruct (bind_inv _ _ _ _ _ E5) as (u & s4 & E7 & E8). clear E5.
      unfold mbind, modify, ret in E8. injection E8 as <- <-. cbv iota in E6. unfold ret in E6. injection E6 as <- <-.
      cbv iota in E4. unfold ret in E4. injection E4 as <-. vs.
      pose proof (k_error _ _ _ _ E7) as K. pose proof (st_gcint _ _ K) as K1. vsin K1. split; [auto|]. right.
      split; [lia|]. split; [auto|]. unfold add_error, add_error_ex in E7.
      destruct (bind_inv _ _ _ _ _ E7) as (c & s5 & A1 & A2). destruct (bind_inv _ _ _ _ _ A2) as (m & s6 & A3 & A4).
      clear - A4. unfold has_errors. vs.
      unfold modify in A4. cbv zeta in A4. injection A4 as _ A5. rewrite <- A5. vs. destruct (v_errs s6); reflexivity.
    + unfold mbind at 2, modify, ret at 1 in E3. unfold mbind at 1 in E3. cbv iota in E3.
      destruct (bind_inv _ _ _ _ _ E3) as (u & s3 & E5 & E6). clear E3. vsin E5.
      unfold mbind, modify, ret in E6. injection E6 as <- <-. specialize (S2 eq_refl).
      assert (v_left s3 = v_left s1 - v_gcint s1 /\ v_gcint s3 = v_gcint s1) as (Q1 & Q2).
      { revert E5. destruct (v_newcount s1 =? 0); intro E5.
        - destruct (bind_inv _ _ _ _ _ E5) as (u2 & s5 & A1 & A2). injection A2 as _ <-. vs.
          pose proof (k_gc hostmark _ _ _ A1) as K. pose proof (st_left _ _ K) as K1. pose proof (st_gcint _ _ K) as K2.
          vsin K1. vsin K2. auto.
        - unfold ret in E5. injection E5 as _ <-. vs. auto. }
      pose proof (st_left _ _ S2) as K1. pose proof (st_gcint _ _ S2) as K2. pose proof (st_gccount _ _ S2) as K3.
      vsin K1. vsin K2. vsin K3. rewrite K1, K2, K3, Q1, Q2. split; auto. left. lia.
  - unfold ret in E3. injection E3 as <- <-. specialize (S2 eq_refl).
    pose proof (st_left _ _ S2) as K1. pose proof (st_gcint _ _ S2) as K2. pose proof (st_gccount _ _ S2) as K3.
    vsin K1. vsin K2. vsin K3. rewrite K1, K2, K3. split; auto. left. lia.
Qed.

End Count.

Lemma fetch_inv s w s1 : fetch s = Ok (w, s1) -> s1 = s.
Proof.
  unfold fetch. intro E. destruct (bind_inv _ _ _ _ _ E) as (c & t & A1 & A2).
  unfold cur_ctx, mbind, gets, get_ctx in A1. destruct (znth (v_ctxs s) (v_cur s)) as [[c'|]|]; [|discriminate..].
  injection A1 as <- <-. unfold mbind, self, gets, lift in A2. destruct (rd _ _); [|discriminate].
  injection A2 as _ <-. auto.
Qed.

(** An iteration changes the clock only, of the things in [settled]. *)
Lemma iterate_frame hostmark host : (forall cb args, settles (host cb args)) ->
  forall s s', iterate hostmark host s = Ok (tt, s') ->
  settled (set_errs [] (set_gccount 0 (set_left 0 s))) (set_errs [] (set_gccount 0 (set_left 0 s'))) /\
  exists l, v_errs s' = v_errs s ++ l.
Proof.
  intros Hh s s' E.
  set (R := fun s s' => settled (set_errs [] (set_gccount 0 (set_left 0 s))) (set_errs [] (set_gccount 0 (set_left 0 s'))) /\
              exists l, v_errs s' = v_errs s ++ l).
  assert (forall a b, settled a b -> R a b) as Rs.
  { intros a b []. split; [|auto]. apply settled_vac; vs; auto. }
  assert (forall a b c, R a b -> R b c -> R a c) as Rt.
  { intros a b c (A1 & l1 & A2) (B1 & l2 & B2). split; [eapply settled_trans; eauto|].
    exists (l1 ++ l2). rewrite B2, A2, app_assoc. auto. }
  assert (forall m : M unit, settles m -> forall a x b, m a = Ok (x, b) -> R a b) as Rm by (intros m Hm a x b Hx; apply Rs; eapply Hm; eauto).
  change (R s s'). unfold iterate in E.
  destruct (bind_inv _ _ _ _ _ E) as (w & s1 & E1 & E2). clear E.
  apply Rt with s1; [apply Rs; eapply k_fetch; eauto|].
  destruct (bind_inv _ _ _ _ _ E2) as (go & s2 & E3 & E4). clear E2.
  apply Rt with s2.
  - assert (R s1 (set_gccount (u32 (v_gccount s1 - 1)) s1)) as R0.
    { split; [apply settled_vac; reflexivity|exists []; rewrite app_nil_r; reflexivity]. }
    apply Rt with (1 := R0). unfold tick in E3. unfold mbind at 1, modify at 1 in E3. unfold mbind at 1, self, gets in E3.
    revert E3. generalize (set_gccount (u32 (v_gccount s1 - 1)) s1). intros s3 E3. clear R0.
    destruct (negb (v_gccount s3 =? 0)); [unfold ret in E3; injection E3 as <- <-; apply Rs, settled_refl|].
    destruct (bind_inv _ _ _ _ _ E3) as (g2 & s4 & E5 & E6). clear E3.
    apply Rt with s4.
    + destruct (v_left s3 =? INVALID); [unfold ret in E5; injection E5 as <- <-; apply Rs, settled_refl|].
      destruct (v_left s3 <? v_gcint s3).
      * destruct (bind_inv _ _ _ _ _ E5) as (u & s5 & E7 & E8). unfold mbind, modify, ret in E8. injection E8 as _ <-.
        apply Rt with s5; [apply Rs; eapply k_error; eauto|].
        split; [apply settled_vac; reflexivity|exists []; rewrite app_nil_r; reflexivity].
      * unfold mbind, modify, ret in E5. injection E5 as _ <-.
        split; [apply settled_vac; reflexivity|exists []; rewrite app_nil_r; reflexivity].
    + destruct g2; [|unfold ret in E6; injection E6 as <- <-; apply Rs, settled_refl].
      destruct (bind_inv _ _ _ _ _ E6) as (u & s5 & E7 & E8). unfold mbind, modify, ret in E8. injection E8 as _ <-.
      apply Rt with s5; [|split; [apply settled_vac; reflexivity|exists []; rewrite app_nil_r; reflexivity]].
      destruct (v_newcount s3 =? 0); [|unfold ret in E7; injection E7 as _ <-; apply Rs, settled_refl].
      destruct (bind_inv _ _ _ _ _ E7) as (u2 & s6 & E9 & EA). unfold modify in EA. injection EA as _ <-.
      apply Rt with s6; [apply Rs; eapply k_gc; eauto|].
      split; [apply settled_vac; reflexivity|exists []; rewrite app_nil_r; reflexivity].
  - destruct go; [|unfold ret in E4; injection E4 as <-; apply Rs, settled_refl].
    destruct (bind_inv _ _ _ _ _ E4) as (u & s3 & E5 & E6).
    apply Rt with s3; [apply Rs; eapply k_opcode; eauto|].
    assert (settles (ip <- get_ip ;; set_ip (u32 (ip + 1)))) as K by keep. apply Rs. eapply K; eauto.
Qed.
