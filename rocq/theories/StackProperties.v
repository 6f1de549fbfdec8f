(** * Property C17: the value stack *)
From Verif Require Import Base BaseFacts State StackModel StackSpec StackProofs StrProperties.

Lemma upd_cur_maxstack f s : v_maxstack (upd_cur f s) = v_maxstack s.
Proof. unfold upd_cur. destruct (znth _ _) as [[c|]|]; reflexivity. Qed.
Lemma upd_cur_errs f s : v_errs (upd_cur f s) = v_errs s.
Proof. unfold upd_cur. destruct (znth _ _) as [[c|]|]; reflexivity. Qed.

Lemma app_one_neq {A} (l : list A) e : l ++ [e] <> l.
Proof. intro H. apply (f_equal (@length A)) in H. rewrite app_length in H. cbn in H. lia. Qed.

Lemma poke_at_ok s k i v : at_stack s k -> kwf k ->
  poke_at i v s = Ok (tt, with_stack (poke k (Z.land (u32 i) (k_mask k)) v) s).
Proof.
  intros A W. unfold poke_at. rewrite (bind_run _ _ _ _ _ (peek_idx_ok s k i A)).
  apply set_slot_ok; auto. rewrite (kw_len _ W). apply land_mask. auto.
Qed.

Lemma contents_znth k i : kwf k -> 0 <= i < k_size k -> znth (contents k) i = znth (k_vals k) i.
Proof. intros W H. apply znth_firstn. auto. Qed.

Lemma contents_poke k i v : kwf k -> 0 <= i < k_size k -> contents (poke k i v) = zupd (contents k) i v.
Proof.
  intros W H. apply list_ext_znth. intro j. rewrite znth_zupd. rewrite contents_len by auto.
  pose proof (poke_wf k i v W) as W'.
  destruct (Z_lt_dec j 0); [|destruct (Z_lt_dec j (k_size k))].
  - rewrite !(znth_out _ j) by lia. destruct (Z.eqb_spec i j); auto. lia.
  - rewrite !contents_znth by (auto; cbn; lia). unfold poke. cs. rewrite znth_zupd.
    rewrite (kw_len _ W). pose proof (kw_size _ W). destruct (Z.eqb_spec i j); auto.
    destruct (Z.leb_spec 0 i), (Z.ltb_spec i (k_cap k)), (Z.ltb_spec i (k_size k)); auto; lia.
  - pose proof (contents_len _ W) as L1. pose proof (contents_len _ W') as L2. cbn [poke k_size] in L2.
    rewrite !(znth_out _ j) by lia. destruct (Z.eqb_spec i j); auto. lia.
Qed.

Lemma stack_history_inv M s l : stack_history M s l ->
  exists k, at_stack s k /\ kwf k /\ contents k = l /\ v_maxstack s = M /\ k_cap k <= Z.max 1 M /\ k_cap k <= 65536.
Proof.
  induction 1 as [s F E | s l v s' H IH E N | s l v x s' H IH E | s a b s' H IH E | s l i v s' H IH R E].
  - exists stack_init. sp; auto; try (cbn; lia). apply stack_init_wf.
  - destruct IH as (k & A & W & C & Mx & Cap & Cap2). destruct (room s k) eqn:Rm.
    + pose proof E as E0. unfold push in E0. rewrite (bind_run _ _ _ _ _ (push_slot_room s k A W Rm)) in E0.
      pose proof (with_stack_at k (grown k) s A) as Ag. pose proof (grown_wf s k W Rm) as Wg.
      pose proof (kw_size _ Wg) as Sg. pose proof (kw_len _ Wg) as Lg. rewrite grown_size in Sg. pose proof (kw_size _ W) as Sk.
      rewrite (set_slot_ok _ (grown k)) in E0 by (auto; lia). rewrite with_stack_twice in E0. inversion E0 as [Eq].
      exists (poke (grown k) (k_size k) v). subst s'. sp.
      * apply (with_stack_at k); auto.
      * apply poke_wf. auto.
      * unfold contents at 1, poke. cs. rewrite grown_size.
        rewrite (firstn_snoc _ _ v) by (apply znth_zupd_same; lia).
        rewrite firstn_zupd by lia. rewrite grown_contents by auto. congruence.
      * unfold with_stack. rewrite upd_cur_maxstack. auto.
      * cbn [poke k_cap]. unfold grown, room in *. destruct (Z.eqb_spec (k_size k) (k_cap k)) as [Q|]; cs; [|lia].
        rewrite Q, Z.ltb_irrefl in Rm. cbn [orb] in Rm. apply andb_prop in Rm. destruct Rm as [R1 R2].
        apply Z.leb_le in R1, R2. pose proof (kwf_cap _ W). rewrite u32_id; [lia|]. unfold is_u32, W32. lia.
      * cbn [poke k_cap]. unfold grown, room in *. destruct (Z.eqb_spec (k_size k) (k_cap k)) as [Q|]; cs; [|lia].
        rewrite Q, Z.ltb_irrefl in Rm. cbn [orb] in Rm. apply andb_prop in Rm. destruct Rm as [R1 R2].
        apply Z.leb_le in R1, R2. pose proof (kwf_cap _ W). destruct (kw_pow _ W) as (e & He & Ee).
        rewrite u32_id by (unfold is_u32, W32; lia).
        destruct (Z_le_gt_dec e 15) as [Le|Gt].
        -- assert (2 ^ e <= 2 ^ 15) by (apply Z.pow_le_mono_r; lia). change (2 ^ 15) with 32768 in *. lia.
        -- assert (2 ^ 16 <= 2 ^ e) by (apply Z.pow_le_mono_r; lia). change (2 ^ 16) with 65536 in *. lia.
    + exfalso. destruct (push_full s k v A W Rm) as (e & E'). rewrite E in E'. inversion E' as [Es]. subst s'.
      unfold with_stack in N. rewrite upd_cur_errs in N. vsin N. exact (app_one_neq _ _ N).
  - destruct IH as (k & A & W & C & Mx & Cap & Cap2).
    destruct (contents_snoc k l v W C) as (S1 & _). pose proof (zlen_nonneg l).
    pose proof E as E0. unfold pop in E0. pose proof A as (c & Hc & Ec). rewrite (cur_ctx_run _ _ _ Hc), Ec in E0.
    destruct (Z.eqb_spec (k_size k) 0); [lia|].
    rewrite (bind_run _ _ _ _ _ (mod_cur_upd s _ (at_stack_live _ _ A))) in E0.
    fold (shrunk k 1) in E0. fold (with_stack (shrunk k 1) s) in E0.
    destruct (get_slot_ok (with_stack (shrunk k 1) s) (shrunk k 1) (k_size k - 1) (with_stack_at _ _ _ A)) as (y & Y1 & Y2).
    { cbn. rewrite (kw_len _ W). pose proof (kw_size _ W). lia. }
    rewrite Y2 in E0. inversion E0; subst y s'.
    destruct (contents_app_pop k l [v] W C) as [C' R']. rewrite zlen_cons, zlen_nil in C', R'.
    exists (shrunk k 1). sp; auto.
    + apply (with_stack_at k); auto.
    + apply shrunk_wf; [auto|lia].
    + unfold with_stack. rewrite upd_cur_maxstack. auto.
  - destruct IH as (k & A & W & C & Mx & Cap & Cap2).
    destruct (contents_app_pop k a b W C) as [C' R'].
    rewrite (pop_n_ok s k (zlen b) A W R') in E. inversion E; subst s'.
    exists (shrunk k (zlen b)). sp; auto.
    + apply (with_stack_at k); auto.
    + apply shrunk_wf; auto.
    + unfold with_stack. rewrite upd_cur_maxstack. auto.
  - destruct IH as (k & A & W & C & Mx & Cap & Cap2).
    rewrite (poke_at_ok s k i v A W) in E. inversion E; subst s'.
    pose proof (contents_len _ W) as Ln. rewrite C in Ln. pose proof (kw_size _ W). pose proof (kwf_cap _ W).
    assert (Z.land (u32 i) (k_mask k) = i) as Q.
    { rewrite u32_id by (unfold is_u32, W32, W31 in *; lia). apply land_small; auto; lia. }
    rewrite Q. exists (poke k i v). sp; auto.
    + apply (with_stack_at k); auto.
    + apply poke_wf; auto.
    + rewrite contents_poke by (auto; lia). congruence.
    + unfold with_stack. rewrite upd_cur_maxstack. auto.
Qed.

(** C17: a push is always defined.  It either extends the stack by the value
    or reports an error; it cannot fail while fewer than 65536 values and at
    most half the configured maximum are on the stack, and must fail when
    65536 values or the configured maximum is reached. *)
Theorem C17_push : forall M s l v, stack_history M s l ->
  exists s', push v s = Ok (tt, s') /\
    ((v_errs s' = v_errs s /\ stack_history M s' (l ++ [v])) \/ (exists e, v_errs s' = v_errs s ++ [e])) /\
    (zlen l < 65536 -> 2 * zlen l <= M -> v_errs s' = v_errs s) /\
    (65536 <= zlen l \/ Z.max 1 M <= zlen l -> v_errs s' <> v_errs s).
Proof.
  intros M s l v H. destruct (stack_history_inv M s l H) as (k & A & W & C & Mx & Cap & Cap2).
  pose proof (contents_len _ W) as Ln. rewrite C in Ln. pose proof (kw_size _ W). pose proof (kwf_cap _ W).
  destruct (room s k) eqn:Rm.
  - destruct (push_ok s k v A W Rm) as (k' & E' & W' & C'). exists (with_stack k' s). split; [auto|].
    assert (v_errs (with_stack k' s) = v_errs s) as Ne by (unfold with_stack; apply upd_cur_errs).
    split; [left; split; [auto|]; apply (kh_push M s l v); auto|]. split; [auto|].
    intro Q. exfalso. unfold room in Rm. rewrite Mx in Rm.
    destruct (Z.ltb_spec (k_size k) (k_cap k)); [lia|]. cbn [orb] in Rm. apply andb_prop in Rm.
    destruct Rm as [R1 R2]. apply Z.leb_le in R1, R2. lia.
  - destruct (push_full s k v A W Rm) as (e & E'). eexists. split; [exact E'|].
    assert (v_errs (with_stack (poke k 0 v) (set_errs (v_errs s ++ [e]) s)) = v_errs s ++ [e]) as Ne
      by (unfold with_stack; rewrite upd_cur_errs; reflexivity).
    rewrite Ne. split; [right; exists e; auto|]. split.
    + intros Q1 Q2. exfalso. unfold room in Rm. rewrite Mx in Rm. apply orb_false_iff in Rm. destruct Rm as [R1 R2].
      apply Z.ltb_ge in R1. apply andb_false_iff in R2. destruct R2 as [R2|R2].
      * apply Z.leb_gt in R2. lia.
      * apply Z.leb_gt in R2. lia.
    + intros _. apply app_one_neq.
Qed.
Print Assumptions C17_push.

(** C17: pop returns the value most recently pushed and not yet popped, with
    no error; on an empty stack it reports an error and leaves it empty. *)
Theorem C17_pop : forall M s l v, stack_history M s (l ++ [v]) ->
  exists s', pop s = Ok (v, s') /\ v_errs s' = v_errs s /\ stack_history M s' l.
Proof.
  intros M s l v H. destruct (stack_history_inv M s _ H) as (k & A & W & C & Mx & Cap & Cap2).
  destruct (pop_ok s k l v A W C) as (k' & E & W' & C'). exists (with_stack k' s). sp.
  - auto.
  - unfold with_stack. apply upd_cur_errs.
  - apply (kh_pop M s l v v); auto.
Qed.
Print Assumptions C17_pop.

Theorem C17_pop_empty : forall M s, stack_history M s [] ->
  exists x e s', pop s = Ok (x, s') /\ v_errs s' = v_errs s ++ [e] /\ stack_size s' = Ok (0, s').
Proof.
  intros M s H. destruct (stack_history_inv M s _ H) as (k & A & W & C & Mx & Cap & Cap2).
  pose proof (contents_len _ W) as Ln. rewrite C, zlen_nil in Ln.
  destruct (pop_empty s k A W (eq_sym Ln)) as (e & v & E). exists v, e. eexists. sp; [exact E|reflexivity|].
  rewrite Ln. apply stack_size_ok. destruct A as (c & Hc & Ec). exists c. auto.
Qed.
Print Assumptions C17_pop_empty.

(** C17: popping several removes exactly that many; popping more than there
    are reports an error and leaves the stack empty. *)
Theorem C17_popn : forall M s l n, stack_history M s l -> 0 <= n ->
  exists s', pop_n n s = Ok (tt, s') /\
    (n <= zlen l -> v_errs s' = v_errs s /\ stack_history M s' (firstn (Z.to_nat (zlen l - n)) l)) /\
    (zlen l < n -> exists e, v_errs s' = v_errs s ++ [e] /\ stack_size s' = Ok (0, s')).
Proof.
  intros M s l n H N. destruct (stack_history_inv M s _ H) as (k & A & W & C & Mx & Cap & Cap2).
  pose proof (contents_len _ W) as Ln. rewrite C in Ln.
  destruct (Z_le_gt_dec n (zlen l)) as [Le|Gt].
  - exists (with_stack (shrunk k n) s). rewrite (pop_n_ok s k n) by (auto; lia). split; [auto|]. split; [|lia].
    intros _. split; [unfold with_stack; apply upd_cur_errs|].
    remember (firstn (Z.to_nat (zlen l - n)) l) as a. remember (skipn (Z.to_nat (zlen l - n)) l) as b.
    assert (l = a ++ b) as El by (subst a b; symmetry; apply firstn_skipn).
    assert (zlen b = n) as Lb by (subst b; unfold zlen in *; rewrite skipn_length; lia).
    apply (kh_popn M s a b); [congruence|]. rewrite Lb. apply pop_n_ok; auto; lia.
  - destruct (pop_n_under s k n A W) as (e & E); [lia|]. eexists. split; [exact E|]. split; [lia|].
    intros _. exists e. split.
    + unfold with_stack. rewrite upd_cur_errs. reflexivity.
    + assert (at_stack (set_errs (v_errs s ++ [e]) s) k) as A' by (destruct A as (c & Hc & Ec); exists c; auto).
      pose proof (with_stack_at k (shrunk k (k_size k)) _ A') as A2.
      rewrite (stack_size_ok _ _ A2). cbn. rewrite Z.sub_diag. reflexivity.
Qed.
Print Assumptions C17_popn.

(** C17: reading and overwriting through any 32-bit index touches only
    allocated slots; indices on the stack reach exactly that element. *)
Theorem C17_peek_poke_safe : forall M s l i v, stack_history M s l ->
  (exists x, peek i s = Ok (x, s) /\ (0 <= i < zlen l -> znth l i = Some x)) /\
  (exists s', poke_at i v s = Ok (tt, s') /\ v_errs s' = v_errs s /\
     (0 <= i < zlen l -> stack_history M s' (zupd l i v))).
Proof.
  intros M s l i v H. destruct (stack_history_inv M s _ H) as (k & A & W & C & Mx & Cap & Cap2).
  pose proof (contents_len _ W) as Ln. rewrite C in Ln. pose proof (kw_size _ W). pose proof (kwf_cap _ W).
  split.
  - destruct (peek_ok s k i A W) as (x & X & E). exists x. split; auto. intro R.
    rewrite u32_id in X by (unfold is_u32, W32, W31 in *; lia). rewrite land_small in X by (auto; lia).
    rewrite <- C, contents_znth; auto. lia.
  - rewrite (poke_at_ok s k i v A W). eexists. split; [reflexivity|]. split; [unfold with_stack; apply upd_cur_errs|].
    intro R. apply (kh_poke M s); auto. apply poke_at_ok; auto.
Qed.
Print Assumptions C17_peek_poke_safe.

(** C17: the stack never holds more than the configured maximum (or one) nor
    more than 65536 values. *)
Theorem C17_bounded : forall M s l, stack_history M s l -> zlen l <= Z.max 1 M /\ zlen l <= 65536.
Proof.
  intros M s l H. destruct (stack_history_inv M s _ H) as (k & A & W & C & Mx & Cap & Cap2).
  pose proof (contents_len _ W) as Ln. rewrite C in Ln. pose proof (kw_size _ W). lia.
Qed.
Print Assumptions C17_bounded.

(** Non-vacuity: three pushes (crossing two growth boundaries), an overwrite
    of the middle element, one pop. *)
Definition ex_k0 : vm :=
  mkVm [] [Some (mkC stack_init 0 None vnil 2)] 0 [] 0 [] 0
    tab_init (repeat [] 256) tab_init [] [] 0 0 0 0 0 [] [] 100 0 [] 0 [] [] [] 0 [].
Definition ex_k1 := ex_run (push (vint 1)) ex_k0.
Definition ex_k2 := ex_run (push (vint 2)) ex_k1.
Definition ex_k3 := ex_run (push (vint 3)) ex_k2.
Definition ex_k4 := ex_run (poke_at 1 (vint 9)) ex_k3.
Definition ex_k5 := ex_run pop ex_k4.
Example ex_stack_history : stack_history 100 ex_k5 [vint 1; vint 9].
Proof.
  apply (kh_pop 100 ex_k4 [vint 1; vint 9] (vint 3) (vint 3)); [|vm_compute; reflexivity].
  apply (kh_poke 100 ex_k3 [vint 1; vint 2; vint 3] 1 (vint 9)); [|vm_compute; split; congruence|vm_compute; reflexivity].
  apply (kh_push 100 ex_k2 [vint 1; vint 2]); [|vm_compute; reflexivity|reflexivity].
  apply (kh_push 100 ex_k1 [vint 1]); [|vm_compute; reflexivity|reflexivity].
  apply (kh_push 100 ex_k0 []); [|vm_compute; reflexivity|reflexivity].
  apply kh_init; [eexists; split; reflexivity|reflexivity].
Qed.
