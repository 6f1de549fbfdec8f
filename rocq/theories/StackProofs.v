(** * StackProofs: lemmas about the value stack *)
From Verif Require Import Base.
From Verif Require Export ValueProofs StackModel.

Lemma zupd_zupd {A} (l : list A) i x y : zupd (zupd l i x) i y = zupd l i y.
Proof.
  apply list_ext_znth. intro j. rewrite !znth_zupd, zlen_zupd. destruct (i =? j); auto.
  destruct (_ && _); auto.
Qed.

Lemma zupd_same {A} (l : list A) i x : znth l i = Some x -> zupd l i x = l.
Proof.
  intro H. apply list_ext_znth. intro j. rewrite znth_zupd.
  destruct (Z.eqb_spec i j) as [E|]; auto. subst j. apply znth_some_range in H as R.
  rewrite H. destruct (Z.leb_spec 0 i), (Z.ltb_spec i (zlen l)); auto; lia.
Qed.

(** ** Updating the current context *)

Definition upd_cur (f : ctx -> ctx) (s : vm) : vm :=
  match znth (v_ctxs s) (v_cur s) with
  | Some (Some c) => set_ctxs (zupd (v_ctxs s) (v_cur s) (Some (f c))) s
  | _ => s
  end.
Definition with_stack (k : stack) (s : vm) : vm := upd_cur (set_c_stack k) s.

(** [at_stack s k]: the current context is live and its stack is [k]. *)
Definition at_stack (s : vm) (k : stack) : Prop :=
  exists c, znth (v_ctxs s) (v_cur s) = Some (Some c) /\ c_stack c = k.

Lemma at_stack_live s k : at_stack s k -> live_ctx s (v_cur s).
Proof. intros (c & H & _). exists c. auto. Qed.

Lemma mod_cur_upd s f : live_ctx s (v_cur s) -> mod_cur f s = Ok (tt, upd_cur f s).
Proof. intros [c H]. unfold upd_cur. rewrite H. apply mod_cur_ok. auto. Qed.

Lemma upd_cur_cur f s : v_cur (upd_cur f s) = v_cur s.
Proof. unfold upd_cur. destruct (znth _ _) as [[c|]|]; reflexivity. Qed.

Lemma upd_cur_znth f s c : znth (v_ctxs s) (v_cur s) = Some (Some c) ->
  znth (v_ctxs (upd_cur f s)) (v_cur s) = Some (Some (f c)).
Proof.
  intro H. unfold upd_cur. rewrite H. vs. apply znth_zupd_same. apply (znth_some_range _ _ _ H).
Qed.

Lemma upd_cur_upd f g s : upd_cur f (upd_cur g s) = upd_cur (fun c => f (g c)) s.
Proof.
  destruct (znth (v_ctxs s) (v_cur s)) as [[c|]|] eqn:E.
  - unfold upd_cur at 1. rewrite upd_cur_cur, (upd_cur_znth g s c E). unfold upd_cur. rewrite E. vs.
    rewrite zupd_zupd. reflexivity.
  - unfold upd_cur. rewrite E, E. reflexivity.
  - unfold upd_cur. rewrite E, E. reflexivity.
Qed.

Lemma with_stack_twice k1 k2 s : with_stack k1 (with_stack k2 s) = with_stack k1 s.
Proof. unfold with_stack. rewrite upd_cur_upd. reflexivity. Qed.

Lemma with_stack_at k k' s : at_stack s k -> at_stack (with_stack k' s) k'.
Proof.
  intros (c & H & E). exists (set_c_stack k' c). split; [|reflexivity].
  unfold with_stack. rewrite upd_cur_cur. rewrite (upd_cur_znth _ _ _ H). reflexivity.
Qed.

Lemma with_stack_same k s : at_stack s k -> with_stack k s = s.
Proof.
  intros (c & H & E). unfold with_stack, upd_cur. rewrite H.
  replace (set_c_stack k c) with c by (subst k; destruct c; reflexivity).
  rewrite zupd_same by auto. destruct s; reflexivity.
Qed.

(** ** Well-formed stacks and their contents *)

Record kwf (k : stack) : Prop := {
  kw_len : zlen (k_vals k) = k_cap k;
  kw_mask : k_cap k = k_mask k + 1;
  kw_pow : pow2 (k_cap k);
  kw_size : 0 <= k_size k <= k_cap k
}.

(** The values on the stack, bottom first. *)
Definition contents (k : stack) : list value := firstn (Z.to_nat (k_size k)) (k_vals k).

Lemma contents_len k : kwf k -> zlen (contents k) = k_size k.
Proof.
  intros [L _ _ S]. unfold contents, zlen in *. rewrite firstn_length. lia.
Qed.

Lemma kwf_cap k : kwf k -> 1 <= k_cap k <= W31.
Proof. intro W. apply pow2_bounds, W. Qed.

Lemma lor_double m : 0 <= m -> Z.lor (m * 2) 1 = 2 * m + 1.
Proof.
  intro H. rewrite (Z.mul_comm m 2). destruct m; [reflexivity|reflexivity|lia].
Qed.

Lemma land_mask k i : kwf k -> 0 <= Z.land i (k_mask k) < k_cap k.
Proof.
  intro W. destruct (kw_pow _ W) as (e & He & E). pose proof (kw_mask _ W).
  replace (k_mask k) with (2 ^ e - 1) by lia. rewrite E. apply land_mask_range. lia.
Qed.

Lemma land_small i k : kwf k -> 0 <= i < k_cap k -> Z.land i (k_mask k) = i.
Proof.
  intros W H. destruct (kw_pow _ W) as (e & He & E). pose proof (kw_mask _ W).
  replace (k_mask k) with (Z.ones e) by (rewrite Z.ones_equiv; lia).
  rewrite Z.land_ones by lia. apply Z.mod_small. lia.
Qed.

Lemma firstn_zupd {A} (l : list A) i x n : Z.of_nat n <= i -> firstn n (zupd l i x) = firstn n l.
Proof.
  intro H. unfold zupd. destruct (Z.ltb_spec i 0); auto.
  remember (Z.to_nat i) as m. assert (n <= m)%nat by lia. clear Heqm H H0.
  revert n m H1. induction l as [|a l IH]; intros [|n] [|m] H1; cbn; auto; try lia.
  f_equal. apply IH. lia.
Qed.

Lemma firstn_snoc {A} (l : list A) n x : znth l n = Some x ->
  firstn (Z.to_nat (n + 1)) l = firstn (Z.to_nat n) l ++ [x].
Proof.
  intro H. apply znth_some_range in H as R. rewrite znth_def in H. destruct (Z.ltb_spec n 0); [lia|].
  replace (Z.to_nat (n + 1)) with (S (Z.to_nat n)) by lia.
  remember (Z.to_nat n) as m. clear Heqm R n H0. revert m H.
  induction l as [|a l IH]; intros [|m] H; cbn in *; try discriminate.
  - inversion H; reflexivity.
  - f_equal. apply IH. auto.
Qed.

Lemma contents_snoc k st v : kwf k -> contents k = st ++ [v] ->
  k_size k = zlen st + 1 /\ znth (k_vals k) (k_size k - 1) = Some v /\
  firstn (Z.to_nat (k_size k - 1)) (k_vals k) = st.
Proof.
  intros W E. pose proof (contents_len k W) as L. rewrite E, zlen_app, zlen_cons, zlen_nil in L.
  pose proof (zlen_nonneg st). pose proof (kw_size _ W). pose proof (kw_len _ W).
  destruct (znth_in_range (k_vals k) (k_size k - 1)) as [x Hx]; [lia|].
  pose proof (firstn_snoc _ _ _ Hx) as F. replace (k_size k - 1 + 1) with (k_size k) in F by lia.
  unfold contents in E. rewrite E in F. apply app_inj_tail in F. destruct F as [F1 F2]. subst x.
  split; [lia|]. auto.
Qed.

(** ** Slots *)

Lemma cur_ctx_run {B} (f : ctx -> M B) s c : znth (v_ctxs s) (v_cur s) = Some (Some c) ->
  mbind cur_ctx f s = f c s.
Proof. intro H. apply (bind_run _ _ _ _ _ (cur_ctx_ok _ _ H)). Qed.

Lemma get_slot_ok s k i : at_stack s k -> 0 <= i < zlen (k_vals k) ->
  exists v, znth (k_vals k) i = Some v /\ get_slot i s = Ok (v, s).
Proof.
  intros (c & H & E) R. unfold get_slot. rewrite (cur_ctx_run _ _ _ H). rewrite E.
  destruct (znth_in_range (k_vals k) i R) as [v Hv]. exists v. split; auto.
  unfold lift, rd. rewrite Hv. reflexivity.
Qed.

Definition poke (k : stack) (i : Z) (v : value) : stack :=
  mkK (zupd (k_vals k) i v) (k_size k) (k_cap k) (k_mask k).

Lemma set_slot_ok s k i v : at_stack s k -> 0 <= i < zlen (k_vals k) ->
  set_slot i v s = Ok (tt, with_stack (poke k i v) s).
Proof.
  intros (c & H & E) R. unfold set_slot. rewrite (cur_ctx_run _ _ _ H). rewrite E.
  unfold mbind, lift. rewrite wr_ok by auto. apply mod_cur_upd. exists c; auto.
Qed.

Lemma poke_wf k i v : kwf k -> kwf (poke k i v).
Proof. intros [A B C D]. split; cbn; auto. rewrite zlen_zupd. auto. Qed.

Lemma stack_size_ok s k : at_stack s k -> stack_size s = Ok (k_size k, s).
Proof. intros (c & H & E). unfold stack_size. rewrite (cur_ctx_run _ _ _ H), E. reflexivity. Qed.

Lemma peek_idx_ok s k i : at_stack s k -> peek_idx i s = Ok (Z.land (u32 i) (k_mask k), s).
Proof. intros (c & H & E). unfold peek_idx. rewrite (cur_ctx_run _ _ _ H), E. reflexivity. Qed.

Lemma peek_ok s k i : at_stack s k -> kwf k ->
  exists v, znth (k_vals k) (Z.land (u32 i) (k_mask k)) = Some v /\ peek i s = Ok (v, s).
Proof.
  intros A W. unfold peek. rewrite (bind_run _ _ _ _ _ (peek_idx_ok s k i A)).
  apply get_slot_ok; auto. rewrite (kw_len _ W). apply land_mask. auto.
Qed.

(** ** Push *)

(** The capacity a push leaves behind, when it succeeds. *)
Definition grown (k : stack) : stack :=
  if k_size k =? k_cap k then
    mkK (firstn (Z.to_nat (k_size k)) (k_vals k) ++ repeat vzero (Z.to_nat (u32 (k_cap k * 2) - k_size k)))
      (k_size k + 1) (u32 (k_cap k * 2)) (Z.lor (u32 (k_mask k * 2)) 1)
  else mkK (k_vals k) (k_size k + 1) (k_cap k) (k_mask k).

(** Whether there is room for one more value. *)
Definition room (s : vm) (k : stack) : bool :=
  (k_size k <? k_cap k) || ((k_cap k <=? 65535) && (k_cap k * 2 <=? v_maxstack s)).

Lemma push_slot_room s k : at_stack s k -> kwf k -> room s k = true ->
  push_slot s = Ok (k_size k, with_stack (grown k) s).
Proof.
  intros A W R. pose proof (kwf_cap _ W) as C. pose proof (kw_size _ W) as S.
  pose proof (at_stack_live _ _ A) as L. destruct A as (c & H & E).
  unfold push_slot. rewrite (cur_ctx_run _ _ _ H). rewrite E. unfold grown, room in *.
  destruct (Z.eqb_spec (k_cap k) 0); [lia|].
  destruct (Z.eqb_spec (k_size k) (k_cap k)) as [Q|Q].
  - rewrite Q, Z.ltb_irrefl in R. cbn [orb] in R. apply andb_prop in R. destruct R as [R1 R2].
    apply Z.leb_le in R1, R2. destruct (Z.ltb_spec 65535 (k_cap k)); [lia|].
    assert (u32 (k_cap k * 2) = k_cap k * 2) as U by (apply u32_id; unfold is_u32, W32; lia).
    rewrite U. destruct (Z.eqb_spec (k_cap k * 2) 0); [lia|].
    unfold mbind at 1, gets. destruct (Z.ltb_spec (v_maxstack s) (k_cap k * 2)); [lia|].
    rewrite (bind_run _ _ _ _ _ (mod_cur_upd s _ L)). reflexivity.
  - destruct (Z.leb_spec (k_cap k) (k_size k)); [lia|].
    rewrite (bind_run _ _ _ _ _ (mod_cur_upd s _ L)). reflexivity.
Qed.

Lemma push_slot_full s k : at_stack s k -> kwf k -> room s k = false ->
  exists e, push_slot s = Ok (0, set_errs (v_errs s ++ [e]) s).
Proof.
  intros A W R. pose proof (kwf_cap _ W) as C. pose proof (kw_size _ W) as S.
  pose proof (at_stack_live _ _ A) as L. destruct A as (c & H & E).
  unfold push_slot. rewrite (cur_ctx_run _ _ _ H). rewrite E. unfold room in R.
  apply orb_false_iff in R. destruct R as [R1 R2]. apply Z.ltb_ge in R1.
  destruct (Z.eqb_spec (k_cap k) 0); [lia|].
  destruct (Z.eqb_spec (k_size k) (k_cap k)) as [Q|Q]; [|lia].
  destruct (Z.ltb_spec 65535 (k_cap k)).
  { destruct (add_error_ok s (bs "Stack overflow.") L) as [e Ee]. exists e.
    rewrite (bind_run _ _ _ _ _ Ee). reflexivity. }
  destruct (Z.leb_spec (k_cap k) 65535); [|lia]. cbn [andb] in R2. apply Z.leb_gt in R2.
  assert (u32 (k_cap k * 2) = k_cap k * 2) as U by (apply u32_id; unfold is_u32, W32; lia).
  rewrite U. destruct (Z.eqb_spec (k_cap k * 2) 0); [lia|].
  unfold mbind at 1, gets. destruct (Z.ltb_spec (v_maxstack s) (k_cap k * 2)); [|lia].
  destruct (add_error_ok s (bs "Reached stack capacity limit.") L) as [e Ee]. exists e.
  rewrite (bind_run _ _ _ _ _ Ee). reflexivity.
Qed.

Lemma grown_wf s k : kwf k -> room s k = true -> kwf (grown k).
Proof.
  intros W R. pose proof (kwf_cap _ W) as C. pose proof (kw_size _ W) as S. unfold room, grown in *.
  destruct (Z.eqb_spec (k_size k) (k_cap k)) as [Q|Q].
  - rewrite Q, Z.ltb_irrefl in R. cbn [orb] in R. apply andb_prop in R. destruct R as [R1 R2].
    apply Z.leb_le in R1, R2. pose proof (kw_mask _ W).
    assert (u32 (k_cap k * 2) = k_cap k * 2) as U by (apply u32_id; unfold is_u32, W32; lia).
    assert (u32 (k_mask k * 2) = k_mask k * 2) as V by (apply u32_id; unfold is_u32, W32; lia).
    rewrite U, V, lor_double by lia. split; cs.
    + pose proof (contents_len _ W) as CL. unfold contents in CL. rewrite zlen_app, CL, zlen_repeat. lia.
    + lia.
    + replace (k_cap k * 2) with (2 * k_cap k) by lia. apply pow2_double; [apply W|]. unfold W31. lia.
    + lia.
  - split; cs; try apply W. lia.
Qed.

Lemma grown_contents k : kwf k -> firstn (Z.to_nat (k_size k)) (k_vals (grown k)) = contents k.
Proof.
  intro W. unfold grown. destruct (_ =? _); cs; [|reflexivity].
  pose proof (contents_len _ W) as CL. unfold zlen in CL. pose proof (kw_size _ W).
  unfold contents in *. rewrite firstn_app.
  replace (Z.to_nat (k_size k) - length (firstn (Z.to_nat (k_size k)) (k_vals k)))%nat with O by lia.
  rewrite firstn_all2 by lia. cbn. apply app_nil_r.
Qed.

Lemma grown_size k : k_size (grown k) = k_size k + 1.
Proof. unfold grown. destruct (_ =? _); reflexivity. Qed.

Lemma push_ok s k v : at_stack s k -> kwf k -> room s k = true ->
  exists k', push v s = Ok (tt, with_stack k' s) /\ kwf k' /\ contents k' = contents k ++ [v].
Proof.
  intros A W R. unfold push. rewrite (bind_run _ _ _ _ _ (push_slot_room s k A W R)).
  pose proof (grown_wf s k W R) as Wg. pose proof (with_stack_at k (grown k) s A) as Ag.
  pose proof (kw_size _ Wg) as Sg. pose proof (kw_len _ Wg) as Lg. rewrite grown_size in Sg.
  pose proof (kw_size _ W) as Sk.
  rewrite (set_slot_ok _ (grown k)) by (auto; lia). rewrite with_stack_twice.
  eexists. split; [reflexivity|]. split; [apply poke_wf; auto|].
  unfold contents at 1, poke. cs. rewrite grown_size.
  rewrite (firstn_snoc _ _ v) by (apply znth_zupd_same; lia).
  rewrite firstn_zupd by lia. rewrite grown_contents; auto.
Qed.

Lemma push_full s k v : at_stack s k -> kwf k -> room s k = false ->
  exists e, push v s = Ok (tt, with_stack (poke k 0 v) (set_errs (v_errs s ++ [e]) s)).
Proof.
  intros A W R. unfold push. destruct (push_slot_full s k A W R) as [e E]. exists e.
  rewrite (bind_run _ _ _ _ _ E). apply set_slot_ok.
  - destruct A as (c & H & Q). exists c. auto.
  - rewrite (kw_len _ W). pose proof (kwf_cap _ W). lia.
Qed.

(** ** Pop *)

Definition shrunk (k : stack) (n : Z) : stack := mkK (k_vals k) (k_size k - n) (k_cap k) (k_mask k).

Lemma shrunk_wf k n : kwf k -> 0 <= n <= k_size k -> kwf (shrunk k n).
Proof. intros [A B C D] H. split; cbn; auto. lia. Qed.

Lemma shrunk_contents k n : contents (shrunk k n) = firstn (Z.to_nat (k_size k - n)) (k_vals k).
Proof. reflexivity. Qed.

Lemma pop_run s k st v : at_stack s k -> kwf k -> contents k = st ++ [v] ->
  pop s = Ok (v, with_stack (shrunk k 1) s) /\ kwf (shrunk k 1) /\ contents (shrunk k 1) = st /\ 1 <= k_size k.
Proof.
  intros A W E. destruct (contents_snoc k st v W E) as (S & V & F). pose proof (zlen_nonneg st).
  pose proof (kw_size _ W). pose proof (kw_len _ W).
  split; [|split; [apply shrunk_wf; auto; lia|split; [rewrite shrunk_contents; auto|lia]]].
  pose proof (with_stack_at k (shrunk k 1) s A) as A'.
  pose proof (at_stack_live _ _ A) as L. destruct A as (c & Hc & Ec).
  unfold pop. rewrite (cur_ctx_run _ _ _ Hc). rewrite Ec.
  destruct (Z.eqb_spec (k_size k) 0); [lia|].
  rewrite (bind_run _ _ _ _ _ (mod_cur_upd s _ L)).
  destruct (get_slot_ok (with_stack (shrunk k 1) s) (shrunk k 1) (k_size k - 1) A') as (x & X & Y).
  - cbn. lia.
  - cbn in X. rewrite V in X. inversion X; subst x. exact Y.
Qed.

Lemma pop_ok s k st v : at_stack s k -> kwf k -> contents k = st ++ [v] ->
  exists k', pop s = Ok (v, with_stack k' s) /\ kwf k' /\ contents k' = st.
Proof. intros A W E. destruct (pop_run s k st v A W E) as (P & Q & R & _). eauto. Qed.

Lemma shrunk_shrunk k a b : shrunk (shrunk k a) b = shrunk k (a + b).
Proof. unfold shrunk. cs. f_equal. lia. Qed.

(** Pushing where something was popped before. *)
Lemma push_slot_spare s k : at_stack s k -> kwf k -> k_size k < k_cap k ->
  push_slot s = Ok (k_size k, with_stack (shrunk k (-1)) s).
Proof.
  intros A W H. rewrite (push_slot_room s k A W).
  - unfold grown, shrunk. destruct (Z.eqb_spec (k_size k) (k_cap k)); [lia|]. repeat f_equal. 
  - unfold room. apply Z.ltb_lt in H. rewrite H. reflexivity.
Qed.

Lemma fill_spare k v : kwf k -> k_size k < k_cap k ->
  kwf (poke (shrunk k (-1)) (k_size k) v) /\ contents (poke (shrunk k (-1)) (k_size k) v) = contents k ++ [v].
Proof.
  intros W H. pose proof (kw_len _ W). pose proof (kw_size _ W). split.
  - destruct W as [A B C D]. split; cbn; auto; [rewrite zlen_zupd; auto|lia].
  - unfold contents at 1, poke, shrunk. cs. replace (k_size k - -1) with (k_size k + 1) by lia.
    rewrite (firstn_snoc _ _ v) by (apply znth_zupd_same; lia).
    rewrite firstn_zupd by lia. reflexivity.
Qed.

Lemma push_spare s k v : at_stack s k -> kwf k -> k_size k < k_cap k ->
  push v s = Ok (tt, with_stack (poke (shrunk k (-1)) (k_size k) v) s).
Proof.
  intros A W H. unfold push. rewrite (bind_run _ _ _ _ _ (push_slot_spare s k A W H)).
  pose proof (kw_len _ W). pose proof (kw_size _ W).
  rewrite (set_slot_ok _ (shrunk k (-1))); [rewrite with_stack_twice; reflexivity|eapply with_stack_at; eauto|cbn; lia].
Qed.

Lemma pop_empty s k : at_stack s k -> kwf k -> k_size k = 0 ->
  exists e v, pop s = Ok (v, set_errs (v_errs s ++ [e]) s).
Proof.
  intros A W E. pose proof (at_stack_live _ _ A) as L.
  destruct (add_error_ok s (bs "Stack underflow in pop.") L) as [e Ee].
  destruct (get_slot_ok (set_errs (v_errs s ++ [e]) s) k 0) as (x & X & Y).
  - destruct A as (c & Hc & Ec). exists c. auto.
  - rewrite (kw_len _ W). pose proof (kwf_cap _ W). lia.
  - exists e, x. destruct A as (c & Hc & Ec). unfold pop. rewrite (cur_ctx_run _ _ _ Hc). rewrite Ec, E. cbn [Z.eqb].
    rewrite (bind_run _ _ _ _ _ Ee). exact Y.
Qed.

Lemma pop_n_ok s k n : at_stack s k -> kwf k -> 0 <= n <= k_size k ->
  pop_n n s = Ok (tt, with_stack (shrunk k n) s).
Proof.
  intros A W R. pose proof (at_stack_live _ _ A) as L. destruct A as (c & Hc & Ec).
  unfold pop_n. rewrite (cur_ctx_run _ _ _ Hc). rewrite Ec.
  destruct (Z.ltb_spec (k_size k) n); [lia|]. apply mod_cur_upd. auto.
Qed.

Lemma pop_n_under s k n : at_stack s k -> kwf k -> k_size k < n ->
  exists e, pop_n n s = Ok (tt, with_stack (shrunk k (k_size k)) (set_errs (v_errs s ++ [e]) s)).
Proof.
  intros A W R. pose proof (at_stack_live _ _ A) as L.
  destruct (add_error_ok s (bs "Stack underflow in popN.") L) as [e Ee]. exists e.
  destruct A as (c & Hc & Ec). unfold pop_n. rewrite (cur_ctx_run _ _ _ Hc). rewrite Ec.
  destruct (Z.ltb_spec (k_size k) n); [|lia]. rewrite (bind_run _ _ _ _ _ Ee).
  rewrite mod_cur_upd by (exists c; auto). unfold shrunk, with_stack. rewrite Z.sub_diag. reflexivity.
Qed.

Lemma contents_app_pop k a b : kwf k -> contents k = a ++ b ->
  contents (shrunk k (zlen b)) = a /\ 0 <= zlen b <= k_size k.
Proof.
  intros W E. pose proof (contents_len _ W) as L. rewrite E, zlen_app in L.
  pose proof (zlen_nonneg a). pose proof (zlen_nonneg b). split; [|lia].
  unfold contents, shrunk in *. cs. 
  replace (Z.to_nat (k_size k - zlen b)) with (length a) by (unfold zlen in *; lia).
  assert (firstn (length a) (firstn (Z.to_nat (k_size k)) (k_vals k)) = firstn (length a) (k_vals k)) as F.
  { rewrite firstn_firstn. f_equal. unfold zlen in *. lia. }
  rewrite <- F, E. rewrite firstn_app, Nat.sub_diag, firstn_all. cbn. apply app_nil_r.
Qed.

Lemma stack_init_wf : kwf stack_init.
Proof. split; cbn; try lia. exists 0. split; [lia|reflexivity]. Qed.
