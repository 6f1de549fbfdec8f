(** * EmitProofs: the code the compiler writes for expressions

    Whenever compiling an expression reports no error, what has been appended
    to the code is related to the expression by [xcode] of CodeRel.v. *)

From Verif Require Import Base BaseFacts State MonadFacts TableProofs StrProofs TokenModel CsModel ExprModel CompModel KFacts ParseSpec ParseProofs RunSpec CodeRel.
Ltac Zify.zify_post_hook ::= Z.div_mod_to_equations.

Ltac kb H := let x := fresh "x" in let k := fresh "k" in let E := fresh "E" in
  apply kbind_inv in H; destruct H as (x & k & E & H).

Scheme expr_mi := Induction for expr Sort Prop with args_mi := Induction for args Sort Prop.
Combined Scheme expr_args_mi from expr_mi, args_mi.

Section Lits.
Context {LT : Lits}.

(** The texts of the literals kept so far are those of [lit]. *)
Definition klit (k : comp) : Prop := tab_wf (v_strs (k_vm k)) ->
  forall i e, get_str_entry (k_vm k) i = Some e -> s_keep e = true -> lit i = Some (s_str e).
(** No error so far. *)
Definition noerr (k : comp) : Prop := v_errs (k_vm k) = [] /\ klit k.
Definition kcode (k : comp) : list Z := v_code (k_vm k).
Definition kmem (k : comp) : Z -> option Z := fun i => znth (kcode k) i.

(** ** Errors are never withdrawn *)

Definition errs (k k' : comp) : Prop := noerr k' -> noerr k.

Lemma add_error_errs l f m s u s' : add_error_ex l f m s = Ok (u, s') -> v_errs s' <> [].
Proof.
  unfold add_error_ex. intro H. apply bind_inv in H. destruct H as (c & s1 & _ & H).
  apply bind_inv in H. destruct H as (s2 & s3 & E & H). injection E as <- <-.
  injection H as _ <-. vs. intro X. symmetry in X. apply app_cons_not_nil in X. exact X.
Qed.

Lemma intern_fields t s i s' : find_or_add_string t s = Ok (i, s') ->
  v_errs s' <> [] \/ exists x y, s' = set_byhash x (set_strs y s).
Proof.
  unfold find_or_add_string. intro H. apply bind_inv in H. destruct H as (s0 & s1 & E & H). injection E as <- <-.
  apply bind_inv in H. destruct H as (ch & s2 & E & H). unfold lift in E. destruct (rd _ _) in E; [|discriminate]. injection E as <- <-.
  apply bind_inv in H. destruct H as (fd & s2 & E & H). unfold lift in E. destruct (find_in_chain _ _ _) in E; [|discriminate]. injection E as <- <-.
  destruct a0 as [j|].
  - injection H as _ <-. right. exists (v_byhash s), (v_strs s). destruct s; reflexivity.
  - destruct (tab_add _ _) as [[j t']|].
    + apply bind_inv in H. destruct H as (sl & s2 & E & H). unfold lift in E. destruct (wr _ _ _) in E; [|discriminate]. injection E as <- <-.
      unfold mbind, modify, ret in H. injection H as _ <-. right. eexists _, _. reflexivity.
    + apply bind_inv in H. destruct H as (u & s2 & E & H). apply add_error_errs in E. injection H as _ <-. left. exact E.
Qed.

Lemma keep_fields i s u s' : keep_string i s = Ok (u, s') -> exists y, s' = set_strs y s.
Proof.
  unfold keep_string. intro H. apply bind_inv in H. destruct H as (s0 & s1 & E & H). injection E as <- <-.
  destruct (get_str_entry s i).
  - apply bind_inv in H. destruct H as (sl & s2 & E & H). unfold lift in E. destruct (wr _ _ _) in E; [|discriminate]. injection E as <- <-.
    injection H as _ <-. eexists. reflexivity.
  - injection H as _ <-. exists (v_strs s). destruct s; reflexivity.
Qed.

(** Strings stay what they are. *)
Definition smono (t t' : table nkstr) : Prop := tab_wf t -> tab_wf t' /\
  forall j e, tab_get t j = Some e -> exists e', tab_get t' j = Some e' /\ s_str e' = s_str e /\ (s_keep e = true -> s_keep e' = true).
Lemma smono_refl t : smono t t.
Proof. intro W. split; [exact W|]. eauto. Qed.

Lemma tab_set_ok (t : table nkstr) i e e' : tab_wf t -> tab_get t i = Some e ->
  tab_wf (TableModel.mkT (zupd (t_slots t) i (Some e')) (t_holes t)) /\
  forall j, tab_get (TableModel.mkT (zupd (t_slots t) i (Some e')) (t_holes t)) j = if j =? i then Some e' else tab_get t j.
Proof.
  intros W G. pose proof G as G1. apply tab_get_some in G1. pose proof (znth_some_range _ _ _ G1) as Ri. split.
  - split; cbn [t_holes t_slots]; [apply W| |unfold t_cap; cbn [t_slots]; rewrite zlen_zupd; apply W].
    intro j. rewrite (tw_holes _ W). destruct (Z.eq_dec i j) as [<-|Nj].
    + rewrite znth_zupd_same by exact Ri. rewrite G1. split; congruence.
    + rewrite znth_zupd_other by exact Nj. tauto.
  - intro j. rewrite !tab_get_znth. cbn [t_slots]. destruct (Z.eqb_spec j i) as [->|Nj].
    + rewrite znth_zupd_same by exact Ri. reflexivity.
    + rewrite znth_zupd_other by congruence. reflexivity.
Qed.

Lemma intern_mono t s i s' : find_or_add_string t s = Ok (i, s') -> v_errs s' <> [] \/ smono (v_strs s) (v_strs s').
Proof.
  unfold find_or_add_string. intro H. apply bind_inv in H. destruct H as (s0 & s1 & E & H). injection E as <- <-.
  apply bind_inv in H. destruct H as (ch & s2 & E & H). unfold lift in E. destruct (rd _ _) in E; [|discriminate]. injection E as <- <-.
  apply bind_inv in H. destruct H as (fd & s2 & E & H). unfold lift in E. destruct (find_in_chain _ _ _) in E; [|discriminate]. injection E as <- <-.
  destruct a0 as [j|].
  - injection H as _ <-. right. apply smono_refl.
  - destruct (tab_add _ _) as [[j t']|] eqn:A.
    + apply bind_inv in H. destruct H as (sl & s2 & E & H). unfold lift, wr in E. destruct (znth (t_slots t') j) eqn:Z in E; [|discriminate]. injection E as <- <-.
      unfold mbind, modify, ret in H. injection H as _ <-. right. vs. intro W. destruct (tab_add_ok _ _ _ _ W A) as (W' & Fr & _ & _ & G).
      pose proof (G j) as Gj. rewrite Z.eqb_refl in Gj. destruct (tab_set_ok t' j _ (mkS j 0 false (str_hash t) t) W' Gj) as [W2 G2].
      split; [exact W2|]. intros b e Ga. rewrite G2, G. destruct (Z.eqb_spec b j) as [->|]; [congruence|]. eauto.
    + apply bind_inv in H. destruct H as (u & s2 & E & H). apply add_error_errs in E. injection H as _ <-. left. exact E.
Qed.
Lemma keep_inv i s u s' : keep_string i s = Ok (u, s') ->
  s' = s /\ get_str_entry s i = None \/
  exists e, get_str_entry s i = Some e /\ s' = set_strs (TableModel.mkT (zupd (t_slots (v_strs s)) i (Some (set_s_keep true e))) (t_holes (v_strs s))) s.
Proof.
  unfold keep_string. intro H. apply bind_inv in H. destruct H as (s0 & s1 & E & H). injection E as <- <-.
  destruct (get_str_entry s i) as [e|].
  - apply bind_inv in H. destruct H as (sl & s2 & E & H). unfold lift, wr in E. destruct (znth _ _) in E; [|discriminate]. injection E as <- <-.
    injection H as _ <-. right. exists e. auto.
  - injection H as _ <-. auto.
Qed.
Lemma keep_mono i s u s' : keep_string i s = Ok (u, s') -> smono (v_strs s) (v_strs s').
Proof.
  intro H. apply keep_inv in H. destruct H as [[-> _]|(e & G & ->)]; [apply smono_refl|]. vs. intro W.
  destruct (tab_set_ok _ i e (set_s_keep true e) W G) as [W2 G2]. split; [exact W2|]. intros j f Gj. rewrite G2.
  destruct (Z.eqb_spec j i) as [->|]; [|eauto]. unfold get_str_entry in G. rewrite G in Gj. injection Gj as <-. eexists. split; [reflexivity|]. split; reflexivity.
Qed.
Lemma keep_wf i s u s' : keep_string i s = Ok (u, s') -> str_wf (v_strs s) (v_byhash s) -> str_wf (v_strs s') (v_byhash s').
Proof.
  intros H W. apply keep_inv in H. destruct H as [[-> _]|(e & G & ->)]; [exact W|]. vs.
  destruct (tab_set_ok _ i e (set_s_keep true e) (sw_tab _ _ W) G) as [W2 G2]. unfold get_str_entry in G.
  assert (forall j f, tab_get (TableModel.mkT (zupd (t_slots (v_strs s)) i (Some (set_s_keep true e))) (t_holes (v_strs s))) j = Some f ->
    exists g, tab_get (v_strs s) j = Some g /\ s_str f = s_str g /\ s_idx f = s_idx g /\ s_hash f = s_hash g) as B.
  { intros j f. rewrite G2. destruct (Z.eqb_spec j i) as [->|]; [|eauto]. intro X. injection X as <-. exists e. auto. }
  split; [exact W2|apply W| | | |apply W|].
  - intros j f X. destruct (B _ _ X) as (g & Y & -> & -> & ->). exact (sw_ent _ _ W _ _ Y).
  - intros j f X. destruct (B _ _ X) as (g & Y & -> & _). exact (sw_in _ _ W _ _ Y).
  - intros b c j X Y. destruct (sw_chain _ _ W _ _ _ X Y) as (f & F1 & F2). rewrite G2. destruct (Z.eqb_spec j i) as [->|]; [|eauto].
    eexists. split; [reflexivity|]. rewrite G in F1. injection F1 as <-. exact F2.
  - intros a b f g X Y. destruct (B _ _ X) as (f1 & X1 & -> & _). destruct (B _ _ Y) as (g1 & Y1 & -> & _). exact (sw_uniq _ _ W _ _ _ _ X1 Y1).
Qed.
Lemma keep_kept i s u s' e : keep_string i s = Ok (u, s') -> tab_wf (v_strs s) -> get_str_entry s i = Some e ->
  exists e', get_str_entry s' i = Some e' /\ s_str e' = s_str e /\ s_keep e' = true.
Proof.
  intros H W G. apply keep_inv in H. destruct H as [[_ X]|(f & F & ->)]; [congruence|]. rewrite G in F. injection F as <-. unfold get_str_entry. vs.
  destruct (tab_set_ok _ i e (set_s_keep true e) W G) as [_ G2]. exists (set_s_keep true e). rewrite G2, Z.eqb_refl. auto.
Qed.
Lemma intern_wf t s i s' : find_or_add_string t s = Ok (i, s') -> str_wf (v_strs s) (v_byhash s) -> is_text t ->
  v_errs s' <> [] \/ str_wf (v_strs s') (v_byhash s') /\ exists e, get_str_entry s' i = Some e /\ s_str e = t.
Proof.
  intros H W T. destruct (find_or_add_cases s t W T) as [(j & s2 & E & W2 & I)|[E _]]; rewrite H in E.
  - injection E as <- <-. destruct I as [(e & G & X & ->)|[(t2 & bh & -> & _ & _ & G & _)|(-> & (e & ->) & _)]].
    + right. split; [exact W|]. eauto.
    + right. split; [exact W2|]. unfold get_str_entry. vs. rewrite G, Z.eqb_refl. eauto.
    + left. vs. intro X. symmetry in X. apply app_cons_not_nil in X. exact X.
  - left. symmetry in E. apply bind_inv in E. destruct E as (u & s2 & E & X). injection X as _ <-. unfold add_error in E. apply add_error_errs in E. exact E.
Qed.

Lemma klit_mono k k' : smono (v_strs (k_vm k)) (v_strs (k_vm k')) -> klit k' -> klit k.
Proof.
  intros M L W i e G K. destruct (M W) as [W' M']. destruct (M' _ _ G) as (e' & G' & <- & K'). exact (L W' _ _ G' (K' K)).
Qed.
Lemma errs_same k k' : v_errs (k_vm k') = v_errs (k_vm k) -> v_strs (k_vm k') = v_strs (k_vm k) -> errs k k'.
Proof. unfold errs, noerr, klit, get_str_entry. intros -> ->. auto. Qed.

Lemma errs_prims : prims errs.
Proof.
  constructor; intros.
  - exact (fun X => X).
  - exact (fun X => H (H0 X)).
  - intros k a k' H. rewrite next_tok_run in H. injection H as _ <-. unfold nxt.
    destruct (k_toks k) as [|t0 [|t r]]; [exact (fun X => X)..|]. destruct (negb _ || negb _)%bool; exact (fun X => X).
  - intros k a k' H [N _]. apply kvm_inv in H. destruct H as (s & E & ->). ksin N. apply add_error_errs in E. contradiction.
  - exact (fun X => X).
  - exact (fun X => X).
  - exact (fun X => X).
  - exact (fun X => X).
  - apply errs_same; reflexivity.
  - apply errs_same; reflexivity.
  - apply errs_same; reflexivity.
  - intros k a k' H [N L]. apply kvm_inv in H. destruct H as (s & E & ->). ksin N. pose proof (intern_mono _ _ _ _ E) as M. apply intern_fields in E.
    destruct E as [E|(x & y & ->)]; [contradiction|]. destruct M as [M|M]; [contradiction|]. split; [exact N|]. revert L. apply klit_mono. exact M.
  - intros k a k' H [N L]. apply kvm_inv in H. destruct H as (s & E & ->). ksin N. pose proof (keep_mono _ _ _ _ E) as M. apply keep_fields in E.
    destruct E as (y & ->). split; [exact N|]. revert L. apply klit_mono. exact M.
Qed.

Lemma cerror_errs m k u k' : cerror m k = Ok (u, k') -> noerr k' -> False.
Proof.
  unfold cerror, kbind, kgets. intros H [N _]. apply kvm_inv in H. destruct H as (s & E & ->). ksin N. apply add_error_errs in E. contradiction.
Qed.
Lemma give_up_errs {A} (a b : A) k k' : give_up a k = Ok (b, k') -> noerr k' -> noerr k.
Proof. intros H. apply (w_give_up errs errs_prims a _ _ _ H). Qed.
Lemma complain {A} m (a b : A) k k' : (cerror m ;~ kret a) k = Ok (b, k') -> noerr k' -> False.
Proof. intros H N. kb H. injection H as _ <-. eapply cerror_errs; eauto. Qed.
Lemma complain_up {A} m (a b : A) k k' : (cerror m ;~ give_up a) k = Ok (b, k') -> noerr k' -> False.
Proof. intros H N. kb H. eapply cerror_errs; [exact E|]. eapply give_up_errs; eauto. Qed.

(** ** Well-formed states of the compiler *)

Record kwf (k : comp) : Prop := {
  kw_pow : pow2 (zlen (kcode k));
  kw_mask : v_cmask (k_vm k) = zlen (kcode k) - 1;
  kw_w : 0 <= k_w k < zlen (kcode k);
  kw_spow : pow2 (zlen (v_static (k_vm k)));
  kw_smask : v_smask (k_vm k) = zlen (v_static (k_vm k)) - 1;
  kw_n : 0 <= k_nstat k <= zlen (v_static (k_vm k));
  kw_str : str_wf (v_strs (k_vm k)) (v_byhash (k_vm k))
}.

(** What writing code leaves alone. *)
Definition rest (k k' : comp) : Prop :=
  k_toks k' = k_toks k /\ k_nstat k' = k_nstat k /\ v_funcs (k_vm k') = v_funcs (k_vm k) /\
  v_static (k_vm k') = v_static (k_vm k) /\ v_smask (k_vm k') = v_smask (k_vm k).
Lemma rest_refl k : rest k k. Proof. repeat split. Qed.
Lemma rest_trans a b c : rest a b -> rest b c -> rest a c.
Proof. unfold rest. intros (A1 & A2 & A3 & A4 & A5) (B1 & B2 & B3 & B4 & B5). repeat split; congruence. Qed.

(** The words [ws] have been appended. *)
Definition put (ws : list Z) (k k' : comp) : Prop :=
  k_w k' = k_w k + zlen ws /\ (forall i, 0 <= i < k_w k -> kmem k' i = kmem k i) /\
  mem_words (kmem k') (k_w k) ws /\ rest k k' /\ kwf k'.

Lemma mem_words_app m a ws vs : mem_words m a ws -> mem_words m (a + zlen ws) vs -> mem_words m a (ws ++ vs).
Proof.
  intros A B i w H. destruct (Z.lt_ge_cases i (zlen ws)) as [L|L].
  - rewrite znth_app_l in H by exact L. apply A. exact H.
  - rewrite znth_app_r in H by exact L. apply B in H. rewrite <- H. f_equal. lia.
Qed.
Lemma mem_words_nil m a : mem_words m a [].
Proof. intros i w H. apply znth_some_range in H. cbn in H. lia. Qed.

Lemma put_nil k : kwf k -> put [] k k.
Proof. intro W. split; [cbn; lia|]. split; [auto|]. split; [apply mem_words_nil|]. split; [apply rest_refl|exact W]. Qed.

Lemma put_trans ws vs k k1 k2 : kwf k -> put ws k k1 -> put vs k1 k2 -> put (ws ++ vs) k k2.
Proof.
  intros K (W1 & B1 & M1 & R1 & K1) (W2 & B2 & M2 & R2 & K2). rewrite W1 in *. pose proof (zlen_nonneg ws). pose proof (kw_w _ K).
  split; [rewrite zlen_app; lia|]. split; [intros i Hi; rewrite B2, B1 by lia; reflexivity|].
  split; [|split; [eapply rest_trans; eauto|exact K2]].
  apply mem_words_app; [|exact M2]. intros i w Hw. rewrite B2; [apply M1; exact Hw|]. apply znth_some_range in Hw. lia.
Qed.

Lemma put_rec ws k k' x : put ws k k' -> put ws k (set_k_rec x k').
Proof. unfold put, rest. intros (A & B & D & R & []). split; [exact A|]. split; [exact B|]. split; [exact D|]. split; [exact R|split; assumption]. Qed.
Lemma put_rec_l ws k k' x : put ws (set_k_rec x k) k' -> put ws k k'.
Proof. exact (fun H => H). Qed.

(** The current context is [c] with the tracked stack depth [x]. *)
Definition at_ (k : comp) (c : cctx) (r : list cctx) (x : Z) : Prop := k_ctx k = set_cc_off (u32 x) c :: r.

Lemma u32_add_l a b : u32 (u32 a + b) = u32 (a + b).
Proof. unfold u32, W32. rewrite Zplus_mod_idemp_l. reflexivity. Qed.
Lemma u32_sub_r a b : u32 (a - u32 b) = u32 (a - b).
Proof. unfold u32, W32. rewrite Zminus_mod_idemp_r. reflexivity. Qed.
Lemma u32_sub_l a b : u32 (u32 a - b) = u32 (a - b).
Proof. unfold u32, W32. rewrite Zminus_mod_idemp_l. reflexivity. Qed.
Lemma u32_u32 a : u32 (u32 a) = u32 a.
Proof. apply u32_id, u32_range. Qed.

Lemma mod_cc_inv f k u k' : mod_cc f k = Ok (u, k') -> exists c r, k_ctx k = c :: r /\ k' = set_k_ctx (f c :: r) k.
Proof.
  unfold mod_cc, kbind, kgets, kmod, kub. destruct (k_ctx k) as [|c r]; [discriminate|]. intro H. injection H as _ <-. eauto.
Qed.
Lemma move_off_at d k u k' c r x : move_off d k = Ok (u, k') -> at_ k c r x ->
  k' = set_k_ctx (set_cc_off (u32 (x + d)) c :: r) k.
Proof.
  intros H A. apply mod_cc_inv in H. destruct H as (c' & r' & E & ->). unfold at_ in A. rewrite A in E. injection E as <- <-.
  cbn [cc_off set_cc_off]. rewrite u32_add_l. reflexivity.
Qed.

(** ** Writing words *)

Lemma lor_one z : 0 <= z -> Z.lor (2 * z) 1 = 2 * z + 1.
Proof. intro H. destruct z; [reflexivity|reflexivity|lia]. Qed.

Lemma wr_inv {A} (l : list A) i x l' : wr l i x = Ok l' -> l' = zupd l i x /\ 0 <= i < zlen l.
Proof. unfold wr. destruct (znth l i) eqn:E; [|discriminate]. intro H. injection H as <-. split; [reflexivity|]. eapply znth_some_range; eauto. Qed.

Lemma grow_inv k u k' : grow_code k = Ok (u, k') -> noerr k' -> kwf k ->
  exists c, kcode k' = kcode k ++ c /\ zlen c = zlen (kcode k) /\ k' = set_k_vm (set_cmask (2 * zlen (kcode k) - 1) (set_code (kcode k ++ c) (k_vm k))) k /\ pow2 (2 * zlen (kcode k)).
Proof.
  unfold grow_code. intros H N K. kb H. injection E as <- <-. destruct (pow2_bounds _ (kw_pow _ K)) as [L U]. rewrite (kw_mask _ K) in H.
  unfold kcode in *. set (z := zlen (v_code (k_vm k))) in *. unfold W31 in *.
  assert (u32 ((z - 1) * 2) = 2 * (z - 1)) as E1 by (rewrite u32_id; unfold is_u32, W32; lia).
  assert (u32 (z - 1 + 1) = z) as E2 by (rewrite u32_id; unfold is_u32, W32; lia).
  rewrite E1, E2, lor_one in H by lia. replace (2 * (z - 1) + 1) with (2 * z - 1) in H by lia. kb H. destruct (INVALID <=? 2 * z - 1) eqn:Q.
  - exfalso. eapply cerror_errs; [exact E|]. assert (pres errs (if u32 (z * 2) =? 0 then kub UbOob else kvm (modify (fun s => set_cmask (2 * z - 1) (set_code (v_code s ++ repeat 0 (Z.to_nat z)) s))))) as P.
    { apply pif; [apply p_ub|]. intros a b c G. apply kvm_inv in G. destruct G as (s & G & ->). injection G as _ <-. apply (pr_code _ errs_prims). }
    eapply P; eauto.
  - injection E as _ <-. apply Z.leb_gt in Q. unfold INVALID, W32 in Q. destruct (u32 (z * 2) =? 0); [discriminate|].
    apply kvm_inv in H. destruct H as (s & E & ->). inversion E; subst s; clear E. exists (repeat 0 (Z.to_nat z)). split; [reflexivity|].
    split; [unfold zlen at 1; rewrite repeat_length; lia|]. split; [|apply pow2_double; [apply (kw_pow _ K)|unfold W31, z in *; unfold kcode; lia]].
    reflexivity.
Qed.

Lemma add_word_inv w adj k u k' c r x : add_word w adj k = Ok (u, k') -> noerr k' -> kwf k -> at_ k c r x ->
  put [w] k k' /\ at_ k' c r (x + if adj then stack_offset w else 0).
Proof.
  unfold add_word. intros H N K A. kb H. injection E as <- <-. kb H. injection E as <- <-. kb H. rename k0 into k1.
  assert (noerr k1) as N1.
  { clear E. revert N. assert (pres errs (s <~ kgets k_vm ;; c <~ klift (wr (v_code s) (k_w k) w) ;; kvm (modify (set_code c)) ;~
      l <~ kgets k_ctx ;; (match l with [] => kret tt | _ => if adj then move_off (stack_offset w) else kret tt end) ;~ kmod (set_k_w (u32 (k_w k + 1))))) as P.
    { apply (pb _ errs_prims); [apply pgt, errs_prims|intros s]. apply (pb _ errs_prims); [apply plf, errs_prims|intros cc].
      apply (pb _ errs_prims); [apply psetcode, errs_prims|intros _]. apply (pb _ errs_prims); [apply pgt, errs_prims|intros l].
      apply (pb _ errs_prims); [|intros _; apply p_mod; intros; apply (pr_w _ errs_prims)]. destruct l; [apply prt, errs_prims|]. destruct adj; [|apply prt, errs_prims].
      apply w_move_off, errs_prims. }
    intro N. eapply P; [exact H|exact N]. }
  assert (exists c1 m1, k1 = set_k_vm (set_cmask m1 (set_code (kcode k ++ c1) (k_vm k))) k /\ zlen (kcode k ++ c1) = m1 + 1 /\ pow2 (m1 + 1) /\ k_w k < m1 /\ zlen (kcode k) <= m1 + 1) as (c1 & m1 & E1 & Z1 & P1 & L1 & L2).
  { pose proof (kw_w _ K) as Kw. rewrite (kw_mask _ K) in E. destruct (Z.leb_spec (zlen (kcode k) - 1) (k_w k)) as [L|L].
    - destruct (grow_inv _ _ _ E N1 K) as (c1 & _ & Zc & -> & P2). exists c1, (2 * zlen (kcode k) - 1). pose proof (pow2_bounds _ (kw_pow _ K)).
      split; [reflexivity|]. rewrite zlen_app. replace (2 * zlen (kcode k) - 1 + 1) with (2 * zlen (kcode k)) by lia. repeat split; [lia|exact P2|lia|lia].
    - injection E as _ <-. exists [], (zlen (kcode k) - 1). rewrite app_nil_r. replace (zlen (kcode k) - 1 + 1) with (zlen (kcode k)) by lia.
      split; [|split; [lia|split; [apply (kw_pow _ K)|lia]]]. rewrite <- (kw_mask _ K). unfold kcode. destruct k as [v]. destruct v. reflexivity. }
  kb H. injection E0 as <- <-. kb H. apply klift_inv in E0. destruct E0 as [E0 ->]. apply wr_inv in E0. destruct E0 as [-> Ri].
  kb H. apply kvm_inv in E0. destruct E0 as (s & E0 & ->). injection E0 as _ <-.
  kb H. injection E0 as <- <-. rewrite E1 in H. ksin H. unfold at_ in A. rewrite A in H. cbv iota in H. kb H. injection H as _ <-.
  pose proof (pow2_bounds _ P1) as [_ Pb]. pose proof (kw_w _ K) as Kw. unfold W31 in Pb.
  assert (u32 (k_w k + 1) = k_w k + 1) as Ew by (apply u32_id; unfold is_u32, W32; lia).
  assert (exists x', k0 = set_k_ctx (set_cc_off (u32 (x + if adj then stack_offset w else 0)) c :: r) x' /\ x' =
    set_k_vm (set_code (zupd (kcode k ++ c1) (k_w k) w) (set_cmask m1 (set_code (kcode k ++ c1) (k_vm k)))) (set_k_vm (set_cmask m1 (set_code (kcode k ++ c1) (k_vm k))) k)) as (x' & -> & ->).
  { destruct adj.
    - eapply move_off_at in E0; [|unfold at_; ks; exact A]. eexists. split; [exact E0|reflexivity].
    - injection E0 as _ <-. rewrite Z.add_0_r, <- A. eexists. split; [|reflexivity]. destruct k; reflexivity. }
  split; [|unfold at_; ks; reflexivity].
  split; [ks; rewrite Ew; reflexivity|]. assert (zlen (zupd (kcode k ++ c1) (k_w k) w) = m1 + 1) as Z2 by (rewrite zlen_zupd; exact Z1).
  split; [|split; [|split]].
  - intros i Hi. unfold kmem, kcode. ks. vs. rewrite znth_zupd_other by lia. rewrite znth_app_l; [reflexivity|]. unfold kcode in Kw. lia.
  - intros i y Hy. pose proof (znth_some_range _ _ _ Hy) as Ry. change (zlen [w]) with 1 in Ry. assert (i = 0) as -> by lia. injection Hy as <-.
    unfold kmem, kcode. ks. vs. rewrite Z.add_0_r. apply znth_zupd_same. unfold kcode in *. lia.
  - repeat split.
  - destruct K. split; unfold kcode in *; ks; vs; try assumption; try lia; rewrite ?Z2; try exact P1; lia.
Qed.
(** Writing words leaves the strings alone. *)
Definition skeep (k k' : comp) : Prop := v_strs (k_vm k') = v_strs (k_vm k).
Lemma skeep_trans a b c : skeep a b -> skeep b c -> skeep a c.
Proof. unfold skeep. congruence. Qed.
Lemma add_error_strs l f m s u s' : add_error_ex l f m s = Ok (u, s') -> v_strs s' = v_strs s.
Proof.
  unfold add_error_ex. intro H. apply bind_inv in H. destruct H as (c & s1 & E1 & H). unfold cur_ctx, mbind, gets, get_ctx in E1. destruct (znth _ _) as [[d|]|] in E1; try discriminate E1. injection E1 as _ <-.
  apply bind_inv in H. destruct H as (s2 & s3 & E & H). injection E as <- <-.
  injection H as _ <-. vs. reflexivity.
Qed.
Lemma sk_error m : pres skeep (cerror m).
Proof. unfold cerror, kbind, kgets. intros k a k' H. apply kvm_inv in H. destruct H as (s & E & ->). unfold skeep. ks. exact (add_error_strs _ _ _ _ _ _ E). Qed.
Lemma add_word_strs w adj k u k' : add_word w adj k = Ok (u, k') -> v_strs (k_vm k') = v_strs (k_vm k).
Proof.
  enough (pres skeep (add_word w adj)) as P by apply P. unfold add_word, grow_code, move_off, mod_cc.
  repeat match goal with
  | |- pres skeep (kbind _ _) => apply (p_bind _ skeep_trans); [|intros ?]
  | |- pres skeep (kret _) => apply (p_ret skeep (fun k => eq_refl))
  | |- pres skeep (kgets _) => apply (p_gets skeep (fun k => eq_refl))
  | |- pres skeep (klift _) => apply (p_lift skeep (fun k => eq_refl))
  | |- pres skeep (kub _) => apply p_ub
  | |- pres skeep (cerror _) => apply sk_error
  | |- pres skeep (kvm (modify _)) => let H := fresh in intros ? ? ? H; apply kvm_inv in H; destruct H as (? & H & ->); injection H as _ <-; reflexivity
  | |- pres skeep (kmod _) => apply p_mod; intro; reflexivity
  | |- pres skeep (if ?b then _ else _) => destruct b
  | |- pres skeep (match ?x with _ => _ end) => destruct x
  end.
Qed.

(** Without adjusting the tracked offset, or with no context left. *)
Lemma add_word_flat w adj k u k' : add_word w adj k = Ok (u, k') -> noerr k' -> kwf k -> adj = false \/ k_ctx k = [] ->
  put [w] k k' /\ k_ctx k' = k_ctx k.
Proof.
  unfold add_word. intros H N K A. kb H. injection E as <- <-. kb H. injection E as <- <-. kb H. rename k0 into k1.
  assert (noerr k1) as N1.
  { clear E. revert N. assert (pres errs (s <~ kgets k_vm ;; c <~ klift (wr (v_code s) (k_w k) w) ;; kvm (modify (set_code c)) ;~
      l <~ kgets k_ctx ;; (match l with [] => kret tt | _ => if adj then move_off (stack_offset w) else kret tt end) ;~ kmod (set_k_w (u32 (k_w k + 1))))) as P.
    { apply (pb _ errs_prims); [apply pgt, errs_prims|intros s]. apply (pb _ errs_prims); [apply plf, errs_prims|intros cc].
      apply (pb _ errs_prims); [apply psetcode, errs_prims|intros _]. apply (pb _ errs_prims); [apply pgt, errs_prims|intros l].
      apply (pb _ errs_prims); [|intros _; apply p_mod; intros; apply (pr_w _ errs_prims)]. destruct l; [apply prt, errs_prims|]. destruct adj; [|apply prt, errs_prims].
      apply w_move_off, errs_prims. }
    intro N. eapply P; [exact H|exact N]. }
  assert (exists c1 m1, k1 = set_k_vm (set_cmask m1 (set_code (kcode k ++ c1) (k_vm k))) k /\ zlen (kcode k ++ c1) = m1 + 1 /\ pow2 (m1 + 1) /\ k_w k < m1 /\ zlen (kcode k) <= m1 + 1) as (c1 & m1 & E1 & Z1 & P1 & L1 & L2).
  { pose proof (kw_w _ K) as Kw. rewrite (kw_mask _ K) in E. destruct (Z.leb_spec (zlen (kcode k) - 1) (k_w k)) as [L|L].
    - destruct (grow_inv _ _ _ E N1 K) as (c1 & _ & Zc & -> & P2). exists c1, (2 * zlen (kcode k) - 1). pose proof (pow2_bounds _ (kw_pow _ K)).
      split; [reflexivity|]. rewrite zlen_app. replace (2 * zlen (kcode k) - 1 + 1) with (2 * zlen (kcode k)) by lia. repeat split; [lia|exact P2|lia|lia].
    - injection E as _ <-. exists [], (zlen (kcode k) - 1). rewrite app_nil_r. replace (zlen (kcode k) - 1 + 1) with (zlen (kcode k)) by lia.
      split; [|split; [lia|split; [apply (kw_pow _ K)|lia]]]. rewrite <- (kw_mask _ K). unfold kcode. destruct k as [v]. destruct v. reflexivity. }
  kb H. injection E0 as <- <-. kb H. apply klift_inv in E0. destruct E0 as [E0 ->]. apply wr_inv in E0. destruct E0 as [-> Ri].
  kb H. apply kvm_inv in E0. destruct E0 as (s & E0 & ->). injection E0 as _ <-.
  kb H. injection E0 as <- <-. rewrite E1 in H. ksin H. kb H. injection H as _ <-.
  assert (k0 = set_k_vm (set_code (zupd (kcode k ++ c1) (k_w k) w) (set_cmask m1 (set_code (kcode k ++ c1) (k_vm k)))) (set_k_vm (set_cmask m1 (set_code (kcode k ++ c1) (k_vm k))) k)) as ->.
  { destruct A as [-> | A]; [destruct (k_ctx k)|rewrite A in E0]; injection E0 as _ <-; reflexivity. }
  pose proof (pow2_bounds _ P1) as [_ Pb]. pose proof (kw_w _ K) as Kw. unfold W31 in Pb.
  assert (u32 (k_w k + 1) = k_w k + 1) as Ew by (apply u32_id; unfold is_u32, W32; lia).
  split; [|reflexivity].
  split; [ks; rewrite Ew; reflexivity|]. assert (zlen (zupd (kcode k ++ c1) (k_w k) w) = m1 + 1) as Z2 by (rewrite zlen_zupd; exact Z1).
  split; [|split; [|split]].
  - intros i Hi. unfold kmem, kcode. ks. vs. rewrite znth_zupd_other by lia. rewrite znth_app_l; [reflexivity|]. unfold kcode in Kw. lia.
  - intros i y Hy. pose proof (znth_some_range _ _ _ Hy) as Ry. change (zlen [w]) with 1 in Ry. assert (i = 0) as -> by lia. injection Hy as <-.
    unfold kmem, kcode. ks. vs. rewrite Z.add_0_r. apply znth_zupd_same. unfold kcode in *. lia.
  - repeat split.
  - destruct K. split; unfold kcode in *; ks; vs; try assumption; try lia; rewrite ?Z2; try exact P1; lia.
Qed.

(** ** Variables and scopes *)

Definition vrel (v : cvar) (b : bytes * place) : Prop :=
  cv_name v = fst b /\
  match snd b with
  | Global p => cv_global v = true /\ cv_pos v = p
  | Local i => cv_global v = false /\ cv_pos v = u32 i
  end.
Definition srel (c : cctx) (s : scope) : Prop := Forall2 vrel (cc_vars c) s.

Lemma find_var_rel n vs s : Forall2 vrel vs s ->
  match find_var n vs with
  | Some v => exists p, find_in n s = Some p /\ vrel v (cv_name v, p)
  | None => find_in n s = None
  end.
Proof.
  induction 1 as [|v b vs s H _ IH]; cbn [find_var find_in]; [reflexivity|]. destruct b as [m p]. pose proof H as [E P]. cbn in E. subst m.
  destruct (bytes_eqb (cv_name v) n); [exists p; auto|exact IH].
Qed.
Lemma find_in_rel n l sc : Forall2 srel l sc ->
  match find_var_in n l with
  | Some v => exists p, lookup n sc = Some p /\ vrel v (cv_name v, p)
  | None => lookup n sc = None
  end.
Proof.
  induction 1 as [|c s l sc H _ IH]; cbn [find_var_in lookup]; [reflexivity|]. pose proof (find_var_rel n _ _ H) as F.
  destruct (find_var n (cc_vars c)) as [v|].
  - destruct F as (p & -> & V). eauto.
  - rewrite F. exact IH.
Qed.

(** The string literals of a tree are texts. *)
Fixpoint texts (n : ast) : Prop :=
  match n with
  | ANull => True
  | ANode t _ a b => (tk_type t = TK_STRING -> is_text (tk_str t)) /\ texts a /\ texts b
  end.

Section Emit.
Variable c : cctx.
Variable r : list cctx.
Variable sc : list scope.
Hypothesis Sc : Forall2 srel (c :: r) sc.

(** Running [m] without errors appends words and moves the stack depth as
    [Q] says. *)
Definition em {A} (m : K A) (Q : A -> Z -> list Z -> Z -> Prop) : Prop :=
  pres errs m /\
  forall k a k' x, m k = Ok (a, k') -> noerr k' -> kwf k -> at_ k c r x ->
  exists ws x', put ws k k' /\ at_ k' c r x' /\ Q a x ws x'.

Lemma em_wk {A} (m : K A) (Q Q' : A -> Z -> list Z -> Z -> Prop) : em m Q -> (forall a x ws x', Q a x ws x' -> Q' a x ws x') -> em m Q'.
Proof. intros [P H] I. split; [exact P|]. intros k a k' x R N K A0. destruct (H _ _ _ _ R N K A0) as (ws & x' & U & B & q). eauto 6. Qed.

Lemma em_bind {A B} (m : K A) (f : A -> K B) Q1 Q2 : em m Q1 -> (forall a, em (f a) (Q2 a)) ->
  em (kbind m f) (fun b x ws x' => exists a w1 x1 w2, Q1 a x w1 x1 /\ Q2 a b x1 w2 x' /\ ws = w1 ++ w2).
Proof.
  intros [P H] F. split; [apply (pb _ errs_prims); [exact P|intro a; apply (F a)]|].
  intros k b k' x R N K A0. kb R. destruct (F x0) as [P2 H2]. pose proof (P2 _ _ _ R N) as N1.
  destruct (H _ _ _ _ E N1 K A0) as (w1 & x1 & U1 & A1 & q1). pose proof U1 as (_ & _ & _ & _ & K1).
  destruct (H2 _ _ _ _ R N K1 A1) as (w2 & x2 & U2 & A2 & q2).
  exists (w1 ++ w2), x2. split; [eapply put_trans; eauto|]. split; [exact A2|]. exists x0, w1, x1, w2. auto.
Qed.

Lemma em_ret {A} (a : A) : em (kret a) (fun b x ws x' => b = a /\ ws = [] /\ x' = x).
Proof. split; [apply prt, errs_prims|]. intros k b k' x H N K A0. injection H as <- <-. exists [], x. split; [apply put_nil; exact K|]. auto. Qed.
Lemma em_ub {A} u Q : em (@kub A u) Q.
Proof. split; [apply p_ub|]. intros k b k' x H. discriminate. Qed.
Lemma em_if {A} (b : bool) (m n : K A) Q : (b = true -> em m Q) -> (b = false -> em n Q) -> em (if b then m else n) Q.
Proof. destruct b; auto. Qed.
Lemma em_err {A} m (f : unit -> K A) Q : (forall u, pres errs (f u)) -> em (kbind (cerror m) f) Q.
Proof.
  intro P. split; [apply (pb _ errs_prims); [apply w_cerror, errs_prims|exact P]|].
  intros k b k' x H N. exfalso. kb H. eapply cerror_errs; [exact E|]. eapply P; eauto.
Qed.
Lemma em_cerror m Q : em (cerror m) Q.
Proof. split; [apply w_cerror, errs_prims|]. intros k b k' x H N. exfalso. eapply cerror_errs; eauto. Qed.
Lemma em_ctx : em (kgets k_ctx) (fun l x ws x' => l = set_cc_off (u32 x) c :: r /\ ws = [] /\ x' = x).
Proof. split; [apply pgt, errs_prims|]. intros k b k' x H N K A0. injection H as <- <-. exists [], x. split; [apply put_nil; exact K|]. auto. Qed.
Lemma em_cur : em cur_cc (fun l x ws x' => l = set_cc_off (u32 x) c /\ ws = [] /\ x' = x).
Proof.
  split; [apply w_cur_cc, errs_prims|]. intros k b k' x H N K A0. unfold cur_cc, kbind, kgets in H. rewrite A0 in H.
  injection H as <- <-. exists [], x. split; [apply put_nil; exact K|]. auto.
Qed.
Lemma em_push_rec : em push_recursion (fun b x ws x' => b = true /\ ws = [] /\ x' = x).
Proof.
  split; [apply w_push_rec, errs_prims|]. intros k b k' x H N K A0. unfold push_recursion in H. kb H. injection E as <- <-.
  destruct (256 <? k_rec k).
  - exfalso. eapply complain; eauto.
  - kb H. injection E as _ <-. injection H as <- <-. exists [], x. split; [apply put_rec, put_nil; exact K|]. auto.
Qed.
Lemma em_pop_rec : em pop_recursion (fun _ x ws x' => ws = [] /\ x' = x).
Proof.
  split; [apply w_pop_rec, errs_prims|]. intros k b k' x H N K A0. apply pop_rec_inv in H. subst k'. exists [], x. split; [apply put_rec, put_nil; exact K|]. auto.
Qed.
Lemma em_word w adj : em (add_word w adj) (fun _ x ws x' => ws = [w] /\ x' = x + if adj then stack_offset w else 0).
Proof.
  split; [apply w_add_word, errs_prims|]. intros k b k' x H N K A0. destruct (add_word_inv _ _ _ _ _ _ _ _ H N K A0). eauto 8.
Qed.
Lemma em_move d : em (move_off d) (fun _ x ws x' => ws = [] /\ x' = x + d).
Proof.
  split; [apply w_move_off, errs_prims|]. intros k b k' x H N K A0. rewrite (move_off_at _ _ _ _ _ _ _ H A0). exists [], (x + d). split; [|split; [reflexivity|auto]].
  split; [cbn; lia|]. split; [auto|]. split; [apply mem_words_nil|]. split; [repeat split|]. destruct K. split; assumption.
Qed.
Lemma em_error_ex l f m A (g : unit -> K A) Q : (forall u, pres errs (g u)) -> em (kbind (kvm (add_error_ex l f m)) g) Q.
Proof.
  intro P. split; [apply (pb _ errs_prims); [apply (pr_error _ errs_prims)|exact P]|].
  intros k b k' x H N. exfalso. kb H. pose proof (P _ _ _ _ H N) as N1. apply kvm_inv in E. destruct E as (s & E & ->). apply add_error_errs in E. destruct N1. contradiction.
Qed.

(** Takes apart what [em_bind] gives. *)
Ltac ez := let H := fresh in intros ? ? ? ? H; cbv beta in H; repeat match goal with
  | X : exists _, _ |- _ => destruct X
  | X : _ /\ _ |- _ => destruct X
  | X : _ :: _ = _ :: _ |- _ => injection X as ? ?
  end; subst; cbn [app]; rewrite ?app_nil_r, ?Z.add_0_r.
Ltac eb := eapply em_bind; [|intro].

Lemma em_lit op v adj : em (add_word op adj ;~ add_word v false) (fun _ x ws x' => ws = [op; v] /\ x' = x + if adj then stack_offset op else 0).
Proof. eapply em_wk; [eb; apply em_word|]. ez. split; reflexivity. Qed.
Lemma em_lit_int v adj : em (push_lit_int v adj) (fun _ x ws x' => ws = [OP_LIT_INT; u32 v] /\ x' = x + if adj then 1 else 0).
Proof. apply em_lit. Qed.
Lemma em_lit_func v adj : em (push_lit_func v adj) (fun _ x ws x' => ws = [OP_LIT_FUNC; u32 v] /\ x' = x + if adj then 1 else 0).
Proof. apply em_lit. Qed.
Lemma em_lit_float v adj : em (push_lit_float v adj) (fun _ x ws x' => ws = [OP_LIT_FLOAT; v] /\ x' = x + if adj then 1 else 0).
Proof. apply em_lit. Qed.

Lemma em_lit_string t : is_text t -> em (push_lit_string t true) (fun _ x ws x' => exists i, lit i = Some t /\ ws = [OP_LIT_STRING; i] /\ x' = x + 1).
Proof.
  intro T. split; [apply (w_lit_string _ errs_prims)|]. intros k b k' x H N K A0. unfold push_lit_string in H. kb H. rename k0 into k1, E into E1.
  kb H. rename k0 into k2, E into E2. kb H. rename k0 into k3, E into E3. rename H into E4. rename x1 into i.
  pose proof (pr_keep _ errs_prims _ _ _ _ E4 N) as N3. pose proof (w_add_word _ errs_prims _ _ _ _ _ E3 N3) as N2.
  pose proof (pr_intern _ errs_prims _ _ _ _ E2 N2) as N1.
  destruct (add_word_inv _ _ _ _ _ _ _ _ E1 N1 K A0) as [P1 A1]. pose proof P1 as (_ & _ & _ & _ & K1).
  apply kvm_inv in E2. destruct E2 as (s2 & E2 & ->). destruct (intern_wf _ _ _ _ E2 (kw_str _ K1) T) as [X|[W2 (e & Ge & Te)]]; [destruct N2; contradiction|].
  apply intern_fields in E2. destruct E2 as [X|(u & y & ->)]; [destruct N2; contradiction|].
  assert (put [] k1 (set_k_vm (set_byhash u (set_strs y (k_vm k1))) k1)) as P2.
  { split; [cbn; lia|]. split; [auto|]. split; [apply mem_words_nil|]. split; [repeat split|]. destruct K1. split; assumption. }
  pose proof P2 as (_ & _ & _ & _ & K2).
  destruct (add_word_inv _ _ _ _ _ _ _ _ E3 N3 K2 A1) as [P3 A3]. pose proof P3 as (_ & _ & _ & _ & K3).
  assert (v_strs (k_vm k3) = y) as Y.
  { exact (add_word_strs _ _ _ _ _ E3). }
  apply kvm_inv in E4. destruct E4 as (s4 & E4 & ->). pose proof (keep_wf _ _ _ _ E4 (kw_str _ K3)) as W4.
  destruct (keep_kept _ _ _ _ e E4 (sw_tab _ _ (kw_str _ K3))) as (e' & G' & T' & Ke').
  { unfold get_str_entry in *. rewrite Y. exact Ge. }
  apply keep_fields in E4. destruct E4 as (z & ->).
  assert (put [] k3 (set_k_vm (set_strs z (k_vm k3)) k3)) as P4.
  { split; [cbn; lia|]. split; [auto|]. split; [apply mem_words_nil|]. split; [repeat split|]. destruct K3. split; assumption. }
  exists ([OP_LIT_STRING] ++ [] ++ [i] ++ []), (x + 1). split.
  { eapply put_trans; [exact K|exact P1|]. eapply put_trans; [exact K1|exact P2|]. eapply put_trans; [exact K2|exact P3|exact P4]. }
  split; [unfold at_ in *; ks; rewrite A3; cbn [stack_offset]; rewrite Z.add_0_r; reflexivity|]. exists i. split; [|split; reflexivity].
  destruct N as [_ N]. rewrite <- Te, <- T'. apply (N (sw_tab _ _ W4) _ _ G' Ke').
Qed.

Lemma em_lookup n : em (lookup_variable n) (fun o x ws x' => ws = [] /\ x' = x /\ exists v p, o = Some v /\ lookup n sc = Some p /\ vrel v (cv_name v, p)).
Proof.
  split; [apply w_lookup, errs_prims|]. intros k b k' x H N K A0. unfold lookup_variable, kbind at 1, kgets in H. rewrite A0 in H.
  assert (Forall2 srel (set_cc_off (u32 x) c :: r) sc) as S2 by (inversion Sc; subst; constructor; assumption).
  pose proof (find_in_rel n _ _ S2) as F. destruct (find_var_in n (set_cc_off (u32 x) c :: r)) as [v|].
  - injection H as <- <-. destruct F as (p & L & V). exists [], x. split; [apply put_nil; exact K|]. eauto 10.
  - exfalso. eapply complain; eauto.
Qed.

Lemma em_fetch n : em (emit_fetch n) (fun _ x ws x' => exists p, lookup n sc = Some p /\ ws = fetch_code p x /\ x' = x + 1).
Proof.
  eapply em_wk.
  - unfold emit_fetch. eb; [apply em_lookup|]. instantiate (1 := fun o _ x ws x' => forall v p, o = Some v -> vrel v (cv_name v, p) -> ws = fetch_code p x /\ x' = x + 1).
    destruct a as [v|].
    + apply em_if; intro G.
      * eapply em_wk; [eb; [apply em_lit_int|]; apply em_word|]. ez. intros v1 p E [_ V]. injection E as <-. cbn in V.
        destruct p as [i|i]; destruct V as [V1 V2]; [|congruence]. rewrite V2. cbn. split; [reflexivity|lia].
      * eapply em_wk; [eb; [apply em_cur|]; eb; [apply em_lit_int|]; apply em_word|]. ez. intros v1 p E [_ V]. injection E as <-. cbn in V.
        destruct p as [i|i]; destruct V as [V1 V2]; [congruence|]. rewrite V2. cbn [set_cc_off cc_off fetch_code].
        rewrite u32_sub_l, u32_sub_r. cbn. split; [reflexivity|lia].
    + eapply em_wk; [apply em_ret|]. ez. discriminate.
  - ez. match goal with X : forall v p, _ -> _ -> _, V : vrel _ _ |- _ => destruct (X _ _ eq_refl V) as [-> ->] end. eauto.
Qed.
Lemma em_set n : em (emit_set n) (fun _ x ws x' => exists p, lookup n sc = Some p /\ ws = store_code p x /\ x' = x).
Proof.
  eapply em_wk.
  - unfold emit_set. eb; [apply em_lookup|]. instantiate (1 := fun o _ x ws x' => forall v p, o = Some v -> vrel v (cv_name v, p) -> ws = store_code p x /\ x' = x).
    destruct a as [v|].
    + apply em_if; intro G.
      * eapply em_wk; [eb; [apply em_lit_int|]; apply em_word|]. ez. intros v1 p E [_ V]. injection E as <-. cbn in V.
        destruct p as [i|i]; destruct V as [V1 V2]; [|congruence]. rewrite V2. cbn. split; [reflexivity|change (stack_offset OP_STATICPOKE) with (-1); lia].
      * eapply em_wk; [eb; [apply em_cur|]; eb; [apply em_lit_int|]; apply em_word|]. ez. intros v1 p E [_ V]. injection E as <-. cbn in V.
        destruct p as [i|i]; destruct V as [V1 V2]; [congruence|]. rewrite V2. cbn [set_cc_off cc_off store_code].
        rewrite u32_sub_l, u32_sub_r. cbn [app]. split; [reflexivity|change (stack_offset OP_STACKPOKE) with (-1); lia].
    + eapply em_wk; [apply em_ret|]. ez. discriminate.
  - ez. match goal with X : forall v p, _ -> _ -> _, V : vrel _ _ |- _ => destruct (X _ _ eq_refl V) as [-> ->] end. eauto.
Qed.

Lemma em_fse n a : 0 <= a -> em (emit_fse n a) (fun _ x ws x' => fse_code n a ws (x' - x)).
Proof.
  intro Na. unfold emit_fse, fse_code, add_op, push_nil_op, add_op.
  repeat (apply em_if; intro); rewrite ?bytes_eqb_eq in *; subst; try apply em_cerror.
  - eapply em_wk; [eb; [apply em_move|]; eb; [apply em_lit_int|]; apply em_word|]. ez. left. split; [reflexivity|]. split; [reflexivity|]. change (stack_offset OP_CORO_CREATE) with 1. lia.
  - eapply em_wk.
    + eb; [apply (em_if _ _ _ (fun _ x ws x' => a = 0 /\ ws = [OP_NIL] /\ x' = x + 1 \/ a <> 0 /\ ws = [] /\ x' = x)); intro; [eapply em_wk; [apply em_word|]|eapply em_wk; [apply em_ret|]]; ez|].
      * left. split; [lia|]. auto.
      * right. split; [lia|]. auto.
      * instantiate (1 := fun _ _ x ws x' => a <= 1 /\ ws = [OP_CORO_YIELD] /\ x' = x). apply em_if; intro; [apply em_cerror|]. eapply em_wk; [apply em_word|]. ez.
        split; [lia|]. split; [reflexivity|]. change (stack_offset OP_CORO_YIELD) with 0. lia.
    + ez. match goal with X : _ \/ _ |- _ => destruct X as [(? & ? & ?)|(? & ? & ?)] end; subst.
      * right. left. split; [reflexivity|]. split; [lia|]. split; [reflexivity|lia].
      * right. right. left. split; [reflexivity|]. split; [lia|]. split; [reflexivity|lia].
  - eapply em_wk.
    + eb; [apply (em_if _ _ _ (fun _ x ws x' => a = 1 /\ ws = [OP_NIL] /\ x' = x + 1 \/ a <> 1 /\ ws = [] /\ x' = x)); intro; [eapply em_wk; [apply em_word|]|eapply em_wk; [apply em_ret|]]; ez|].
      * left. split; [lia|]. auto.
      * right. split; [lia|]. auto.
      * apply em_word.
    + ez. do 3 right. change (stack_offset OP_CORO_RESUME) with (-1). match goal with X : _ \/ _ |- _ => destruct X as [(? & ? & ?)|(? & ? & ?)] end; subst.
      * left. split; [reflexivity|]. split; [lia|]. split; [reflexivity|lia].
      * right. left. split; [reflexivity|]. split; [lia|]. split; [reflexivity|lia].
  - eapply em_wk; [apply em_word|]. ez. do 5 right. left. split; [reflexivity|]. split; [lia|]. split; [reflexivity|]. change (stack_offset OP_CORO_FINISHED) with 1. lia.
  - eapply em_wk; [apply em_word|]. ez. do 6 right. left. split; [reflexivity|]. split; [lia|]. split; [reflexivity|]. change (stack_offset OP_NEWOBJ) with 1. lia.
  - eapply em_wk; [apply em_word|]. ez. do 7 right. left. split; [reflexivity|]. split; [lia|]. split; [reflexivity|]. change (stack_offset OP_LEN) with 0. lia.
  - eapply em_wk; [apply em_ret|]. ez. do 8 right. rewrite <- !bytes_eqb_eq. repeat (split; [congruence|]). split; [reflexivity|lia].
Qed.

Lemma em_done {A} (m : K A) Q : em m Q -> em (m ;~ pop_recursion ;~ kret true) (fun b x ws x' => b = true /\ exists u, Q u x ws x').
Proof.
  intro H. eapply em_wk; [eb; [exact H|]; eb; [apply em_pop_rec|]; apply em_ret|]. ez. split; [reflexivity|]. eauto.
Qed.

Lemma chain_nonneg n : 0 <= chain_length n.
Proof. induction n; cbn [chain_length]; lia. Qed.

Ltac eif := apply em_if; let G := fresh "G" in intro G; rewrite ?G.

Lemma em_op t root c1 : (tk_type t = TK_STRING -> is_text (tk_str t)) -> em (emit_op t root c1) (fun b x ws x' => b = true /\ tail_code sc x t root c1 ws x').
Proof.
  intro Tx. unfold emit_op, tail_code, add_op. cbv zeta.
  apply em_if; intro G1; rewrite G1. { eapply em_wk; [apply em_done, em_lit_func|]. ez. auto. }
  apply em_if; intro G2; rewrite G2. { eapply em_wk; [apply em_done, em_lit_int|]. ez. auto. }
  apply em_if; intro G3; rewrite G3. { eapply em_wk; [apply em_done, em_lit_float|]. ez. auto. }
  apply em_if; intro G4; rewrite G4. { eapply em_wk; [apply em_done, em_lit_string, Tx, Z.eqb_eq, G4|]. ez. eauto 6. }
  apply em_if; intro G5; rewrite G5. { eapply em_wk; [apply em_done, em_fetch|]. ez. eauto 6. }
  apply em_if; intro G6; rewrite G6.
  { apply em_if; intro G7.
    - eapply em_wk; [apply em_done, em_fse, chain_nonneg|]. ez. auto.
    - apply em_err. intro. apply prt, errs_prims. }
  apply em_if; intro G7; rewrite G7.
  { destruct root.
    - eapply em_wk; [apply em_done; eb; [apply em_lit_int|]; eb; [|eb; [apply em_word|apply em_move]]|].
      + apply (em_if _ _ _ (fun _ x ws x' => ws = (if tk_type t =? TK_CALL_SELF then [OP_SELFCALL] else []) /\ x' = x)); intro G8; rewrite G8.
        * eapply em_wk; [apply em_word|]. ez. split; [reflexivity|lia].
        * eapply em_wk; [apply em_ret|]. ez. auto.
      + ez. split; [reflexivity|]. destruct (tk_type t =? TK_CALL_SELF); (split; [reflexivity|lia]).
    - eapply em_wk; [apply em_done, em_ret|]. ez. auto. }
  destruct (plain_op (tk_type t) (is_null c1)) as [op|].
  - eapply em_wk; [apply em_done, em_word|]. ez. eauto 6.
  - apply em_error_ex. intro. apply w_give_up, errs_prims.
Qed.

Lemma em_expr n : texts n -> em (emit_expression n) (fun b x ws x' => b = negb (is_null n) /\ ecode sc x n ws x').
Proof.
  apply (sub_all_here (fun n => texts n -> em (emit_expression n) (fun b x ws x' => b = negb (is_null n) /\ ecode sc x n ws x'))).
  apply ast_sub_ind. clear n. intros n H. destruct n as [|t root c0 c1]; cbn [emit_expression texts].
  { intros _. eapply em_wk; [eb; [apply em_push_rec|]; instantiate (1 := fun a b x ws x' => a = true -> b = false /\ ws = [] /\ x' = x); destruct a; cbn [negb]; (eapply em_wk; [apply em_ret|]); ez; auto|].
    ez. match goal with X : _ = _ -> _ |- _ => destruct (X eq_refl) as (-> & -> & ->) end. cbn. auto. }
  destruct H as [H0 H1]. intros (Tx & T0 & T1). pose proof (sub_all_here _ _ H0 T0) as P0. pose proof (sub_all_here _ _ H1 T1) as P1. cbn beta in P0, P1.
  cbn [is_null negb].
  eapply em_wk; [eb; [apply em_push_rec|]; instantiate (1 := fun a b x ws x' => a = true -> b = true /\ ecode sc x (ANode t root c0 c1) ws x')|
    ez; match goal with X : _ = _ -> _ |- _ => destruct (X eq_refl) end; auto].
  destruct a; cbn [negb]; [|eapply em_wk; [apply em_ret|]; ez; discriminate].
  eapply em_wk; [|intros a x ws x' Q _; exact Q]. cbn [ecode]. destruct (tk_type t =? TK_ASSIGNMENT) eqn:As.
  - eapply em_wk; [eb; [apply em_pop_rec|]; eb; [apply em_push_rec|]|].
    + instantiate (1 := fun a b x ws x' => a = true -> b = true /\ exists w1 off1, ecode sc x c1 w1 off1 /\
        match c0 with
        | ANull => False
        | ANode t0 _ c00 c01 =>
          if tk_type t0 =? TK_IDENTIFIER then exists p, lookup (tk_str t0) sc = Some p /\ ws = w1 ++ store_code p off1 /\ x' = off1
          else tk_type t0 = TK_BRACKET_OPEN /\ exists w2 off2 w3 off3, ecode sc off1 c00 w2 off2 /\ ecode sc off2 c01 w3 off3 /\
            ws = w1 ++ w2 ++ w3 ++ [OP_FIELDSET] /\ x' = off3 - 2
        end). cbn beta.
      destruct a0; cbn [negb]; [|eapply em_wk; [apply em_ret|]; ez; discriminate].
      apply em_if; intro; [apply em_err; intro; apply w_give_up, errs_prims|].
      destruct c0 as [|t0 r0 c00 c01]; [apply em_err; intro; apply w_give_up, errs_prims|].
      destruct H0 as [_ [Q0 Q1]]. destruct T0 as (_ & T00 & T01). apply sub_all_here in Q0, Q1. specialize (Q0 T00). specialize (Q1 T01). cbn beta in Q0, Q1.
      destruct (tk_type t0 =? TK_IDENTIFIER).
      * eapply em_wk; [eb; [exact P1|]; apply em_done, em_set|]. ez. intros _. split; [reflexivity|]. eexists _, _. split; [eassumption|]. eauto.
      * eapply em_wk; [eb; [exact P1|]|].
        -- instantiate (1 := fun _ b x ws x' => b = true /\ tk_type t0 = TK_BRACKET_OPEN /\ exists w2 off2 w3 off3, ecode sc x c00 w2 off2 /\ ecode sc off2 c01 w3 off3 /\ ws = w2 ++ w3 ++ [OP_FIELDSET] /\ x' = off3 - 2).
           cbn beta. apply em_if; intro; [|apply em_err; intro; apply w_give_up, errs_prims].
           eapply em_wk; [eb; [exact Q0|]; eb; [exact Q1|]; unfold add_op; apply em_done, em_word|]. ez. split; [reflexivity|].
           split; [apply Z.eqb_eq; assumption|]. eexists _, _, _, _. split; [eassumption|]. split; [eassumption|]. split; reflexivity.
        -- ez. intros _. split; [reflexivity|]. eexists _, _. split; [eassumption|]. eauto 10.
    + ez. match goal with X : _ = _ -> _ |- _ => exact (X eq_refl) end.
  - assert (forall m, em (emit_expression m) (fun b x ws x' => b = negb (is_null m) /\ ecode sc x m ws x') ->
      em (if is_null m then kret true else emit_expression m) (fun b x ws x' => b = true /\ ecode sc x m ws x')) as Opt.
    { intros m Pm. destruct m; cbn [is_null]; [|exact Pm]. eapply em_wk; [apply em_ret|]. ez. cbn. auto. }
    eapply em_wk; [eb; [apply Opt, P0|]|].
    + instantiate (1 := fun a b x ws x' => a = true -> b = true /\ exists w1 off1 w2, ecode sc x c1 w1 off1 /\ tail_code sc off1 t root c1 w2 x' /\ ws = w1 ++ w2).
      destruct a; cbn [negb]; [|eapply em_wk; [unfold give_up; eb; [apply em_pop_rec|]; apply em_ret|]; ez; discriminate].
      eapply em_wk; [eb; [apply Opt, P1|]|].
      * instantiate (1 := fun a b x ws x' => a = true -> b = true /\ tail_code sc x t root c1 ws x').
        destruct a; cbn [negb]; [|eapply em_wk; [unfold give_up; eb; [apply em_pop_rec|]; apply em_ret|]; ez; discriminate].
        eapply em_wk; [apply em_op, Tx|]. ez. auto.
      * ez. intros _. match goal with X : _ = _ -> _ |- _ => destruct (X eq_refl) end. eauto 8.
    + ez. match goal with X : _ = _ -> _ |- _ => destruct (X eq_refl) as (-> & w1 & off1 & w2 & ? & ? & ->) end. split; [reflexivity|].
      eexists _, _, _, _, _. eauto.
Qed.
End Emit.

(** ** Parsing expressions writes nothing, unless they contain functions *)

(** Every function in the text has a name, and the tokens are texts. *)
Definition noanon (l : list token) : Prop :=
  (forall p t q, l = p ++ t :: q -> tk_type t = TK_FUNCTION -> exists n r, q = n :: r /\ tk_type n = TK_IDENTIFIER) /\
  Forall (fun t => is_text (tk_str t)) l.
Lemma noanon_app l q : noanon (l ++ q) -> noanon q.
Proof.
  intros [H T]. split; [|apply Forall_app in T; apply T]. intros p t r -> X. apply (H (l ++ p) t r); [rewrite app_assoc; reflexivity|exact X].
Qed.
Lemma noanon_tl l : noanon l -> noanon (tl l).
Proof. destruct l as [|t l]; [auto|]. apply (noanon_app [t]). Qed.

Notation tt_ := (Forall (fun t => is_text (tk_str t))).
Ltac tx := repeat match goal with
  | H : _ /\ _ |- _ => destruct H
  | H : tt_ (_ ++ _) |- _ => apply Forall_app in H
  | H : tt_ (_ :: _) |- _ => inversion H; subst; clear H
  end.
Lemma texts_expr : (forall e, grouped e -> tt_ (text e) -> texts (tree e)) /\
  (forall a, args_grouped a -> tt_ (args_text a) -> forall t, (tk_type t = TK_STRING -> is_text (tk_str t)) -> texts (chain t a)).
Proof.
  apply expr_args_mi; cbn [grouped args_grouped text args_text tree chain texts app].
  - intros t _ X. tx. auto.
  - intros ts t [G _] _. rewrite G. split; [discriminate|auto].
  - intros o e IH c (_ & G & _) X. tx. auto.
  - intros o e IH (_ & G & _) X. tx. auto.
  - intros e IH o (G & _) X. tx. split; [|auto]. destruct (tk_type o =? TK_INCREMENT); discriminate.
  - intros e IH o i IHi c (G & _ & _ & Gi & _) X. tx. auto.
  - intros e IH d n (G & _) X. tx. cbn. split; [discriminate|]. auto.
  - intros e IH o a IHa c (G & _ & _ & Ga & _) X. tx. destruct (bare e && names_fse (tree e)); cbn [texts]; [split; [discriminate|auto]|auto].
  - intros e IH d n o a IHa c (G & _ & _ & _ & _ & Ga & _) X. tx. cbn [invented tk_type tk_str]. split; [discriminate|]. split; [split; [discriminate|]; auto|].
    apply IHa; auto. discriminate.
  - intros a IHa o b IHb (Ga & Gb & _) X. tx. auto.
  - auto.
  - intros e IH G X t Ht. auto.
  - intros e IH c r IHr (G & _ & Gr) X t Ht. tx. auto.
Qed.
Lemma texts_expand n : forall d, texts n -> texts (expandp n d).
Proof.
  induction n as [|t root a IHa b IHb]; intros d; cbn [texts expandp]; [auto|]. intros (T & Ta & Tb). destruct (is_incdec (tk_type t)); [|cbn [texts]; auto].
  unfold expand_node, made. cbv zeta. destruct (_ && _), ((tk_type t =? TK_INCREMENT) || _); cbn [texts tk_type tk_str];
    repeat match goal with |- _ /\ _ => split end; try exact I; try assumption; intro X; discriminate X.
Qed.
Lemma texts_optimize n : forall n', optimize n = Ok n' -> texts n -> texts n'.
Proof.
  induction n as [|t root a IHa b IHb]; intros n' H; cbn [texts optimize] in *; [injection H as <-; auto|]. intros (T & Ta & Tb).
  destruct (optimize a) as [a'|]; [|discriminate]. cbn [bind] in H. destruct (optimize b) as [b'|]; [|discriminate]. cbn [bind] in H.
  assert (texts (ANode t root a' b')) as R by (cbn [texts]; auto).
  destruct (negb (foldable _)); [injection H as <-; exact R|]. destruct (_ || _); [injection H as <-; exact R|].
  destruct a' as [|t0 r0 a0 b0]; [injection H as <-; exact R|]. destruct (tk_type t0 =? TK_INTEGER).
  - destruct (fold_int _ _ _ _) as [[v|]|]; [| |discriminate]; injection H as <-; [|exact R]. split; [discriminate|]. split; exact I.
  - destruct (fold_float _ _ _ _) as [[v|]|]; [| |discriminate]; injection H as <-; [|exact R]. split; [discriminate|]. split; exact I.
Qed.

Definition same (k k' : comp) : Prop :=
  k_w k' = k_w k /\ k_ctx k' = k_ctx k /\ k_nstat k' = k_nstat k /\
  v_code (k_vm k') = v_code (k_vm k) /\ v_cmask (k_vm k') = v_cmask (k_vm k) /\
  v_funcs (k_vm k') = v_funcs (k_vm k) /\ v_static (k_vm k') = v_static (k_vm k) /\ v_smask (k_vm k') = v_smask (k_vm k) /\
  v_strs (k_vm k') = v_strs (k_vm k) /\ v_byhash (k_vm k') = v_byhash (k_vm k).
Definition quiet (k k' : comp) : Prop :=
  errs k k' /\ (noerr k' -> noanon (k_toks k) -> same k k' /\ noanon (k_toks k')).

Lemma same_refl k : same k k. Proof. unfold same. repeat split. Qed.
Lemma same_trans a b c : same a b -> same b c -> same a c.
Proof. unfold same. intros A B. intuition congruence. Qed.
Lemma quiet_refl k : quiet k k. Proof. split; [exact (fun H => H)|]. intros _ H. split; [apply same_refl|exact H]. Qed.
Lemma quiet_trans a b c : quiet a b -> quiet b c -> quiet a c.
Proof.
  intros [A1 A2] [B1 B2]. split; [exact (fun H => A1 (B1 H))|]. intros N L. destruct (A2 (B1 N) L) as [S1 L1]. destruct (B2 N L1) as [S2 L2].
  split; [eapply same_trans; eauto|exact L2].
Qed.
Lemma quiet_same k k' : errs k k' -> same k k' -> k_toks k' = k_toks k -> quiet k k'.
Proof. intros E S T. split; [exact E|]. rewrite T. auto. Qed.

Lemma nxt_same k : same k (nxt k).
Proof. unfold nxt. destruct (k_toks k) as [|t0 [|t r]]; [repeat split..|]. destruct (negb _ || negb _)%bool; repeat split. Qed.
Lemma q_next : pres quiet next_tok.
Proof.
  intros k a k' H. split; [exact (pr_next _ errs_prims _ _ _ H)|]. rewrite next_tok_run in H. injection H as _ <-. intros _ L.
  rewrite nxt_toks. split; [apply nxt_same|apply noanon_tl, L].
Qed.
Lemma q_cerror m : pres quiet (cerror m).
Proof. intros k a k' H. split; [exact (w_cerror _ errs_prims _ _ _ _ H)|]. intro N. destruct (cerror_errs _ _ _ _ H N). Qed.
Lemma q_rec x : pres quiet (kmod (set_k_rec x)).
Proof. intros k a k' H. injection H as _ <-. apply quiet_same; [exact (fun H => H)|repeat split|reflexivity]. Qed.

End Lits.

Ltac qstep :=
  match goal with
  | H : pres quiet ?m |- pres quiet ?m => exact H
  | H : forall x, pres quiet _ |- _ => apply H
  | H : forall x y, pres quiet _ |- _ => apply H
  | |- pres quiet (kbind _ _) => apply (p_bind _ quiet_trans); [|intros ?]
  | |- pres quiet (kret _) => apply (p_ret _ quiet_refl)
  | |- pres quiet (kgets _) => apply (p_gets _ quiet_refl)
  | |- pres quiet (klift _) => apply (p_lift _ quiet_refl)
  | |- pres quiet (kub _) => apply p_ub
  | |- pres quiet next_tok => apply q_next
  | |- pres quiet (cerror _) => apply q_cerror
  | |- pres quiet (kmod (set_k_rec _)) => apply q_rec
  | |- pres quiet (give_up _) => unfold give_up, pop_recursion
  | |- pres quiet pop_recursion => unfold pop_recursion
  | |- pres quiet push_recursion => unfold push_recursion
  | |- pres quiet (expect _) => unfold expect
  | |- pres quiet (loop_end _ _) => unfold loop_end
  | |- pres quiet (postfix_end _ _) => unfold postfix_end
  | |- pres quiet (parse_call _) => unfold parse_call
  | |- pres quiet (if ?b then _ else _) => destruct b
  | |- pres quiet (match ?x with _ => _ end) => destruct x
  end.

Section Lits1.
Context {LT : Lits}.

Record quiets (r : calls) : Prop := {
  qt_expr : pres quiet (r_expr r);
  qt_loop : forall o v, pres quiet (r_loop r o v);
  qt_postfix : forall p v, pres quiet (r_postfix r p v);
  qt_params : pres quiet (r_params r);
  qt_func : forall k a k', r_func r true k = Ok (a, k') -> cur_type k = TK_FUNCTION -> noanon (k_toks k) -> noerr k' -> False;
  qt_errs : walks errs r
}.

Lemma q_prefix n : pres quiet (prefix_loop n).
Proof. induction n; cbn [prefix_loop]; repeat qstep. Qed.

Lemma q_expand n : forall d, pres quiet (expand n d).
Proof. induction n as [|t r a IHa b IHb]; intros d; cbn [expand]; repeat qstep. Qed.

Lemma errs_skip t m : pres errs (skip_or_complain t m).
Proof. apply w_skip, errs_prims. Qed.

Definition tkeep (k k' : comp) : Prop := k_toks k' = k_toks k.
Lemma tkeep_trans a b c : tkeep a b -> tkeep b c -> tkeep a c.
Proof. unfold tkeep. congruence. Qed.
Lemma t_kvm {A} (m : M A) : pres tkeep (kvm m).
Proof. intros k a k' H. apply kvm_inv in H. destruct H as (s & _ & ->). reflexivity. Qed.
End Lits1.

Ltac tstep :=
  match goal with
  | |- pres tkeep (kbind _ _) => apply (p_bind _ tkeep_trans); [|intros ?]
  | |- pres tkeep (kret _) => apply (p_ret tkeep (fun k => eq_refl))
  | |- pres tkeep (kgets _) => apply (p_gets tkeep (fun k => eq_refl))
  | |- pres tkeep (klift _) => apply (p_lift tkeep (fun k => eq_refl))
  | |- pres tkeep (kub _) => apply p_ub
  | |- pres tkeep (kvm _) => apply t_kvm
  | |- pres tkeep (kmod _) => apply p_mod; intro; reflexivity
  | |- pres tkeep (cerror _) => unfold cerror
  | |- pres tkeep (mod_cc _) => unfold mod_cc
  | |- pres tkeep (if ?b then _ else _) => destruct b
  | |- pres tkeep (match ?x with _ => _ end) => destruct x
  end.
Lemma t_word w b : pres tkeep (add_word w b).
Proof. unfold add_word, grow_code, move_off. repeat tstep. Qed.

(** Parts of the compiler never withdraw errors. *)
Ltac estep W :=
  match goal with
  | |- pres errs (kbind _ _) => apply (pb _ errs_prims); [|intros ?]
  | |- pres errs (kret _) => apply (prt _ errs_prims)
  | |- pres errs (kgets _) => apply (pgt _ errs_prims)
  | |- pres errs (klift _) => apply (plf _ errs_prims)
  | |- pres errs (kub _) => apply p_ub
  | |- pres errs next_tok => apply (pr_next _ errs_prims)
  | |- pres errs (kvm create_function) => apply (w_create_function _ errs_prims)
  | |- pres errs (kvm (modify _)) => let H := fresh in intros ? ? ? H; apply kvm_inv in H; destruct H as (? & H & ->); injection H as _ <-; exact (fun X => X)
  | |- pres errs (kmod _) => apply p_mod; intro; exact (fun X => X)
  | |- pres errs (r_expr _) => apply (wk_expr _ _ W)
  | |- pres errs (r_stmt _) => apply (wk_stmt _ _ W)
  | |- pres errs (r_block _ _) => apply (wk_block _ _ W)
  | |- pres errs (r_func _ _) => apply (wk_func _ _ W)
  | |- pres errs (r_args _ _) => apply (wk_args _ _ W)
  | |- pres errs (cerror _) => apply (w_cerror _ errs_prims)
  | |- pres errs (expect _) => apply (w_expect _ errs_prims)
  | |- pres errs push_recursion => apply (w_push_rec _ errs_prims)
  | |- pres errs pop_recursion => apply (w_pop_rec _ errs_prims)
  | |- pres errs (give_up _) => apply (w_give_up _ errs_prims)
  | |- pres errs cur_cc => apply (w_cur_cc _ errs_prims)
  | |- pres errs (mod_cc _) => apply (w_mod_cc _ errs_prims)
  | |- pres errs no_pop => apply (w_mod_cc _ errs_prims)
  | |- pres errs (move_off _) => apply (w_mod_cc _ errs_prims)
  | |- pres errs (add_word _ _) => apply (w_add_word _ errs_prims)
  | |- pres errs (add_op _ _) => apply (w_add_word _ errs_prims)
  | |- pres errs (push_lit_int _ _) => apply (w_lit_int _ errs_prims)
  | |- pres errs (push_lit_func _ _) => apply (w_lit_func _ errs_prims)
  | |- pres errs push_context => apply (w_push_ctx _ errs_prims)
  | |- pres errs pop_context => apply (w_pop_ctx _ errs_prims)
  | |- pres errs (pop_contexts _) => apply (w_pop_ctxs _ errs_prims)
  | |- pres errs (add_variable _ _ _) => apply (w_add_var _ errs_prims)
  | |- pres errs (emit_jump _) => apply (w_emit_jump _ errs_prims)
  | |- pres errs (emit_jz _) => apply (w_emit_jz _ errs_prims)
  | |- pres errs (modify_jump _ _) => apply (w_modify_jump _ errs_prims)
  | |- pres errs (emit_expression _) => apply (w_emit _ errs_prims)
  | |- pres errs (compile_expression _ _) => apply (w_compile_expr _ errs_prims _ W)
  | |- pres errs (expression_tree _ _) => apply (w_tree _ errs_prims _ W)
  | |- pres errs emit_return => apply (w_emit_return _ errs_prims)
  | |- pres errs fix_breaks => apply (w_fix _ errs_prims)
  | |- pres errs open_loop => apply (w_open _ errs_prims)
  | |- pres errs close_loop => apply (w_close _ errs_prims)
  | |- pres errs (add_owned _) => apply (w_owned _ errs_prims)
  | |- pres errs (skip_or_complain _ _) => apply (w_skip _ errs_prims)
  | |- pres errs (function_rest _ _) => apply (w_func_rest _ errs_prims _ W)
  | |- pres errs (need _ _) => apply (w_need _ errs_prims)
  | |- pres errs (need_in _ _ _) => apply (w_need_in _ errs_prims)
  | |- pres errs (enter _ _) => apply (w_enter _ errs_prims)
  | |- pres errs (block _ _) => apply (w_block _ errs_prims _ W)
  | |- pres errs (let '(_, _) := ?p in _) => destruct p
  | |- pres errs (if ?b then _ else _) => destruct b
  | |- pres errs (match ?x with _ => _ end) => destruct x
  end.
Ltac ew W := cbv zeta; repeat estep W.

Section Lits2.
Context {LT : Lits}.

Lemma t_expand n : forall d, pres tkeep (expand n d).
Proof.
  induction n as [|t r a IHa b IHb]; intros d; cbn [expand]; unfold push_recursion, pop_recursion; repeat first [tstep | apply IHa | apply IHb].
Qed.

Section Quiet.
Variable r : calls.
Hypothesis Q : quiets r.

Lemma q_value : pres quiet (parse_value r).
Proof.
  pose proof (qt_expr _ Q) as Qe. intros k a k' H. split; [exact (w_value _ errs_prims _ (qt_errs _ Q) _ _ _ H)|].
  unfold parse_value in H. intros N L. kb H. injection E as <- <-. destruct (cur_type k =? TK_PAREN_OPEN).
  { revert N L. refine (proj2 ((_ : pres quiet _) _ _ _ H)). repeat qstep. }
  kb H. injection E as <- <-. destruct (k_toks k) as [|t l] eqn:T.
  { rewrite <- T in L. revert N L. refine (proj2 ((_ : pres quiet _) _ _ _ H)). repeat qstep. }
  rewrite <- T in L. destruct (expr_ending (cur_type k)).
  { revert N L. refine (proj2 ((_ : pres quiet _) _ _ _ H)). repeat qstep. }
  destruct (cur_type k =? TK_FUNCTION) eqn:F.
  2: { revert N L. refine (proj2 ((_ : pres quiet _) _ _ _ H)). repeat qstep. }
  apply Z.eqb_eq in F. kb H. exfalso. apply (qt_func _ Q _ _ _ E F L). revert N. destruct x.
  - kb H. injection E0 as <- <-. injection H as _ <-. auto.
  - intro N. destruct (complain_up _ _ _ _ _ H N).
Qed.

Lemma q_loop o v : pres quiet (loop_body r o v).
Proof.
  pose proof (qt_loop _ Q). pose proof (qt_postfix _ Q). pose proof q_value. unfold loop_body, prefixes.
  pose proof q_prefix. repeat qstep.
Qed.
Lemma q_parse : pres quiet (parse_body r).
Proof. pose proof (qt_loop _ Q). unfold parse_body. repeat qstep. Qed.
Lemma q_params : pres quiet (params_body r).
Proof. pose proof (qt_params _ Q). pose proof (qt_expr _ Q). unfold params_body. repeat qstep. Qed.
Lemma q_postfix p v : pres quiet (postfix_body r p v).
Proof. pose proof (qt_params _ Q). pose proof (qt_expr _ Q). pose proof (qt_postfix _ Q). unfold postfix_body. repeat qstep. Qed.

Lemma q_func k a k' : function_body r true k = Ok (a, k') -> cur_type k = TK_FUNCTION -> noanon (k_toks k) -> noerr k' -> False.
Proof.
  intros H F L N. unfold function_body, enter in H. kb H. destruct x; cbn [negb] in H.
  2: { injection H as _ <-. unfold push_recursion in E. kb E. destruct (256 <? x); [exact (complain _ _ _ _ _ E N)|]. kb E. discriminate. }
  apply push_rec_inv in E; [|reflexivity]. subst. kb H. apply t_kvm in E. kb H.
  unfold expect in E0. kb E0. injection E1 as <- <-. assert (cur_type k0 = TK_FUNCTION) as C by (unfold cur_type; rewrite E; exact F).
  rewrite C, Z.eqb_refl in E0. cbn [negb] in E0. kb E0. rewrite next_tok_run in E1. injection E1 as _ <-. injection E0 as <- <-. cbn [negb] in H.
  unfold function_rest in H. kb H. unfold push_lit_int in E0. kb E0. apply t_word in E1, E0.
  kb H. injection E2 as <- <-. kb H. apply t_word in E2. kb H. injection E3 as <- <-.
  assert (cur_type k3 <> TK_PAREN_OPEN) as X.
  { assert (k_toks k3 = k_toks (nxt k0)) as TT by (unfold tkeep in *; congruence). unfold cur_type. rewrite TT, nxt_toks, E. ks. unfold cur_type in F. destruct (k_toks k) as [|t q] eqn:T; [discriminate|].
    destruct (proj1 L [] t q eq_refl F) as (n & s & -> & Y). cbn [tl]. rewrite Y. discriminate. }
  match type of H with context [rev ?l] => destruct (rev l) as [|g q]; [discriminate H|] end.
  kb H. injection E3 as _ <-. kb H. unfold skip_or_complain in E3. kb E3. injection E4 as <- <-.
  change (cur_type (set_k_ctx _ _)) with (cur_type k3) in E3. destruct (Z.eqb_spec (cur_type k3) TK_PAREN_OPEN); [contradiction|].
  apply (cerror_errs _ _ _ _ E3). revert N. refine ((_ : pres errs _) _ _ _ H). ew (qt_errs _ Q).
Qed.

Lemma q_bodies : quiets (bodies r).
Proof.
  constructor; cbn [bodies r_expr r_loop r_postfix r_params r_stmt r_block r_func r_args];
  [apply q_parse | apply q_loop | apply q_postfix | apply q_params | apply q_func | apply (w_bodies _ errs_prims _ (qt_errs _ Q))].
Qed.
End Quiet.

Lemma compiler_quiet n : quiets (compiler n).
Proof.
  induction n; cbn [compiler]; [|apply q_bodies; assumption].
  constructor; [apply p_ub | intros; apply p_ub | intros; apply p_ub | apply p_ub | intros k a k' H; discriminate H|].
  constructor; intros; apply p_ub.
Qed.

(** ** Whole expressions *)

Lemma expand_none n : forall d k n' k', expand n d k = Ok (n', k') -> noerr k' -> n' = expandp n d.
Proof.
  induction n as [|t root a IHa b IHb]; intros d k n' k' H N; cbn [expand expandp] in *.
  { injection H as <- _. reflexivity. }
  kb H. destruct x; cbn [negb] in H.
  2: { injection H as _ <-. unfold push_recursion in E. kb E. destruct (256 <? x); [destruct (complain _ _ _ _ _ E N)|]. kb E. discriminate. }
  clear E. kb H. kb H. apply pop_rec_inv in E0. injection H as <- <-. subst. change (noerr k1) in N.
  destruct (is_incdec (tk_type t)).
  - destruct (is_null a || negb (is_null b)); [discriminate|]. injection E as <- _. reflexivity.
  - kb E. kb E. injection E as <- <-. rewrite (IHa _ _ _ _ E0), (IHb _ _ _ _ E1 N); [reflexivity|].
    exact (w_expand _ errs_prims _ _ _ _ _ E1 N).
Qed.

(** Parsing an expression. *)
Lemma tree_none n d k v k' : expression_tree (compiler n) d k = Ok (v, k') -> v <> ANull -> noerr k' -> noanon (k_toks k) ->
  exists e, k_toks k = text e ++ k_toks k' /\ grouped e /\ optimize (expandp (tree e) d) = Ok v /\ same k k' /\ noanon (k_toks k') /\ ender (cur_type k') /\ texts v.
Proof.
  intros H V N L. unfold expression_tree in H. kb H. destruct x; cbn [negb] in H; [|injection H as <- _; contradiction].
  apply push_rec_inv in E; [|reflexivity]. subst. kb H. kb H. kb H. injection E1 as <- <-. kb H. apply pop_rec_inv in E1. injection H as <- <-. subst.
  change (noerr k1) in N.
  unfold has_errors in V. destruct (v_errs (k_vm k1)) eqn:X; [|contradiction V; reflexivity]. cbn in V.
  destruct x as [|t root c0 c1]; [injection E0 as <- _; contradiction|].
  kb E0. apply klift_inv in E0. destruct E0 as [E0 ->].
  pose proof (q_expand _ _ _ _ _ E1) as [Q1 Q2]. pose proof (qt_expr _ (compiler_quiet n) _ _ _ E) as [P1 P2]. ksin P2.
  destruct (P2 (Q1 N) L) as [S1 L1]. destruct (Q2 N L1) as [S2 L2].
  destruct (sd_expr _ (compiler_sound n) _ _ _ E) as [?|(e & (G & Tr & s & T1 & T2) & En)]; [discriminate|]. cbn [app] in T1. subst s. ksin T2.
  pose proof (t_expand _ _ _ _ _ E1) as T3. unfold tkeep in T3. apply expand_none in E1; [|exact N]. rewrite <- Tr in E1. subst x.
  exists e. ks. rewrite T3. split; [exact T2|]. split; [exact G|]. split; [unfold has_errors; rewrite X; exact E0|].
  split; [exact (same_trans _ _ _ S1 S2)|]. split; [exact L1|]. split; [unfold cur_type; ks; rewrite T3; exact En|].
  unfold has_errors. rewrite X. apply (texts_optimize _ _ E0), texts_expand, (proj1 texts_expr _ G). destruct L as [_ L]. rewrite T2 in L. apply Forall_app in L. apply L.
Qed.

(** Compiling an expression. *)
Lemma same_wf k k' : same k k' -> kwf k -> kwf k'.
Proof.
  intros (A1 & A2 & A3 & A4 & A5 & A6 & A7 & A8 & A9 & A10) []. unfold kcode in *.
  constructor; unfold kcode; rewrite ?A1, ?A3, ?A4, ?A5, ?A7, ?A8, ?A9, ?A10; assumption.
Qed.

Lemma expr_none n d k k' c r sc x : compile_expression (compiler n) d k = Ok (true, k') -> noerr k' -> noanon (k_toks k) -> kwf k ->
  Forall2 srel (c :: r) sc -> at_ k c r x ->
  exists e ws x' v, k_toks k = text e ++ k_toks k' /\ grouped e /\ optimize (expandp (tree e) d) = Ok v /\ ecode sc x v ws x' /\
    noanon (k_toks k') /\ ender (cur_type k') /\ at_ k' c r x' /\
    k_w k' = k_w k + zlen ws /\ (forall i, 0 <= i < k_w k -> kmem k' i = kmem k i) /\ mem_words (kmem k') (k_w k) ws /\ kwf k' /\
    k_nstat k' = k_nstat k /\ v_funcs (k_vm k') = v_funcs (k_vm k) /\ v_static (k_vm k') = v_static (k_vm k).
Proof.
  intros H N L W Sc A. unfold compile_expression in H. kb H. destruct x0; cbn [negb] in H; [|discriminate].
  apply push_rec_inv in E; [|reflexivity]. subst. kb H. destruct x0 as [|t root c0 c1].
  { apply give_up_inv in H. discriminate. }
  kb H. kb H. injection H as -> <-. pose proof (pop_rec_inv _ _ _ E1). subst k2. change (noerr k1) in N.
  assert (noerr k0) as N0 by exact (w_emit _ errs_prims _ _ _ _ E0 N).
  destruct (tree_none _ _ _ _ _ E) as (e & T & G & O & S & L2 & En & Tx); [discriminate|exact N0|exact L|]. ksin T.
  assert (kwf k0) as W0 by (apply (same_wf _ _ S); destruct W; constructor; assumption).
  destruct S as (S1 & S2 & S3 & S4 & S5 & S6 & S7 & S8 & _). ksin S1. ksin S2. ksin S3. ksin S4. ksin S5. ksin S6. ksin S7. ksin S8.
  assert (at_ k0 c r x) as A0 by (unfold at_; rewrite S2; exact A).
  destruct (proj2 (em_expr c r sc Sc _ Tx) _ _ _ _ E0 N W0 A0) as (ws & x' & (P1 & P2 & P3 & (R1 & R2 & R3 & R4 & R5) & P5) & A1 & _ & C).
  exists e, ws, x', (ANode t root c0 c1). ks. rewrite R1. split; [exact T|]. split; [exact G|]. split; [exact O|]. split; [exact C|].
  split; [exact L2|]. split; [unfold cur_type in *; ks; rewrite R1; exact En|]. split; [exact A1|].
  rewrite S1 in P1, P2, P3. split; [exact P1|]. split.
  { intros i Hi. change (kmem (set_k_rec (k_rec k1 - 1) k1) i) with (kmem k1 i). rewrite P2 by exact Hi. unfold kmem, kcode. rewrite S4. reflexivity. }
  split; [exact P3|]. split; [destruct P5; constructor; assumption|]. rewrite R2, R3, R4, S3, S6, S7. repeat split.
Qed.
End Lits2.
