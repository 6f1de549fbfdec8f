(** * LeaveProofs: what compiling leaves alone, whether or not the script is accepted *)

From Verif Require Import Base BaseFacts State MonadFacts TableModel TableProofs StrModel StrSpec StrProofs TokenModel TokenProofs TokenProperties CsModel ExprModel CompModel RegModel KFacts ParseProofs EmitProofs DidProofs RunProofs SessionProofs LeaveSpec.
From Coq Require Import ZArith List Lia Bool.
Import ListNotations.
Open Scope Z_scope.

(** ** The data *)

Definition data (s s' : vm) : Prop :=
  bare s' = bare s /\ v_extfuncs s' = v_extfuncs s /\ grown s s' /\
  (exists e, v_errs s' = v_errs s ++ e) /\ (exists f, v_files s' = v_files s ++ f) /\ exists m, v_markers s' = v_markers s ++ m.

Lemma data_mk s s' : bare s' = bare s -> v_extfuncs s' = v_extfuncs s -> grown s s' -> v_errs s' = v_errs s -> v_files s' = v_files s -> v_markers s' = v_markers s -> data s s'.
Proof. intros A B C D E F. split; [exact A|]. split; [exact B|]. split; [exact C|]. rewrite D, E, F. split; [|split]; exists []; rewrite app_nil_r; reflexivity. Qed.
Lemma data_refl s : data s s. Proof. apply data_mk; try reflexivity. apply grown_refl. Qed.
Lemma data_trans a b c : data a b -> data b c -> data a c.
Proof.
  intros (A1 & A2 & A3 & (x1 & A4) & (y1 & A5) & z1 & A6) (B1 & B2 & B3 & (x2 & B4) & (y2 & B5) & z2 & B6).
  split; [congruence|]. split; [congruence|]. split; [eapply grown_trans; eauto|]. rewrite B4, B5, B6, A4, A5, A6, <- !app_assoc. split; [|split]; eexists; reflexivity.
Qed.
Lemma data_err s e : data s (set_errs (v_errs s ++ e) s).
Proof.
  split; [reflexivity|]. split; [reflexivity|]. split; [apply grown_same; reflexivity|]. split; [exists e; reflexivity|]. split; exists []; vs; rewrite app_nil_r; reflexivity.
Qed.
Lemma data_mark s m : data s (set_markers (v_markers s ++ m) s).
Proof.
  split; [reflexivity|]. split; [reflexivity|]. split; [apply grown_same; reflexivity|]. split; [exists []; vs; rewrite app_nil_r; reflexivity|]. split; [exists []; vs; rewrite app_nil_r; reflexivity|].
  exists m. reflexivity.
Qed.
Lemma data_token s s' : tgrow s s' -> data s s'.
Proof.
  intros (f & e & ->). split; [reflexivity|]. split; [reflexivity|]. split; [apply grown_same; reflexivity|]. split; [exists e; reflexivity|]. split; [exists f; reflexivity|]. exists []. vs. rewrite app_nil_r. reflexivity.
Qed.

Lemma error_cases l f m s u s' : add_error_ex l f m s = Ok (u, s') -> exists e, s' = set_errs (v_errs s ++ [e]) s.
Proof.
  unfold add_error_ex. intro H. apply bind_inv in H. destruct H as (c & s1 & E0 & H).
  assert (s1 = s) as ->. { unfold cur_ctx, mbind, gets, get_ctx in E0. destruct (znth _ _) as [[|]|] in E0; try discriminate. injection E0 as _ <-. reflexivity. }
  apply bind_inv in H. destruct H as (s2 & s3 & E & H). injection E as <- <-.
  injection H as _ <-. eauto.
Qed.
Lemma intern_cases t s i s' : find_or_add_string t s = Ok (i, s') ->
  (exists e, s' = set_errs (v_errs s ++ [e]) s) \/ exists x y, s' = set_byhash x (set_strs y s) /\ smono (v_strs s) y.
Proof.
  unfold find_or_add_string. intro H. apply bind_inv in H. destruct H as (s0 & s1 & E & H). injection E as <- <-.
  apply bind_inv in H. destruct H as (ch & s2 & E & H). unfold lift in E. destruct (rd _ _) in E; [|discriminate]. injection E as <- <-.
  apply bind_inv in H. destruct H as (fd & s2 & E & H). unfold lift in E. destruct (find_in_chain _ _ _) in E; [|discriminate]. injection E as <- <-.
  destruct a0 as [j|].
  - injection H as _ <-. right. exists (v_byhash s), (v_strs s). split; [destruct s; reflexivity|apply smono_refl].
  - destruct (tab_add _ _) as [[j t']|] eqn:A.
    + apply bind_inv in H. destruct H as (sl & s2 & E & H). unfold lift, wr in E. destruct (znth (t_slots t') j) eqn:Z in E; [|discriminate]. injection E as <- <-.
      unfold mbind, modify, ret in H. injection H as _ <-. right. eexists _, _. split; [reflexivity|]. intro W. destruct (tab_add_ok _ _ _ _ W A) as (W' & Fr & _ & _ & G).
      pose proof (G j) as Gj. rewrite Z.eqb_refl in Gj. destruct (tab_set_ok t' j _ (mkS j 0 false (str_hash t) t) W' Gj) as [W2 G2].
      split; [exact W2|]. intros b e Ga. rewrite G2, G. destruct (Z.eqb_spec b j) as [->|]; [congruence|]. eauto.
    + apply bind_inv in H. destruct H as (u & s2 & E & H). apply error_cases in E. injection H as _ <-. left. exact E.
Qed.

Definition kdata (k k' : comp) : Prop := data (k_vm k) (k_vm k').
Lemma data_prims : prims kdata.
Proof.
  unfold kdata. constructor; intros; ks; try (apply data_refl).
  - eapply data_trans; eauto.
  - intros k a k' H. rewrite next_tok_run in H. injection H as _ <-. unfold nxt.
    destruct (k_toks k) as [|t0 [|t r]]; [apply data_refl|apply data_refl|]. cbv zeta. destruct (negb _ || negb _)%bool; [apply data_mark|apply data_refl].
  - intros k a k' H. apply kvm_inv in H. destruct H as (s & E & ->). apply error_cases in E. destruct E as (e & ->). apply data_err.
  - apply data_mk; try reflexivity. apply grown_same; reflexivity.
  - apply data_mk; try reflexivity. split; [exists n; reflexivity|apply smono_refl].
  - apply data_mk; try reflexivity. apply grown_same; reflexivity.
  - intros k a k' H. apply kvm_inv in H. destruct H as (s & E & ->). ks. apply intern_cases in E. destruct E as [(e & ->)|(x & y & -> & M)]; [apply data_err|].
    apply data_mk; try reflexivity. split; [exists 0%nat; rewrite app_nil_r; reflexivity|exact M].
  - intros k a k' H. apply kvm_inv in H. destruct H as (s & E & ->). ks. pose proof (keep_mono _ _ _ _ E) as M. apply keep_fields in E. destruct E as (y & ->).
    apply data_mk; try reflexivity. split; [exists 0%nat; rewrite app_nil_r; reflexivity|exact M].
Qed.

(** ** Code and functions *)

Section Code.
(** Code below [n] and functions below [nf] are the ones of before. *)
Variables n nf : Z.

Definition okc (w : Z) (c : cctx) : Prop := Forall (fun a => n <= a /\ a + 3 <= w) (cc_fix c).
Record inv (m : Z) (k : comp) : Prop := {
  iv_pow : pow2 (zlen (v_code (k_vm k)));
  iv_mask : v_cmask (k_vm k) = zlen (v_code (k_vm k)) - 1;
  iv_n : 0 <= n <= m;
  iv_w : m <= k_w k < zlen (v_code (k_vm k));
  iv_ctx : Forall (okc (k_w k)) (k_ctx k);
  iv_nf : nf <= zlen (v_funcs (k_vm k))
}.
Definition agree (k k' : comp) : Prop :=
  (forall i, i < n -> znth (v_code (k_vm k')) i = znth (v_code (k_vm k)) i) /\
  (forall i, i < nf -> znth (v_funcs (k_vm k')) i = znth (v_funcs (k_vm k)) i) /\ k_w k <= k_w k'.
Definition R (m : Z) (k k' : comp) : Prop := inv m k -> inv m k' /\ agree k k'.

Lemma agree_refl k : agree k k. Proof. split; [auto|]. split; [auto|lia]. Qed.
Lemma agree_trans a b c : agree a b -> agree b c -> agree a c.
Proof. intros (A1 & A2 & A3) (B1 & B2 & B3). split; [intros i H; rewrite B1, A1 by exact H; reflexivity|]. split; [intros i H; rewrite B2, A2 by exact H; reflexivity|lia]. Qed.
Lemma R_refl m k : R m k k. Proof. intro I. split; [exact I|apply agree_refl]. Qed.
Lemma R_trans m a b c : R m a b -> R m b c -> R m a c.
Proof. intros A B I. destruct (A I) as [I1 A1]. destruct (B I1) as [I2 A2]. split; [exact I2|eapply agree_trans; eauto]. Qed.
Lemma okc_le w w' c : w <= w' -> okc w c -> okc w' c.
Proof. intros L. apply Forall_impl. intros a [A B]. split; [exact A|lia]. Qed.
Lemma oks_le w w' l : w <= w' -> Forall (okc w) l -> Forall (okc w') l.
Proof. intros L. apply Forall_impl. intros c. apply okc_le. exact L. Qed.
Lemma inv_le m m' k : 0 <= n <= m -> m <= m' -> inv m' k -> inv m k.
Proof. intros A B []. constructor; auto; lia. Qed.

(** Same code, functions, contexts. *)
Definition like (k k' : comp) : Prop :=
  v_code (k_vm k') = v_code (k_vm k) /\ v_cmask (k_vm k') = v_cmask (k_vm k) /\ v_funcs (k_vm k') = v_funcs (k_vm k) /\ k_w k' = k_w k /\ k_ctx k' = k_ctx k.
Lemma R_like m k k' : like k k' -> R m k k'.
Proof.
  intros (A & B & C & D & E) []. split.
  - constructor; rewrite ?A, ?B, ?C, ?D, ?E; auto.
  - unfold agree. rewrite A, C, D. split; [auto|]. split; [auto|lia].
Qed.
Lemma R_ctx m l k : (inv m k -> Forall (okc (k_w k)) l) -> R m k (set_k_ctx l k).
Proof. intros L I. split; [|split; [auto|split; [auto|ks; lia]]]. specialize (L I). destruct I. constructor; auto. Qed.

Lemma pb m {A B} (x : K A) (f : A -> K B) : pres (R m) x -> (forall a, pres (R m) (f a)) -> pres (R m) (kbind x f).
Proof. apply p_bind. apply R_trans. Qed.
Lemma prt m {A} (a : A) : pres (R m) (kret a). Proof. apply p_ret, R_refl. Qed.
Lemma pgt m {A} (f : comp -> A) : pres (R m) (kgets f). Proof. apply p_gets, R_refl. Qed.
Lemma plf m {A} (r : res A) : pres (R m) (klift r). Proof. apply p_lift, R_refl. Qed.
Lemma pif m {A} (b : bool) (x y : K A) : pres (R m) x -> pres (R m) y -> pres (R m) (if b then x else y). Proof. destruct b; auto. Qed.
(** What is known about the position afterwards. *)
Lemma p_up m m' {A B} (x : K A) (f : A -> K B) : m <= m' ->
  (forall k a k', x k = Ok (a, k') -> inv m k -> inv m' k' /\ agree k k') -> (forall a, pres (R m') (f a)) -> pres (R m) (kbind x f).
Proof.
  intros L X F k b k' H I. apply kbind_inv in H. destruct H as (a & k1 & E & H). destruct (X _ _ _ E I) as [I1 A1]. destruct (F _ _ _ _ H I1) as [I2 A2].
  split; [|eapply agree_trans; eauto]. eapply inv_le; [apply (iv_n _ _ I)|exact L|exact I2].
Qed.

Lemma q_next m : pres (R m) next_tok.
Proof.
  intros k a k' H. rewrite next_tok_run in H. injection H as _ <-. apply R_like. unfold nxt.
  destruct (k_toks k) as [|t0 [|t r]]; [repeat split|repeat split|]. cbv zeta. destruct (negb _ || negb _)%bool; repeat split.
Qed.
Lemma q_error m l f x : pres (R m) (kvm (add_error_ex l f x)).
Proof. intros k a k' H. apply kvm_inv in H. destruct H as (s & E & ->). apply error_cases in E. destruct E as (e & ->). apply R_like. repeat split. Qed.
Lemma q_intern m t : pres (R m) (kvm (find_or_add_string t)).
Proof. intros k a k' H. apply kvm_inv in H. destruct H as (s & E & ->). apply intern_cases in E. destruct E as [(e & ->)|(x & y & -> & _)]; apply R_like; repeat split. Qed.
Lemma q_keep m t : pres (R m) (kvm (keep_string t)).
Proof. intros k a k' H. apply kvm_inv in H. destruct H as (s & E & ->). apply keep_fields in E. destruct E as (y & ->). apply R_like; repeat split. Qed.

Ltac pstep :=
  match goal with
  | H : pres (R ?m) ?x |- pres (R ?m) ?x => exact H
  | |- pres (R _) (kbind _ _) => apply pb; [ | intros ?]
  | |- pres (R _) (kret _) => apply prt
  | |- pres (R _) (kgets _) => apply pgt
  | |- pres (R _) (klift _) => apply plf
  | |- pres (R _) (kub _) => apply p_ub
  | |- pres (R _) next_tok => apply q_next
  | |- pres (R _) (kvm (add_error_ex _ _ _)) => apply q_error
  | |- pres (R _) (kvm (find_or_add_string _)) => apply q_intern
  | |- pres (R _) (kvm (keep_string _)) => apply q_keep
  | |- pres (R _) (kvm (modify (set_smask _))) => let H := fresh in let s := fresh in intros ? ? ? H; apply kvm_inv in H; destruct H as (s & H & ->); injection H as _ <-; apply R_like; repeat split
  | |- pres (R _) (kmod (set_k_rec _)) => apply p_mod; intros ?; apply R_like; repeat split
  | |- pres (R _) (kmod (set_k_nstat _)) => apply p_mod; intros ?; apply R_like; repeat split
  | |- pres (R _) (if ?b then _ else _) => apply pif
  | |- pres (R _) (match ?x with _ => _ end) => destruct x
  end.
Ltac pw := repeat pstep.

Lemma w_cerror m x : pres (R m) (cerror x). Proof. unfold cerror. pw. Qed.
Lemma w_expect m t : pres (R m) (expect t). Proof. unfold expect. pw; apply w_cerror. Qed.
Lemma w_push_rec m : pres (R m) push_recursion. Proof. unfold push_recursion. pw; apply w_cerror. Qed.
Lemma w_pop_rec m : pres (R m) pop_recursion. Proof. unfold pop_recursion. pw. Qed.
Lemma w_give_up m {A} (a : A) : pres (R m) (give_up a). Proof. unfold give_up. pw. apply w_pop_rec. Qed.
Lemma w_cur_cc m : pres (R m) cur_cc. Proof. unfold cur_cc. pw. Qed.
Lemma w_mod_cc m f : (forall c, cc_fix (f c) = cc_fix c \/ cc_fix (f c) = []) -> pres (R m) (mod_cc f).
Proof.
  intros F k a k' H. apply mod_cc_inv in H. destruct H as (c & r & E & ->). apply R_ctx. intro I. pose proof (iv_ctx _ _ I) as C. rewrite E in C. inversion C; subst. constructor; [|assumption].
  unfold okc in *. destruct (F c) as [->| ->]; [assumption|constructor].
Qed.
Lemma q_static m x y : pres (R m) (kvm (modify (fun s => set_smask x (set_static (v_static s ++ y) s)))).
Proof. intros k a k' H. apply kvm_inv in H. destruct H as (s & E & ->). injection E as _ <-. apply R_like. repeat split. Qed.

(** Writing a word moves on by one. *)
Lemma grow_cases k u k' : grow_code k = Ok (u, k') -> pow2 (zlen (v_code (k_vm k))) -> v_cmask (k_vm k) = zlen (v_code (k_vm k)) - 1 ->
  exists c, zlen c = zlen (v_code (k_vm k)) /\ v_code (k_vm k') = v_code (k_vm k) ++ c /\ v_cmask (k_vm k') = 2 * zlen (v_code (k_vm k)) - 1 /\
    pow2 (2 * zlen (v_code (k_vm k))) /\ v_funcs (k_vm k') = v_funcs (k_vm k) /\ k_w k' = k_w k /\ k_ctx k' = k_ctx k.
Proof.
  unfold grow_code. intros H Pw Mk. kb H. injection E as <- <-. destruct (pow2_bounds _ Pw) as [L U]. rewrite Mk in H.
  set (z := zlen (v_code (k_vm k))) in *. unfold W31 in *.
  assert (u32 ((z - 1) * 2) = 2 * (z - 1)) as E1 by (rewrite u32_id; unfold is_u32, W32; lia).
  assert (u32 (z - 1 + 1) = z) as E2 by (rewrite u32_id; unfold is_u32, W32; lia).
  rewrite E1, E2, lor_one in H by lia. replace (2 * (z - 1) + 1) with (2 * z - 1) in H by lia. kb H.
  assert (like k k0 /\ True) as [Lk _].
  { split; [|exact I]. destruct (INVALID <=? 2 * z - 1).
    - unfold cerror, kbind, kgets in E. apply kvm_inv in E. destruct E as (s & E & ->). apply error_cases in E. destruct E as (e & ->). repeat split.
    - injection E as _ <-. repeat split. }
  destruct Lk as (L1 & L2 & L3 & L4 & L5). destruct (u32 (z * 2) =? 0) eqn:Q; [discriminate|]. apply kvm_inv in H. destruct H as (s & E3 & ->). inversion E3; subst s; clear E3.
  exists (repeat 0 (Z.to_nat z)). ks. vs. rewrite L1, L3. split; [unfold zlen at 1; rewrite repeat_length; lia|]. split; [reflexivity|]. split; [reflexivity|]. split; [|auto].
  apply Z.eqb_neq in Q. apply pow2_double; [exact Pw|]. destruct Pw as (e & He & Ez). assert (e = 31 \/ e <= 30) as [->|Le] by lia.
  - exfalso. apply Q. fold z in Ez. rewrite Ez. reflexivity.
  - fold z in Ez |- *. rewrite Ez. assert (2 ^ e <= 2 ^ 30) by (apply Z.pow_le_mono_r; lia). unfold W31. change (2 ^ 30) with 1073741824 in *. lia.
Qed.

Lemma word_up m w adj k u k' : add_word w adj k = Ok (u, k') -> inv m k -> inv (m + 1) k' /\ agree k k'.
Proof.
  unfold add_word. intros H Iv. kb H. injection E as <- <-. kb H. injection E as <- <-. kb H. rename k0 into k1.
  assert (exists c, pow2 (zlen (v_code (k_vm k) ++ c)) /\ v_code (k_vm k1) = v_code (k_vm k) ++ c /\ v_cmask (k_vm k1) = zlen (v_code (k_vm k) ++ c) - 1 /\ k_w k + 1 < zlen (v_code (k_vm k) ++ c) /\
    v_funcs (k_vm k1) = v_funcs (k_vm k) /\ k_w k1 = k_w k /\ k_ctx k1 = k_ctx k) as (c & G1 & G2 & G3 & G4 & G5 & G6 & G7).
  { destruct Iv as [Pw Mk Rn Rw Cx Nf]. destruct (v_cmask (k_vm k) <=? k_w k) eqn:Q.
    - apply Z.leb_le in Q. destruct (grow_cases _ _ _ E Pw Mk) as (c & C1 & C2 & C3 & C4 & C5 & C6 & C7). exists c. rewrite zlen_app, C1.
      replace (zlen (v_code (k_vm k)) + zlen (v_code (k_vm k))) with (2 * zlen (v_code (k_vm k))) by lia. destruct (pow2_bounds _ Pw).
      split; [exact C4|]. split; [exact C2|]. split; [exact C3|]. split; [lia|auto].
    - apply Z.leb_gt in Q. injection E as _ <-. exists []. rewrite app_nil_r. split; [exact Pw|]. split; [reflexivity|]. split; [exact Mk|]. split; [lia|auto]. }
  clear E. kb H. injection E as <- <-. kb H. apply klift_inv in E. destruct E as [E ->]. apply wr_inv in E. destruct E as [-> Ri].
  kb H. apply kvm_inv in E. destruct E as (s & E & ->). injection E as _ <-. kb H. injection E as <- <-. kb H. injection H as _ <-. ksin E. rewrite G7 in E.
  assert (exists l, k0 = set_k_ctx l (set_k_vm (set_code (zupd (v_code (k_vm k1)) (k_w k) w) (k_vm k1)) k1) /\ Forall (okc (k_w k)) l) as (l & -> & Fl).
  { pose proof (iv_ctx _ _ Iv) as C. destruct (k_ctx k) as [|c0 r0] eqn:Ec.
    - injection E as _ <-. exists []. split; [|constructor]. unfold set_k_ctx, set_k_vm. ks. rewrite G7. reflexivity.
    - destruct adj.
      + apply mod_cc_inv in E. destruct E as (c1 & r1 & Q & ->). ksin Q. rewrite G7 in Q. injection Q as <- <-. eexists. split; [reflexivity|]. inversion C; subst. constructor; assumption.
      + injection E as _ <-. exists (c0 :: r0). split; [|exact C]. unfold set_k_ctx, set_k_vm. ks. rewrite G7. reflexivity. }
  destruct Iv as [Pw Mk Rn Rw Cx Nf]. destruct (pow2_bounds _ G1) as [_ U]. unfold W31 in U.
  assert (u32 (k_w k + 1) = k_w k + 1) as Eu by (apply u32_id; unfold is_u32, W32; lia). rewrite G2 in *. split.
  - constructor; ks; vs; rewrite ?zlen_zupd, ?G3, ?G5, ?Eu; auto; try lia. eapply oks_le; [|exact Fl]. lia.
  - split; [|split; ks; vs; [rewrite G5; auto|rewrite Eu; lia]]. intros i Hi. ks. vs. rewrite znth_zupd_other by lia. apply znth_app_l. lia.
Qed.
Lemma up_pres m m' {A} (x : K A) : m <= m' -> (forall k a k', x k = Ok (a, k') -> inv m k -> inv m' k' /\ agree k k') -> pres (R m) x.
Proof. intros L X k a k' H I. destruct (X _ _ _ H I) as [I1 A1]. split; [|exact A1]. eapply inv_le; [apply (iv_n _ _ I)|exact L|exact I1]. Qed.
Lemma w_add_word m w b : pres (R m) (add_word w b).
Proof. eapply (up_pres m (m + 1)); [lia|]. apply word_up. Qed.
Lemma lit_up m v b k u k' : push_lit_int v b k = Ok (u, k') -> inv m k -> inv (m + 2) k' /\ agree k k'.
Proof.
  unfold push_lit_int. intros H I. kb H. destruct (word_up _ _ _ _ _ _ E I) as [I1 A1]. destruct (word_up _ _ _ _ _ _ H I1) as [I2 A2].
  split; [replace (m + 2) with (m + 1 + 1) by lia; exact I2|eapply agree_trans; eauto].
Qed.
Lemma inv_here m k : inv m k -> inv (k_w k) k.
Proof. intros []. constructor; auto; lia. Qed.
Lemma jump_up m op t k a k' : (w <~ kgets k_w ;; push_lit_int (t - w - 3) true ;~ add_op op true ;~ kret w) k = Ok (a, k') -> inv m k ->
  m <= a /\ inv (a + 3) k' /\ agree k k'.
Proof.
  intros H Iv. kb H. injection E as <- <-. kb H. kb H. injection H as <- <-. unfold add_op in E0. destruct (lit_up _ _ _ _ _ _ E (inv_here _ _ Iv)) as [I1 A1]. destruct (word_up _ _ _ _ _ _ E0 I1) as [I2 A2].
  split; [apply (iv_w _ _ Iv)|]. split; [replace (k_w k + 3) with (k_w k + 2 + 1) by lia; exact I2|eapply agree_trans; eauto].
Qed.
Lemma b_jump m op t {B} (f : Z -> K B) : 0 <= n <= m -> (forall a, m <= a -> pres (R (a + 3)) (f a)) ->
  pres (R m) (kbind (w <~ kgets k_w ;; push_lit_int (t - w - 3) true ;~ add_op op true ;~ kret w) f).
Proof.
  intros Rn F k b k' H Iv. apply kbind_inv in H. destruct H as (a & k1 & E & H). destruct (jump_up _ _ _ _ _ _ E Iv) as (La & I1 & A1). destruct (F _ La _ _ _ H I1) as [I2 A2].
  split; [|eapply agree_trans; eauto]. eapply inv_le; [exact Rn| |exact I2]. lia.
Qed.
Lemma pr_n m {A} (x : K A) : (0 <= n <= m -> pres (R m) x) -> pres (R m) x.
Proof. intros X k a k' H I. exact (X (iv_n _ _ I) _ _ _ H I). Qed.
Lemma b_jz m t {B} (f : Z -> K B) : (forall a, 0 <= n <= m -> m <= a -> pres (R (a + 3)) (f a)) -> pres (R m) (kbind (emit_jz t) f).
Proof. intro F. apply pr_n. intro Rn. apply b_jump; auto. Qed.
Lemma b_jmp m t {B} (f : Z -> K B) : (forall a, 0 <= n <= m -> m <= a -> pres (R (a + 3)) (f a)) -> pres (R m) (kbind (emit_jump t) f).
Proof. intro F. apply pr_n. intro Rn. apply b_jump; auto. Qed.
Lemma w_modify_jump m a t : n <= a -> a + 3 <= m -> pres (R m) (modify_jump a t).
Proof.
  intros L U k u k' H Iv. pose proof (iv_w _ _ Iv). pose proof (iv_n _ _ Iv). unfold modify_jump in H. kb H. injection E as <- <-. cbv zeta in H. rewrite (iv_mask _ _ Iv) in H.
  kb H. apply klift_inv in E. destruct E as [_ ->]. kb H. apply klift_inv in E. destruct E as [_ ->]. destruct (negb _ || negb _); [discriminate|].
  kb H. apply klift_inv in E. destruct E as [E ->]. rewrite land_mask in E by (try apply (iv_pow _ _ Iv); lia).
  apply wr_inv in E. destruct E as [-> Ri]. apply kvm_inv in H. destruct H as (s & E & ->). injection E as _ <-. destruct Iv. split.
  - constructor; ks; vs; rewrite ?zlen_zupd; auto.
  - split; [|split; [auto|ks; lia]]. intros i Hi. ks. vs. apply znth_zupd_other. lia.
Qed.

Lemma w_lit_int m v b : pres (R m) (push_lit_int v b). Proof. unfold push_lit_int. pw; apply w_add_word. Qed.
Lemma w_lit_func m v b : pres (R m) (push_lit_func v b). Proof. unfold push_lit_func. pw; apply w_add_word. Qed.
Lemma w_lit_float m v b : pres (R m) (push_lit_float v b). Proof. unfold push_lit_float. pw; apply w_add_word. Qed.
Lemma w_lit_string m v b : pres (R m) (push_lit_string v b). Proof. unfold push_lit_string. pw; apply w_add_word. Qed.
Lemma w_push_ctx m : pres (R m) push_context.
Proof.
  unfold push_context. intros k a k' H. kb H. injection E as <- <-. injection H as _ <-. apply R_ctx. intro Iv. constructor; [constructor|apply (iv_ctx _ _ Iv)].
Qed.
Lemma w_pop_ctx m : pres (R m) pop_context.
Proof.
  unfold pop_context. intros k a k' H. kb H. injection E as <- <-. destruct (k_ctx k) as [|c r] eqn:Ec; [discriminate|]. kb H. injection E as _ <-.
  eapply R_trans; [apply (R_ctx _ r); intro Iv; pose proof (iv_ctx _ _ Iv) as C; rewrite Ec in C; inversion C; assumption|].
  revert H. generalize (set_k_ctx r k) as k1. intros k1 H.
  assert (pres (R m) (if pop_count (cc_vars c) =? 0 then kret tt else push_lit_int (pop_count (cc_vars c)) false ;~ add_op OP_POPN false)) as P by (pw; [apply w_lit_int|apply w_add_word]).
  exact (P _ _ _ H).
Qed.
Lemma w_pop_ctxs m j : pres (R m) (pop_contexts j). Proof. induction j; cbn [pop_contexts]; pw. apply w_pop_ctx. Qed.
Lemma w_alloc_static m : pres (R m) allocate_static.
Proof. unfold allocate_static. pw; first [apply w_cerror|apply q_static]. Qed.
Ltac mcc := apply w_mod_cc; intros ?; left; reflexivity.
Lemma w_add_var m x u i : pres (R m) (add_variable x u i).
Proof.
  unfold add_variable. pw; first [apply w_cur_cc | apply w_cerror | apply w_lit_int | apply w_alloc_static | apply w_add_word | mcc].
Qed.
Lemma w_no_pop m : pres (R m) no_pop. Proof. unfold no_pop. mcc. Qed.
Lemma w_move_off m d : pres (R m) (move_off d). Proof. unfold move_off. mcc. Qed.
Lemma w_lookup m x : pres (R m) (lookup_variable x). Proof. unfold lookup_variable. pw; apply w_cerror. Qed.
Lemma w_emit_jump m t : pres (R m) (emit_jump t). Proof. unfold emit_jump. pw; first [apply w_lit_int | apply w_add_word]. Qed.
Lemma w_emit_jz m t : pres (R m) (emit_jz t). Proof. unfold emit_jz. pw; first [apply w_lit_int | apply w_add_word]. Qed.

Ltac pstep0 :=
  match goal with
  | |- pres (R _) (kbind (emit_jz _) (fun _ => _)) => apply b_jz; intros ? ? ?
  | |- pres (R _) (kbind (emit_jump _) (fun _ => _)) => apply b_jmp; intros ? ? ?
  end.
Ltac pstep2 :=
  match goal with
  | |- pres (R _) (cerror _) => apply w_cerror
  | |- pres (R _) (expect _) => apply w_expect
  | |- pres (R _) push_recursion => apply w_push_rec
  | |- pres (R _) pop_recursion => apply w_pop_rec
  | |- pres (R _) (give_up _) => apply w_give_up
  | |- pres (R _) cur_cc => apply w_cur_cc
  | |- pres (R _) (add_word _ _) => apply w_add_word
  | |- pres (R _) (add_op _ _) => apply w_add_word
  | |- pres (R _) (push_nil_op _) => apply w_add_word
  | |- pres (R _) (push_lit_int _ _) => apply w_lit_int
  | |- pres (R _) (push_lit_func _ _) => apply w_lit_func
  | |- pres (R _) (push_lit_float _ _) => apply w_lit_float
  | |- pres (R _) (push_lit_string _ _) => apply w_lit_string
  | |- pres (R _) push_context => apply w_push_ctx
  | |- pres (R _) pop_context => apply w_pop_ctx
  | |- pres (R _) (pop_contexts _) => apply w_pop_ctxs
  | |- pres (R _) allocate_static => apply w_alloc_static
  | |- pres (R _) (add_variable _ _ _) => apply w_add_var
  | |- pres (R _) no_pop => apply w_no_pop
  | |- pres (R _) (move_off _) => apply w_move_off
  | |- pres (R _) (lookup_variable _) => apply w_lookup
  | |- pres (R _) (emit_jump _) => apply w_emit_jump
  | |- pres (R _) (emit_jz _) => apply w_emit_jz
  | |- pres (R _) (modify_jump _ _) => apply w_modify_jump; lia
  end.
Ltac pz := repeat first [pstep0 | pstep | pstep2].

Lemma w_emit_fetch m x : pres (R m) (emit_fetch x). Proof. unfold emit_fetch, add_op. pz. Qed.
Lemma w_emit_set m x : pres (R m) (emit_set x). Proof. unfold emit_set, add_op. pz. Qed.
Lemma w_emit_fse m x a : pres (R m) (emit_fse x a). Proof. unfold emit_fse, add_op, push_nil_op, add_op. pz. Qed.
Lemma w_emit_op m t r c : pres (R m) (emit_op t r c).
Proof. unfold emit_op, add_op. pw; first [apply w_emit_fetch | apply w_emit_fse | pz]. Qed.
Lemma w_emit m x : pres (R m) (emit_expression x).
Proof.
  apply (sub_all_here (fun x => pres (R m) (emit_expression x))). apply ast_sub_ind. clear x. intros x H.
  destruct x as [ | t r c0 c1]; cbn [emit_expression].
  - pz.
  - destruct H as [H0 H1]. pose proof (sub_all_here _ _ H0) as P0. pose proof (sub_all_here _ _ H1) as P1.
    apply pb; [pz | intros ok]. destruct ok; cbn [negb]; [ | pz].
    apply pif.
    + apply pb; [pz | intros _]. apply pb; [pz | intros ok]. destruct ok; cbn [negb]; [ | pz].
      apply pif; [pz | ]. destruct c0 as [ | t0 r0 c00 c01]; [pz | ].
      destruct H0 as [_ [G0 G1]]. apply sub_all_here in G0. apply sub_all_here in G1.
      apply pb; [exact P1 | intros _].
      apply pif; [pw; first [apply w_emit_set | pz] | ].
      apply pif; [ | pz].
      apply pb; [exact G0 | intros _]. apply pb; [exact G1 | intros _]. unfold add_op. pz.
    + apply pb; [pw; exact P0 | intros b0]. apply pif; [pz | ].
      apply pb; [pw; exact P1 | intros b1]. apply pif; [pz | ]. apply w_emit_op.
Qed.
Lemma w_expand m x : forall d, pres (R m) (expand x d).
Proof.
  induction x as [ | t r a IHa b IHb]; intros d; cbn [expand]; [pz | ].
  apply pb; [pz | intros ok]. apply pif; [pz | ].
  apply pb; [ | intros x; pz]. apply pif; [pz | ].
  apply pb; [apply IHa | intros x]. apply pb; [apply IHb | intros y]. pz.
Qed.

(** New functions come after the old ones. *)
Lemma b_create m {B} (f : Z -> K B) : (forall a, nf <= a -> pres (R m) (f a)) -> pres (R m) (kbind (kvm create_function) f).
Proof.
  intros F k b k' H Iv. apply kbind_inv in H. destruct H as (a & k1 & E & H). apply kvm_inv in E. destruct E as (s & E & ->).
  unfold create_function, mbind, gets, modify, ret, mub in E. destruct (u32 (zlen (v_funcs (k_vm k)) + 1) =? 0); [discriminate|]. injection E as <- <-.
  pose proof (iv_nf _ _ Iv) as Nf. refine (let I1 := _ in let Q := F _ Nf _ _ _ H I1 in conj (proj1 Q) (agree_trans _ _ _ _ (proj2 Q))).
  split; [auto|]. split; [|ks; lia]. intros i Hi. ks. vs. apply znth_app_l. lia.
  Unshelve. destruct Iv. constructor; ks; vs; auto. rewrite zlen_app. change (zlen [_]) with 1. lia.
Qed.
Lemma b_func m id g {B} (rest : K B) : nf <= id -> pres (R m) rest ->
  pres (R m) (s <~ kgets k_vm ;; fn <~ klift (rd (v_funcs s) id) ;; fs <~ klift (wr (v_funcs s) id (g fn)) ;; kvm (modify (set_funcs fs)) ;~ rest).
Proof.
  intros L P k b k' H. kb H. injection E as <- <-. kb H. apply klift_inv in E. destruct E as [_ ->]. kb H. apply klift_inv in E. destruct E as [E ->]. apply wr_inv in E. destruct E as [-> Ri].
  kb H. apply kvm_inv in E. destruct E as (s & E & ->). injection E as _ <-. eapply R_trans; [|exact (P _ _ _ H)]. intro Iv. destruct Iv. split.
  - constructor; ks; vs; rewrite ?zlen_zupd; auto.
  - split; [auto|]. split; [|ks; lia]. intros i Hi. ks. vs. apply znth_zupd_other. lia.
Qed.
Lemma b_patch m at_ g {B} (rest : K B) : n <= at_ -> pres (R m) rest ->
  pres (R m) (w2 <~ kgets k_w ;; s2 <~ kgets k_vm ;; c <~ klift (wr (v_code s2) at_ (g w2)) ;; kvm (modify (set_code c)) ;~ rest).
Proof.
  intros L P k b k' H. kb H. injection E as <- <-. kb H. injection E as <- <-. kb H. apply klift_inv in E. destruct E as [E ->]. apply wr_inv in E. destruct E as [-> Ri].
  kb H. apply kvm_inv in E. destruct E as (s & E & ->). injection E as _ <-. eapply R_trans; [|exact (P _ _ _ H)]. intro Iv. destruct Iv. split.
  - constructor; ks; vs; rewrite ?zlen_zupd; auto.
  - split; [|split; [auto|ks; lia]]. intros i Hi. ks. vs. apply znth_zupd_other. lia.
Qed.
(** Contexts kept aside. *)
Lemma b_ctx m {B} (f : list cctx -> K B) : (forall w l, m <= w -> Forall (okc w) l -> pres (R w) (f l)) -> pres (R m) (kbind (kgets k_ctx) f).
Proof.
  intros F k b k' H Iv. kb H. injection E as <- <-. destruct (F (k_w k) (k_ctx k) (proj1 (iv_w _ _ Iv)) (iv_ctx _ _ Iv) _ _ _ H (inv_here _ _ Iv)) as [I1 A1].
  split; [|exact A1]. eapply inv_le; [apply (iv_n _ _ Iv)|apply (iv_w _ _ Iv)|exact I1].
Qed.
Lemma q_ctx m l : Forall (okc m) l -> pres (R m) (kmod (set_k_ctx l)).
Proof. intro F. apply p_mod. intro k. apply R_ctx. intro Iv. eapply oks_le; [apply (iv_w _ _ Iv)|exact F]. Qed.

Lemma b_cur m {B} (f : cctx -> K B) : (forall w c, m <= w -> okc w c -> pres (R w) (f c)) -> pres (R m) (kbind cur_cc f).
Proof.
  intros F k b k' H Iv. kb H. unfold cur_cc, kbind, kgets in E. destruct (k_ctx k) as [|c l] eqn:Ec; [discriminate|]. injection E as <- <-.
  pose proof (iv_ctx _ _ Iv) as C. rewrite Ec in C. destruct (F (k_w k) c (proj1 (iv_w _ _ Iv)) (Forall_inv C) _ _ _ H (inv_here _ _ Iv)) as [I1 A1].
  split; [|exact A1]. eapply inv_le; [apply (iv_n _ _ Iv)|apply (iv_w _ _ Iv)|exact I1].
Qed.
Lemma b_w m {B} (f : Z -> K B) : (forall w, 0 <= n <= m -> m <= w < W31 -> pres (R m) (f w)) -> pres (R m) (kbind (kgets k_w) f).
Proof.
  intros F k b k' H Iv. kb H. injection E as <- <-. destruct (pow2_bounds _ (iv_pow _ _ Iv)). pose proof (iv_w _ _ Iv). exact (F (k_w k) (iv_n _ _ Iv) ltac:(lia) _ _ _ H Iv).
Qed.
Lemma find_loop_split l : forall i x o, find_loop l = Some (i, x, o) -> l = i ++ x :: o.
Proof.
  induction l as [|c r IH]; intros i x o H; [discriminate|]. cbn [find_loop] in H. destruct (cc_loop c).
  - injection H as <- <- <-. reflexivity.
  - destruct (find_loop r) as [[[i1 x1] o1]|]; [|discriminate]. injection H as <- <- <-. rewrite (IH _ _ _ eq_refl). reflexivity.
Qed.

(** ** The recursive calls *)

Record walks (r : calls) : Prop := {
  wk_expr : forall m, pres (R m) (r_expr r);
  wk_loop : forall m o v, pres (R m) (r_loop r o v);
  wk_postfix : forall m p v, pres (R m) (r_postfix r p v);
  wk_params : forall m, pres (R m) (r_params r);
  wk_stmt : forall m, pres (R m) (r_stmt r);
  wk_block : forall m b, pres (R m) (r_block r b);
  wk_func : forall m b, pres (R m) (r_func r b);
  wk_args : forall m j, pres (R m) (r_args r j)
}.

Section Calls.
Variable r : calls.
Hypothesis W : walks r.

Ltac pstep3 :=
  match goal with
  | |- pres (R _) (r_expr _) => apply (wk_expr r W)
  | |- pres (R _) (r_loop _ _ _) => apply (wk_loop r W)
  | |- pres (R _) (r_postfix _ _ _) => apply (wk_postfix r W)
  | |- pres (R _) (r_params _) => apply (wk_params r W)
  | |- pres (R _) (r_stmt _) => apply (wk_stmt r W)
  | |- pres (R _) (r_block _ _) => apply (wk_block r W)
  | |- pres (R _) (r_func _ _) => apply (wk_func r W)
  | |- pres (R _) (r_args _ _) => apply (wk_args r W)
  | |- pres (R _) (emit_expression _) => apply w_emit
  | |- pres (R _) (expand _ _) => apply w_expand
  end.
Ltac pq := repeat first [pstep0 | pstep | pstep2 | pstep3].

Lemma w_params m : pres (R m) (params_body r). Proof. unfold params_body. pq. Qed.
Lemma w_parse_call m : pres (R m) (parse_call r). Proof. unfold parse_call. pq. Qed.
Lemma w_postfix m p v : pres (R m) (postfix_body r p v). Proof. unfold postfix_body, postfix_end. pq; apply w_parse_call. Qed.
Lemma w_prefix_loop m j : pres (R m) (prefix_loop j). Proof. induction j; cbn [prefix_loop]; pq. Qed.
Lemma w_value m : pres (R m) (parse_value r). Proof. unfold parse_value. pq. Qed.
Lemma w_loop_end m o v : pres (R m) (loop_end o v). Proof. unfold loop_end. pq. Qed.
Lemma w_loop m o v : pres (R m) (loop_body r o v).
Proof. unfold loop_body, prefixes. pq; first [apply w_loop_end | apply w_prefix_loop | apply w_value]. Qed.
Lemma w_parse m : pres (R m) (parse_body r). Proof. unfold parse_body. pq. Qed.
Lemma w_tree m d : pres (R m) (expression_tree r d). Proof. unfold expression_tree. pq. Qed.
Lemma w_compile_expr m d : pres (R m) (compile_expression r d). Proof. unfold compile_expression. pq. apply w_tree. Qed.
Lemma w_need m t (x : K bool) : pres (R m) x -> pres (R m) (need t x). Proof. intros. unfold need. pq. Qed.
Lemma w_need_in m j t (x : K bool) : pres (R m) x -> pres (R m) (need_in j t x). Proof. intros. unfold need_in. pq. Qed.
Lemma w_enter m {A} (a : A) (x : K A) : pres (R m) x -> pres (R m) (enter a x). Proof. intros. unfold enter. pq. Qed.

Ltac pstep4 :=
  match goal with
  | |- pres (R _) (enter _ _) => apply w_enter
  | |- pres (R _) (need _ _) => apply w_need
  | |- pres (R _) (need_in _ _ _) => apply w_need_in
  | |- pres (R _) (compile_expression _ _) => apply w_compile_expr
  | |- pres (R _) (expression_tree _ _) => apply w_tree
  end.
Ltac pe := repeat first [pstep0 | pstep | pstep2 | pstep3 | pstep4].

Lemma w_var m : pres (R m) (var_declaration r). Proof. unfold var_declaration. cbv zeta. pe. Qed.
Lemma w_emit_return m : pres (R m) emit_return. Proof. unfold emit_return, add_op. pe. Qed.
Lemma w_return m : pres (R m) (return_statement r). Proof. unfold return_statement. pe. apply w_emit_return. Qed.
Lemma w_block_loop m b : pres (R m) (block_loop r b). Proof. unfold block_loop. pe. Qed.
Lemma w_block m b : pres (R m) (block r b). Proof. unfold block. pe. Qed.
Lemma w_if m : pres (R m) (if_statement r). Proof. unfold if_statement. pe. Qed.
Lemma w_fix_list m l w : Forall (fun a => n <= a /\ a + 3 <= m) l -> pres (R m) (fix_list l w).
Proof. induction 1 as [|a l [A B] _ IH]; cbn [fix_list]; pe. Qed.
Lemma w_fix m : pres (R m) fix_breaks.
Proof. unfold fix_breaks. apply b_cur. intros w c L C. apply pb; [pe|intros w0]. apply pb; [apply w_fix_list, C|intros _]. apply w_mod_cc. intros x. right. reflexivity. Qed.
Lemma w_open m : pres (R m) open_loop. Proof. unfold open_loop. pe. mcc. Qed.
Lemma w_close m : pres (R m) close_loop. Proof. unfold close_loop. pe. apply w_fix. Qed.
Lemma w_while m : pres (R m) (while_statement r). Proof. unfold while_statement. pe; first [apply w_open | apply w_close]. Qed.
Lemma w_do m : pres (R m) (do_statement r). Proof. unfold do_statement, add_op. pe; first [apply w_open | apply w_close]. Qed.
Lemma w_for m : pres (R m) (for_statement r). Proof. unfold for_statement, add_op. pe; first [apply w_open | apply w_close]. Qed.
Lemma w_break m : pres (R m) break_statement.
Proof.
  unfold break_statement, add_op. apply pb; [pe|intros c]. apply w_enter. apply pb; [pe|intros l]. destruct (find_loop l) as [[[i x] [|o0 o]]|]; [pe| |pe].
  apply pb; [pe|intros _]. apply pb; [pe|intros _]. apply b_jmp. intros j Rn Lj. apply b_ctx. intros w l2 Lw F. destruct (find_loop l2) as [[[i2 x2] o2]|] eqn:Q; [|pe].
  apply find_loop_split in Q. subst l2. apply Forall_app in F. destruct F as [F1 F2]. inversion F2 as [|? ? Fx Fo]; subst. apply pb; [|intros _; pe].
  apply q_ctx. apply Forall_app. split; [exact F1|]. constructor; [|exact Fo]. unfold okc. cbn [cc_fix set_cc_fix]. constructor; [lia|exact Fx].
Qed.
Lemma w_args m j : pres (R m) (args_body r j). Proof. unfold args_body. cbv zeta. pe. Qed.
Lemma w_owned m x : pres (R m) (add_owned x). Proof. unfold add_owned. pe. Qed.
Lemma w_skip m t x : pres (R m) (skip_or_complain t x). Proof. unfold skip_or_complain. pe. Qed.
Lemma oks_restore w a b : Forall (okc w) a -> Forall (okc w) b -> Forall (okc w) (restore a b).
Proof.
  intros A B. unfold restore. apply Forall_rev in B. destruct (rev b) as [|g q]; [destruct a; exact A|].
  assert (Forall (okc w) (removelast a ++ [g])) as H; [|destruct a; exact H].
  apply Forall_app. split; [|constructor; [exact (Forall_inv B)|constructor]]. destruct a as [|a0 a]; [constructor|].
  rewrite (app_removelast_last a0 (l := a0 :: a)) in A by discriminate. apply Forall_app in A. apply A.
Qed.
Lemma w_func_rest m i : nf <= i -> pres (R m) (function_rest r i).
Proof.
  intro Li. apply pr_n. intro Rn0. unfold function_rest, add_op. cbv zeta. apply (p_up m (m + 2)); [lia|intros ? ? ?; apply lit_up|]. intros _. apply b_w. intros w0 Rn Rw.
  assert (u32 (w0 - 1) = w0 - 1) as Eu by (apply u32_id; unfold is_u32, W32, W31 in *; lia). rewrite Eu.
  apply pb; [pe|intros _]. apply b_ctx. intros w1 saved L1 Fs. assert (Forall (okc w1) (rev saved)) as Fr by (apply Forall_rev; exact Fs). destruct (rev saved) as [|g q]; [pe|].
  apply pb; [apply q_ctx; constructor; [constructor|]; constructor; [exact (Forall_inv Fr)|constructor]|intros _].
  apply pb; [apply w_skip|intros _]. apply pb; [apply w_owned|intros _]. apply pb; [pe|intros _]. apply pb; [pe|intros [argc ok]].
  apply pb; [pe|intros w]. apply b_func; [exact Li|]. apply pb; [apply w_owned|intros _]. apply pb; [pe|intros _]. apply pb; [apply w_owned|intros _]. apply pb; [apply w_skip|intros _].
  apply pb; [pe|intros b]. apply pb; [pe|intros _]. apply pb; [pe|intros _]. apply pb; [apply w_emit_return|intros _].
  apply b_patch; [lia|]. apply pb; [pe|intros _]. apply b_ctx. intros w3 cur L3 Fc. apply pb; [|intros _; pe].
  apply q_ctx. apply oks_restore; [eapply oks_le; [|exact Fs]; lia|exact Fc].
Qed.
Lemma w_func m b : pres (R m) (function_body r b).
Proof. unfold function_body. apply w_enter. apply b_create. intros id Hid. pe; apply w_func_rest; exact Hid. Qed.
Lemma w_stmt m : pres (R m) (statement_body r).
Proof.
  unfold statement_body, add_op. cbv zeta.
  pe; first [apply w_var | apply w_return | apply w_block | apply w_if | apply w_while | apply w_do | apply w_for | apply w_break].
Qed.
Lemma w_bodies : walks (bodies r).
Proof.
  constructor; cbn [bodies r_expr r_loop r_postfix r_params r_stmt r_block r_func r_args]; intros;
  [ apply w_parse | apply w_loop | apply w_postfix | apply w_params | apply w_stmt | apply w_block_loop | apply w_func | apply w_args ].
Qed.
End Calls.

Theorem leave_walks j : walks (compiler j).
Proof. induction j; cbn [compiler]; [constructor; intros; apply p_ub | apply w_bodies; assumption]. Qed.
End Code.

(** ** Scripts *)

Definition both (n nf m : Z) (k k' : comp) : Prop := kdata k k' /\ R n nf m k k'.
Lemma script_tail (Q : comp -> comp -> Prop) (Rf : forall k, Q k k) (Tr : forall a b c, Q a b -> Q b c -> Q a c)
  (St : forall l k, Q k (set_k_toks l k)) (Sp : forall a b c k, Q k (set_k_pos a b c k)) fuel ts :
  pres Q (block (compiler fuel) true) -> pres Q pop_recursion -> pres Q (@give_up bool false) ->
  pres Q (match ts with
    | None => give_up false
    | Some l =>
      kmod (set_k_toks l) ;~
      a <~ kgets k_act ;;
      kmod (match l with
            | [] => set_k_pos 0 INVALID a
            | t :: _ => set_k_pos (u32 (tk_line t)) (tk_file t) a
            end) ;~
      b <~ block (compiler fuel) true ;;
      a2 <~ kgets k_act ;;
      kmod (set_k_toks []) ;~
      kmod (set_k_pos 0 INVALID a2) ;~
      pop_recursion ;~
      kret b
    end).
Proof.
  intros B P G. destruct ts as [l|]; [|exact G].
  apply p_bind; [exact Tr|apply p_mod, St|intros _]. apply p_bind; [exact Tr|apply p_gets, Rf|intros a]. apply p_bind; [exact Tr|apply p_mod; intro k; destruct l; apply Sp|intros _].
  apply p_bind; [exact Tr|exact B|intros b]. apply p_bind; [exact Tr|apply p_gets, Rf|intros a2]. apply p_bind; [exact Tr|apply p_mod, St|intros _]. apply p_bind; [exact Tr|apply p_mod, Sp|intros _].
  apply p_bind; [exact Tr|exact P|intros _]. apply p_ret, Rf.
Qed.
Lemma script_leaves n nf m fuel text fname k b k' : compile_script fuel text fname k = Ok (b, k') -> script text -> live_ctx (k_vm k) (v_cur (k_vm k)) -> both n nf m k k'.
Proof.
  intros H Sc L. unfold compile_script, enter in H. kb H.
  assert (both n nf m k k0 /\ v_ctxs (k_vm k0) = v_ctxs (k_vm k) /\ v_cur (k_vm k0) = v_cur (k_vm k)) as ((D0 & R0) & C1 & C2).
  { assert (kdata k k0) as D by exact (KFacts.w_push_rec _ data_prims _ _ _ E). split; [split; [exact D|exact (w_push_rec n nf m _ _ _ E)]|]. destruct D as (Q & _). split; [exact (f_equal v_ctxs Q)|exact (f_equal v_cur Q)]. }
  destruct x; cbn [negb] in H; [|injection H as _ <-; split; assumption].
  kb H. apply kvm_inv in E0. destruct E0 as (s & Et & ->).
  assert (tgrow (k_vm k0) s) as Tg.
  { assert (live_ctx (k_vm k0) (v_cur (k_vm k0))) as L0 by (unfold live_ctx; rewrite C1, C2; exact L).
    destruct (tokenize_cases text fname (k_vm k0) L0 Sc) as [(? & ? & Q & T & _)|[(? & Q & T)|[[Q _]|[Q _]]]]; rewrite Q in Et; try discriminate; injection Et as <- <-; exact (proj1 T). }
  assert (kdata k0 (set_k_vm s k0) /\ R n nf m k0 (set_k_vm s k0)) as [D1 R1].
  { split; [apply data_token; exact Tg|]. destruct Tg as (f & e & ->). apply R_like. repeat split. }
  assert (forall k1, kdata (set_k_vm s k0) k1 /\ R n nf m (set_k_vm s k0) k1 -> both n nf m k k1) as Go.
  { intros k1 [X Y]. split; [eapply data_trans; [exact D0|]; eapply data_trans; [exact D1|exact X]|]. eapply R_trans; [exact R0|]. eapply R_trans; [exact R1|exact Y]. }
  apply Go. revert H. generalize (set_k_vm s k0). intros k1 H.
  split.
  - refine (script_tail kdata _ _ _ _ fuel x _ _ _ k1 b k' H).
    + intro. apply data_refl.
    + intros ? ? ?. apply data_trans.
    + intros. apply data_refl.
    + intros. apply data_refl.
    + apply (KFacts.w_block _ data_prims). apply (compiler_walks _ data_prims).
    + apply (KFacts.w_pop_rec _ data_prims).
    + intros. apply (KFacts.w_give_up _ data_prims).
  - refine (script_tail (R n nf m) _ _ _ _ fuel x _ _ _ k1 b k' H).
    + intro. apply R_refl.
    + intros ? ? ?. apply R_trans.
    + intros. apply R_like; repeat split.
    + intros. apply R_like; repeat split.
    + apply w_block. apply leave_walks.
    + apply w_pop_rec.
    + intros. apply w_give_up.
Qed.

Lemma kdata_live k k' : kdata k k' -> live_ctx (k_vm k) (v_cur (k_vm k)) -> live_ctx (k_vm k') (v_cur (k_vm k')).
Proof. intros (Q & _). pose proof (f_equal v_ctxs Q) as A. pose proof (f_equal v_cur Q) as B. unfold live_ctx. change (v_ctxs (bare ?s)) with (v_ctxs s) in A. change (v_cur (bare ?s)) with (v_cur s) in B. rewrite A, B. auto. Qed.
Lemma scripts_leave n nf m l k k' : compiles l k k' -> live_ctx (k_vm k) (v_cur (k_vm k)) -> both n nf m k k'.
Proof.
  induction 1 as [k|text fname l fuel b k k1 k2 Sc E _ IH]; intro L; [split; [apply data_refl|apply R_refl]|].
  destruct (script_leaves n nf m _ _ _ _ _ _ E Sc L) as [D1 R1]. destruct (IH (kdata_live _ _ D1 L)) as [D2 R2].
  split; [eapply data_trans; eauto|eapply R_trans; eauto].
Qed.
Lemma idle_inv k : idle k -> inv (k_w k) (zlen (v_funcs (k_vm k))) (k_w k) k.
Proof.
  intros [A B C Br D F]. constructor; auto; try lia. destruct Br as (c & -> & _ & E). constructor; [|constructor]. unfold okc. rewrite E. constructor.
Qed.
Lemma leaves_undisturbed k k' : idle k -> both (k_w k) (zlen (v_funcs (k_vm k))) (k_w k) k k' ->
  undisturbed (k_w k) (k_vm k) (k_vm k') /\ k_w k <= k_w k' < zlen (v_code (k_vm k')).
Proof.
  intros Id [(Q & Ex & [(j & Gs) Sm] & Er & Fi & Mk) Rr]. destruct (Rr (idle_inv _ Id)) as [Iv (A1 & A2 & A3)]. pose proof (iv_w _ _ _ _ Iv).
  pose proof (fun T (f : vm -> T) => f_equal f Q) as F. destruct (Sm (id_strs _ Id)) as [_ Sg].
  split; [|lia]. constructor.
  - constructor; try exact Ex; try assumption.
    + intros i v Z. rewrite Gs. rewrite znth_app_l; [exact Z|]. apply znth_some_range in Z. lia.
    + unfold get_str, get_str_entry. intros i t H0. destruct (tab_get (v_strs (k_vm k)) i) as [e|] eqn:G; [|discriminate]. destruct (Sg _ _ G) as (e' & -> & Se & _). rewrite Se. exact H0.
    + intros i f Z. rewrite A2; [exact Z|]. apply znth_some_range in Z. lia.
    + intros i Hi. pose proof (id_w _ Id). rewrite (iv_mask _ _ _ _ Iv), (id_mask _ Id).
      pose proof (land_mask i _ (iv_pow _ _ _ _ Iv) ltac:(lia)) as M1. pose proof (land_mask i _ (id_pow _ Id) ltac:(lia)) as M2.
      destruct (pow2_bounds _ (id_pow _ Id)). unfold W31 in *. rewrite u32_id in M1, M2 by (unfold is_u32, W32; lia). rewrite M1, M2. apply A1. lia.
    + exact (F _ v_objs). + exact (F _ v_hlist). + exact (F _ v_exttypes). + exact (F _ v_corotype). + exact (F _ v_subsys). + exact (F _ v_cleanups).
    + exact (F _ v_globals). + exact (F _ v_maxstack). + exact (F _ v_maxfields). + exact (F _ v_left).
    + exact (F _ (fun s => (v_gcpass s, v_gcint s, v_gccount s, v_newint s, v_newcount s))).
  - exact (F _ v_ctxs).
  - exact (F _ v_cur).
  - exact Er.
Qed.
