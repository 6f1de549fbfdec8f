(** * MachProofs: running compiled code (used by ExecProofs) *)

From Coq Require Import SpecFloat.
From Verif Require Import Base BaseFacts State MonadFacts StrModel ValueModel StackModel ObjsModel GcModel VmModel
  StrSpec ValueSpec ObjsSpec StrProofs StackProofs ObjsProofs TableProofs
  OpSpec OpProofs OpProperties InsnSpec InsnProofs InsnProperties CallSpec CallProofs CallProperties
  VmSpec VmInv VmSafety GcSpec GcProofs CsModel ExprModel FoldSpec RunSpec RepSpec ObjInsn HeapProofs CodeRel.

Ltac Zify.zify_post_hook ::= Z.div_mod_to_equations.

(** What a running program leaves alone: everything but the execution
    contexts, the globals, strings, objects and the collector's counters. *)
Definition frame (t : vm) : vm :=
  set_ctxs [] (set_static [] (set_gccount 0 (set_newcount 0 (set_gcpass 0
    (set_strs tab_init (set_byhash [] (set_objs tab_init (set_cleanups [] t)))))))).

(** The resources that are limited and that a script cannot see: the number of
    collections, string identifiers and object identifiers. *)
Definition enough (t : vm) : Prop :=
  v_gcpass t < INVALID /\ string_room t /\ exists i, 0 <= i < W31 /\ get_obj t i = None.

Section Mach.
Variable hostmark : Z -> Z -> option Z -> list value.
Variable host : Z -> list value -> M value.
Context {LT : Lits}.              (* the string literals *)
Variable C : list Z.              (* the code *)
Variable FT : list func.          (* the functions *)
Variable lim ng mf : Z.
Hypothesis Clen : pow2 (zlen C).
Hypothesis Llim : lim <= 65536.
Hypothesis Lmf : mf < W32.

(** Executions in which no error occurs and the program does not end. *)
Inductive steps : vm -> vm -> Prop :=
| st_refl t : steps t t
| st_step t w t1 t2 : fetch t = Ok (w, t) -> w <> VmModel.OP_END -> iterate hostmark host t = Ok (tt, t1) ->
    has_errors t1 = false -> frame t1 = frame t -> ~ ip_is t INVALID ->
    steps t1 t2 -> steps t t2.

Lemma steps_trans a b c : steps a b -> steps b c -> steps a c.
Proof. induction 1; auto. intro X. eapply st_step; eauto. Qed.

Record inv (t : vm) : Prop := {
  i_code : v_code t = C;
  i_cmask : v_cmask t = zlen C - 1;
  i_funcs : v_funcs t = FT;
  i_left : v_left t = INVALID;
  i_errs : v_errs t = [];
  i_ng : ng <= v_smask t + 1;
  i_max : 2 * lim - 2 <= v_maxstack t;
  i_cur : v_cur t = 0;
  i_hlist : v_hlist t = [];
  i_fields : mf <= v_maxfields t
}.

Lemma inv_frame t t' : frame t' = frame t -> inv t -> inv t'.
Proof.
  intros F []. split.
  - change (v_code (frame t') = C). rewrite F. exact i_code0.
  - change (v_cmask (frame t') = zlen C - 1). rewrite F. exact i_cmask0.
  - change (v_funcs (frame t') = FT). rewrite F. exact i_funcs0.
  - change (v_left (frame t') = INVALID). rewrite F. exact i_left0.
  - change (v_errs (frame t') = []). rewrite F. exact i_errs0.
  - change (ng <= v_smask (frame t') + 1). rewrite F. exact i_ng0.
  - change (2 * lim - 2 <= v_maxstack (frame t')). rewrite F. exact i_max0.
  - change (v_cur (frame t') = 0). rewrite F. exact i_cur0.
  - change (v_hlist (frame t') = []). rewrite F. exact i_hlist0.
  - change (mf <= v_maxfields (frame t')). rewrite F. exact i_fields0.
Qed.

(** The machine at the start of the execution. *)
Variable t0 : vm.
Hypothesis Start : inv t0.
Hypothesis Room : forall t, steps t0 t -> enough t.

Definition globs (t : vm) (W : Z -> option Z) (g : Z -> option val) : Prop :=
  forall i v, g i = Some v -> 0 <= i <= v_smask t /\ exists x, znth (v_static t) i = Some x /\ rep t W v x.

(** The values [L] are on the operand stack, the globals and objects are those
    of [m], and [ip] is next. *)
Record here (t : vm) (L : list val) (m : mem) (ip : Z) : Prop := {
  hr_frame : frame t = frame t0;
  hr_wf : wf true 0 t;
  hr_ip : ip_is t ip;
  hr_mem : exists W mm l, world lit t W mm (m_heap m) /\ globs t W (m_global m) /\ Forall2 (rep t W) L l /\ stack_is t l
}.
(** The execution gets there. *)
Definition at_ (L : list val) (m : mem) (ip : Z) : Prop := exists t, steps t0 t /\ here t L m ip.

Lemma here_inv t L m ip : here t L m ip -> inv t.
Proof. intro H. apply (inv_frame t0 t (hr_frame _ _ _ _ H) Start). Qed.

Lemma mask_C a : 0 <= a < zlen C -> Z.land a (zlen C - 1) = a.
Proof.
  intro H. destruct Clen as (e & Re & Ee). replace (zlen C - 1) with (Z.ones e) by (rewrite Z.ones_equiv; lia).
  rewrite Z.land_ones by lia. apply Z.mod_small. lia.
Qed.
Lemma C_small a : 0 <= a < zlen C -> is_u32 a.
Proof. intro H. destruct Clen as (e & Re & Ee). pose proof (Z.pow_le_mono_r 2 e 31 ltac:(lia) ltac:(lia)). unfold is_u32, W32. change (2^31) with 2147483648 in *. lia. Qed.

Lemma fetch_at t L m ip w : here t L m ip -> znth C ip = Some w -> fetch t = Ok (w, t).
Proof.
  intros H W. pose proof (here_inv _ _ _ _ H) as I. destruct (hr_ip _ _ _ _ H) as (c & Hc & <-).
  unfold fetch. rewrite (bind_run _ _ _ _ _ (cur_ctx_ok _ _ Hc)).
  unfold mbind at 1, self, gets. unfold lift, rd. rewrite (i_code _ I), (i_cmask _ I).
  pose proof (znth_some_range _ _ _ W). rewrite mask_C by lia. rewrite W. reflexivity.
Qed.

(** Changes of the collector's counters go unnoticed. *)
Lemma here_counter t t1 L m ip : here t L m ip -> frame t1 = frame t -> wf true 0 t1 -> v_ctxs t1 = v_ctxs t -> v_cur t1 = v_cur t ->
  v_strs t1 = v_strs t -> v_byhash t1 = v_byhash t -> v_objs t1 = v_objs t -> v_static t1 = v_static t -> v_smask t1 = v_smask t ->
  here t1 L m ip.
Proof.
  intros [F Wf (c & Hc & Ic) (W & mm & l & D & G & R & (c' & Hs & Sk))] F1 Wf1 E1 E2 E3 E4 E5 E6 E7.
  assert (forall v x, rep t W v x -> rep t1 W v x) as Rm by (intros v x; apply rep_mono; auto; intros i u; unfold get_str, get_str_entry; rewrite E3; auto).
  split; [congruence|exact Wf1|exists c; rewrite E1, E2; auto|]. exists W, mm, l. split; [|split; [|split]].
  - apply (world_same lit t t1); auto; [exists c; rewrite E1, E2; exact Hc|]. rewrite E6. apply (wd_static _ _ _ _ _ D).
  - intros i v Gi. rewrite E6, E7. destruct (G i v Gi) as (A & x & B & Cx). split; [exact A|]. exists x. auto.
  - clear - R Rm. induction R; constructor; auto.
  - exists c'. rewrite E1, E2. auto.
Qed.

Lemma collect_here t t1 L m ip : here t L m ip -> collected hostmark t t1 -> wf true 0 t1 -> here t1 L m ip.
Proof.
  intros H Col Wf1. pose proof (here_inv _ _ _ _ H) as I. destruct H as [F Wf (c & Hc & Ic) (W & mm & l & D & G & R & St)].
  assert (forall x, In x l -> exists v, rep t W v x) as Reps by (clear - R; induction R as [|v x L l A R IH]; intros y J; [destruct J|destruct J as [->|J]; eauto]).
  pose proof (collect_quiet lit hostmark t t1 W mm _ l D Wf (i_cur _ I) (i_hlist _ I) St Reps Col) as Q.
  pose proof (collect_ctxs lit hostmark t t1 W mm _ D Wf Col) as Ec.
  assert (v_smask t1 = v_smask t) as Es by (destruct (cl_frame _ _ _ Col) as (es & p & u & v & h & cs & ca & ->); reflexivity).
  split.
  - rewrite <- F. destruct (cl_frame _ _ _ Col) as (es & p & u & v & h & cs & ca & E). rewrite E in Q |- *. vsin Q. rewrite Q.
    destruct t; reflexivity.
  - exact Wf1.
  - exists c. rewrite Ec, (collect_cur hostmark t t1 Wf1 Col). auto.
  - exists (alive t1 W), mm, l. split; [|split; [|split]].
    + apply (world_collect lit hostmark t t1 W mm _ l D Wf Wf1 St Col).
    + intros i v Gi. destruct (G i v Gi) as (A & x & B & Cx). rewrite Es, (collect_static hostmark t t1 Wf1 Col). split; [exact A|]. exists x. split; [exact B|].
      apply (collect_rep lit hostmark t t1 W mm _ D Col); [|exact Cx]. apply rc_static. apply In_znth. exists i. exact B.
    + apply (collect_stack lit hostmark t t1 W mm _ l D (i_cur _ I) St Reps Col _ R).
    + destruct St as (c' & Hs & Sk). exists c'. rewrite Ec, (collect_cur hostmark t t1 Wf1 Col). auto.
Qed.

Lemma tick_here t L m ip : here t L m ip -> v_gcpass t < INVALID ->
  exists t1, tick hostmark t = Ok (true, t1) /\ here t1 L m ip /\ (forall i, get_str t i = None -> get_str t1 i = None) /\
    (forall i, get_obj t i = None -> get_obj t1 i = None).
Proof.
  intros H Gp. pose proof (here_inv _ _ _ _ H) as I. pose proof (hr_wf _ _ _ _ H) as Wf. unfold tick.
  unfold mbind at 1, modify. unfold mbind at 1, self, gets. vs. set (x := u32 (v_gccount t - 1)).
  assert (forall y, here (set_gccount y t) L m ip) as Hc.
  { intro y. apply (here_counter t); auto. apply wf_gccount. exact Wf. }
  destruct (negb _); [eexists; split; [reflexivity|split; [apply Hc|split; auto]]|].
  unfold mbind at 1. vs. rewrite (i_left _ I). change (INVALID =? INVALID) with true. cbv iota. unfold ret at 1. vs.
  destruct (Z.eqb_spec (v_newcount t) 0) as [E|E].
  - pose proof (Hc x) as Hx. destruct (garbage_collect_ok hostmark true (set_gccount x t) (hr_wf _ _ _ _ Hx) Gp) as (t1 & Eg & Wf1 & Col).
    pose proof (collect_here _ _ _ _ _ Hx Col Wf1) as H1.
    unfold mbind. rewrite Eg. eexists. split; [reflexivity|]. split; [|split].
    + apply (here_counter t1); auto. apply wf_gccount, wf_newcount. exact Wf1.
    + intros i N. change (get_str t1 i = None). unfold get_str in N |- *. destruct (get_str_entry t i) eqn:Ei; [discriminate|].
      rewrite (cl_str_none _ _ _ Col i Ei). reflexivity.
    + intros i N. exact (cl_obj_none _ _ _ Col i N).
  - unfold mbind, ret. eexists. split; [reflexivity|]. split; [apply Hc|split; auto].
Qed.

(** One instruction, given what it does. *)
Lemma one L m ip op L' m' ip' :
  at_ L m ip -> znth C ip = Some op -> 0 <= op < 64 -> op <> VmModel.OP_END ->
  (forall t, here t L m ip -> string_room t -> (exists i, 0 <= i < W31 /\ get_obj t i = None) ->
     exists t', instruction host op t = Ok (tt, t') /\ here t' L' m' ip') ->
  at_ L' m' ip'.
Proof.
  intros (t & S & H) W O N X. destruct (Room t S) as (Gp & (i & j & Bi & Bj & Ij & Gi & Gj) & (q & Bq & Gq)).
  destruct (tick_here _ _ _ _ H Gp) as (t1 & T & H1 & Ns & No).
  destruct (X t1 H1) as (t2 & E & H2); [exists i, j; auto 10|exists q; auto|].
  exists t2. split; [|exact H2]. apply (steps_trans _ t); [exact S|].
  apply (st_step t op t2 t2); [apply (fetch_at _ _ _ _ _ H W)|exact N| | |rewrite (hr_frame _ _ _ _ H2), (hr_frame _ _ _ _ H); reflexivity| |apply st_refl].
  - unfold iterate. rewrite (bind_run _ _ _ _ _ (fetch_at _ _ _ _ _ H W)), (bind_run _ _ _ _ _ T).
    replace (Z.land op 63) with op; [exact E|]. change 63 with (Z.ones 6). rewrite Z.land_ones by lia.
    symmetry. apply Z.mod_small. exact O.
  - unfold has_errors. rewrite (i_errs _ (here_inv _ _ _ _ H2)). reflexivity.
  - intros (c & A & B). destruct (hr_ip _ _ _ _ H) as (c' & A' & B'). rewrite A in A'. injection A' as <-. rewrite B in B'. subst ip.
    apply znth_some_range in W. destruct Clen as (e & Re & Ee). pose proof (Z.pow_le_mono_r 2 e 31 ltac:(lia) ltac:(lia)). change (2 ^ 31) with 2147483648 in *. unfold INVALID in W. lia.
Qed.

Lemma moved_upd t l ip t' : moved t l ip t' -> exists c k, znth (v_ctxs t) (v_cur t) = Some (Some c) /\ kwf k /\ contents k = l /\
  t' = upd_cur (fun c => set_c_ip ip (set_c_stack k c)) t.
Proof.
  intros (c & k & Hc & Wk & Ck & E). exists c, k. split; [exact Hc|]. split; [exact Wk|]. split; [exact Ck|].
  rewrite E. unfold upd_cur. rewrite Hc. reflexivity.
Qed.

(** The instruction only moves things on the stack. *)
Lemma moved_here t t' L L' m ip ip' l' W mm : here t L m ip -> world lit t W mm (m_heap m) -> globs t W (m_global m) ->
  moved t l' ip' t' -> Forall2 (rep t W) L' l' -> here t' L' m ip'.
Proof.
  intros H D G Mv R. destruct (moved_upd _ _ _ _ Mv) as (c & k & Hc & Wk & Ck & E). pose proof (znth_some_range _ _ _ Hc) as Rg.
  destruct Mv as (c' & k' & Hc' & _ & Ck' & E'). rewrite Hc in Hc'. injection Hc' as <-.
  assert (forall v x, rep t W v x -> rep t' W v x) as Rm by (intros v x; apply rep_mono; auto; rewrite E'; auto).
  split.
  - rewrite E'. exact (hr_frame _ _ _ _ H).
  - rewrite E. apply (wf_upd_cur true 0 t _ c (hr_wf _ _ _ _ H) Hc); auto.
  - rewrite E'. eexists. vs. split; [apply znth_zupd_same; exact Rg|reflexivity].
  - exists W, mm, l'. split; [|split; [|split]].
    + apply (world_same lit t t'); auto; try (rewrite E'; reflexivity).
      * rewrite E'. eexists. vs. apply znth_zupd_same. exact Rg.
      * rewrite E'. apply (wd_static _ _ _ _ _ D).
    + intros i v Gi. rewrite E'. vs. destruct (G i v Gi) as (A & x & B & Cx). split; [exact A|]. exists x. split; [exact B|]. rewrite E' in Rm. auto.
    + clear - R Rm. induction R; constructor; auto.
    + rewrite E. unfold upd_cur. rewrite Hc. eexists. vs. split; [apply znth_zupd_same; exact Rg|]. auto.
Qed.

Lemma one_moved L m ip op L' ip' :
  at_ L m ip -> znth C ip = Some op -> 0 <= op < 64 -> op <> VmModel.OP_END ->
  (forall t W mm l, here t L m ip -> world lit t W mm (m_heap m) -> globs t W (m_global m) -> Forall2 (rep t W) L l -> stack_is t l ->
     exists t' l', instruction host op t = Ok (tt, t') /\ moved t l' ip' t' /\ Forall2 (rep t W) L' l') ->
  at_ L' m ip'.
Proof.
  intros A W O N X. apply (one L m ip op L' m ip' A W O N). intros t H _ _. destruct (hr_mem _ _ _ _ H) as (Wd & mm & l & D & G & R & St).
  destruct (X t Wd mm l H D G R St) as (t' & l' & E & Mv & R'). exists t'. split; [exact E|]. eapply moved_here; eauto.
Qed.

Lemma one_opcode_moved L m ip op L' ip' :
  at_ L m ip -> znth C ip = Some op -> 0 <= op < 64 -> op <> VmModel.OP_END ->
  (forall t W mm l, here t L m ip -> world lit t W mm (m_heap m) -> globs t W (m_global m) -> Forall2 (rep t W) L l -> stack_is t l ->
     exists t' l', opcode host op t = Ok (tt, t') /\ moved t l' ip' t' /\ Forall2 (rep t W) L' l') ->
  at_ L' m (u32 (ip' + 1)).
Proof.
  intros A W O N X. apply (one_moved L m ip op L' _ A W O N). intros t Wd mm l H D G R St.
  destruct (X t Wd mm l H D G R St) as (t' & l' & E & Mv & R').
  destruct (instruction_moved _ _ _ _ _ _ E Mv) as (t3 & E3 & M3). eauto.
Qed.
Lemma one_opcode L m ip op L' :
  at_ L m ip -> znth C ip = Some op -> 0 <= op < 64 -> op <> VmModel.OP_END ->
  (forall t W mm l, here t L m ip -> world lit t W mm (m_heap m) -> globs t W (m_global m) -> Forall2 (rep t W) L l -> stack_is t l ->
     exists t' l', opcode host op t = Ok (tt, t') /\ restacked t l' t' /\ Forall2 (rep t W) L' l') ->
  at_ L' m (u32 (ip + 1)).
Proof.
  intros A W O N X. apply (one_moved L m ip op L' _ A W O N). intros t Wd mm l H D G R St.
  destruct (X t Wd mm l H D G R St) as (t' & l' & E & Mv & R').
  destruct (instruction_restacked _ _ _ _ _ _ _ E Mv (hr_ip _ _ _ _ H)) as (t3 & E3 & M3). eauto.
Qed.

Lemma u32_next a : 0 <= a < zlen C -> u32 (a + 1) = a + 1.
Proof.
  intro H. apply u32_id. destruct Clen as (e & Re & Ee). pose proof (Z.pow_le_mono_r 2 e 31 ltac:(lia) ltac:(lia)).
  unfold is_u32, W32. change (2^31) with 2147483648 in *. lia.
Qed.

Lemma Forall2_zlen {A B} (R : A -> B -> Prop) l l' : Forall2 R l l' -> zlen l = zlen l'.
Proof. intro F. unfold zlen. f_equal. induction F; cbn [length]; congruence. Qed.

Lemma can_push_here t L m ip l W : here t L m ip -> stack_is t l -> Forall2 (rep t W) L l -> zlen L + 1 <= lim -> can_push t.
Proof.
  intros H (c & Hc & Wk & Cc) R B. exists c. split; [exact Hc|]. pose proof (i_max _ (here_inv _ _ _ _ H)).
  pose proof (contents_len _ Wk) as Ln. rewrite Cc, <- (Forall2_zlen _ _ _ R) in Ln. pose proof (kw_size _ Wk). lia.
Qed.

Lemma F2_app {A B} (R : A -> B -> Prop) L1 L2 l : Forall2 R (L1 ++ L2) l -> exists l1 l2, l = l1 ++ l2 /\ Forall2 R L1 l1 /\ Forall2 R L2 l2.
Proof. intro F. apply Forall2_app_inv_l in F. destruct F as (l1 & l2 & A1 & A2 & A3). exists l1, l2. auto. Qed.
Lemma F2_snoc {A B} (R : A -> B -> Prop) L v l : Forall2 R (L ++ [v]) l -> exists l1 x, l = l1 ++ [x] /\ Forall2 R L l1 /\ R v x.
Proof.
  intro F. destruct (F2_app _ _ _ _ F) as (l1 & l2 & E & F1 & F2). inversion F2 as [|? x ? ? Rx F3]; subst. inversion F3; subst. eauto.
Qed.
Lemma F2_snoc2 {A B} (R : A -> B -> Prop) L v w l : Forall2 R (L ++ [v; w]) l -> exists l1 x y, l = l1 ++ [x; y] /\ Forall2 R L l1 /\ R v x /\ R w y.
Proof.
  intro F. destruct (F2_app _ _ _ _ F) as (l1 & l2 & E & F1 & F2). inversion F2 as [|? x ? ? Rx F3]; subst. inversion F3 as [|? y ? ? Ry F4]; subst.
  inversion F4; subst. exists l1, x, y. auto.
Qed.
Lemma F2_push {A B} (R : A -> B -> Prop) L v l x : Forall2 R L l -> R v x -> Forall2 R (L ++ [v]) (l ++ [x]).
Proof. intros. apply Forall2_app; auto. Qed.

(** The code from here on. *)
Definition code (a : Z) : option Z := znth C a.

Lemma words_app a u v : mem_words code a (u ++ v) -> mem_words code a u /\ mem_words code (a + zlen u) v.
Proof.
  intro H. split; intros i w E.
  - apply H. pose proof (znth_some_range _ _ _ E). rewrite znth_app_l; auto. lia.
  - rewrite <- Z.add_assoc. apply H. pose proof (znth_some_range _ _ _ E). rewrite znth_app_r by lia.
    rewrite <- E. f_equal. lia.
Qed.
Lemma words_cons a x v : mem_words code a (x :: v) -> code a = Some x /\ mem_words code (a + 1) v.
Proof.
  intro H. destruct (words_app a [x] v H) as [A B]. split; [|exact B].
  rewrite <- (Z.add_0_r a) at 1. apply A. reflexivity.
Qed.

Ltac oprange := first [vm_compute; intuition congruence | discriminate].

(** Literals. *)
Lemma i_lit L m ip ty op w v : at_ L m ip -> zlen L + 1 <= lim -> mem_words code ip [op; w] ->
  In (op, ty) [(OP_LIT_INT, T_INT); (OP_LIT_FLOAT, T_FLOAT); (OP_LIT_STRING, T_STRING); (OP_LIT_FUNC, T_FUNC)] ->
  (forall t W mm, world lit t W mm (m_heap m) -> rep t W v (mkV ty w)) ->
  at_ (L ++ [v]) m (ip + 2).
Proof.
  intros H B W O Rv. destruct (words_cons _ _ _ W) as [W1 W2]. destruct (words_cons _ _ _ W2) as [W3 _]. unfold code in *.
  pose proof (znth_some_range _ _ _ W1) as Q1. pose proof (znth_some_range _ _ _ W3) as Q3.
  assert (0 <= op < 64 /\ op <> VmModel.OP_END) as [R1 R2].
  { cbn [In] in O. destruct O as [O|[O|[O|[O|[]]]]]; injection O as <- <-; split; oprange. }
  assert (at_ (L ++ [v]) m (u32 (u32 (ip + 1) + 1))) as X.
  { apply (one_opcode_moved L m ip op _ (u32 (ip + 1)) H W1 R1 R2). intros t Wd mm l Ht D G R St.
    destruct (C58_literal host t l ip w op ty) as (t' & E & Mv); [exact St|apply (can_push_here _ _ _ _ _ _ Ht St R B)|apply (hr_ip _ _ _ _ Ht)| |exact O|].
    - unfold code_at. destruct (here_inv _ _ _ _ Ht). rewrite i_code0, i_cmask0, u32_next by lia. rewrite mask_C by lia. exact W3.
    - exists t', (l ++ [mkV ty w]). split; [exact E|]. split; [exact Mv|]. apply F2_push; [exact R|]. eapply Rv; eauto. }
  rewrite (u32_next ip), (u32_next (ip + 1)) in X by lia. replace (ip + 1 + 1) with (ip + 2) in X by lia. exact X.
Qed.
Lemma i_int L m ip z : at_ L m ip -> zlen L + 1 <= lim -> mem_words code ip [OP_LIT_INT; u32 z] -> is_s32 z ->
  at_ (L ++ [VInt z]) m (ip + 2).
Proof. intros H B W Z1. apply (i_lit L m ip T_INT OP_LIT_INT (u32 z) _ H B W); [cbn; auto|]. intros. split; [reflexivity|exact Z1]. Qed.
Lemma i_word L m ip z : at_ L m ip -> zlen L + 1 <= lim -> mem_words code ip [OP_LIT_INT; u32 z] ->
  at_ (L ++ [VInt (s32 (u32 z))]) m (ip + 2).
Proof.
  intros H B W. apply (i_lit L m ip T_INT OP_LIT_INT (u32 z) _ H B W); [cbn; auto|]. intros. split; [|apply s32_range; apply u32_range].
  unfold vint. f_equal. unfold s32, u32, W31, W32. destruct (_ <? _); lia.
Qed.
Lemma i_float L m ip b : at_ L m ip -> zlen L + 1 <= lim -> mem_words code ip [OP_LIT_FLOAT; b] -> at_ (L ++ [VFlt b]) m (ip + 2).
Proof. intros H B W. apply (i_lit L m ip T_FLOAT OP_LIT_FLOAT b _ H B W); [cbn; auto|]. intros. reflexivity. Qed.
Lemma i_fun L m ip id : at_ L m ip -> zlen L + 1 <= lim -> mem_words code ip [OP_LIT_FUNC; u32 id] -> is_u32 id -> at_ (L ++ [VFun id]) m (ip + 2).
Proof.
  intros H B W U. apply (i_lit L m ip T_FUNC OP_LIT_FUNC (u32 id) _ H B W); [cbn; auto|]. intros. split; [rewrite (u32_id id U); reflexivity|exact U].
Qed.
Lemma i_string L m ip i t : at_ L m ip -> zlen L + 1 <= lim -> mem_words code ip [OP_LIT_STRING; i] -> lit i = Some t -> at_ (L ++ [VStr t]) m (ip + 2).
Proof.
  intros H B W Li. apply (i_lit L m ip T_STRING OP_LIT_STRING i _ H B W); [cbn; auto|]. intros s Wd mm D.
  split; [reflexivity|]. destruct (wd_lit _ _ _ _ _ D _ _ Li) as (e & E & _ & T). cbn [v_data]. unfold get_str. rewrite E. congruence.
Qed.

Lemma i_nil L m ip : at_ L m ip -> zlen L + 1 <= lim -> mem_words code ip [OP_NIL] -> at_ (L ++ [VNil]) m (ip + 1).
Proof.
  intros H B W. destruct (words_cons _ _ _ W) as [W1 _]. unfold code in *. pose proof (znth_some_range _ _ _ W1) as Q1.
  rewrite <- (u32_next ip) by lia. apply (one_opcode L m ip OP_NIL _ H W1); [oprange|oprange|].
  intros t Wd mm l Ht D G R St. destruct (C58_nil host t l) as (t2 & v & E & Rs & Tv); [exact St|apply (can_push_here _ _ _ _ _ _ Ht St R B)|].
  exists t2, (l ++ [v]). split; [exact E|]. split; [exact Rs|]. apply F2_push; auto.
Qed.

(** ** Operators *)

Section Operands.
Variable s : vm.
Variable W : Z -> option Z.
Variable mm : memory.
Variable H : list obj.
Hypothesis D : world lit s W mm H.

Lemma v_int_vint z : is_s32 z -> v_int (vint z) = z.
Proof. apply s32_u32. Qed.
Lemma vint_as z : is_s32 z -> as_int s (vint z) z.
Proof. intro R. rewrite <- (v_int_vint z R) at 2. apply ai_int. reflexivity. Qed.
Lemma rep_int v x z : rep s W v x -> number_of v = Some z -> as_int s x z.
Proof.
  destruct v; cbn [rep number_of]; intros R E; try discriminate.
  - injection E as <-. destruct R as [-> R]. apply vint_as. exact R.
  - subst x. apply ai_float; [reflexivity|exact E].
  - injection E as <-. destruct R as [T G]. apply ai_string; assumption.
  - injection E as <-. apply ai_nil. exact R.
  - injection E as <-. destruct R as (i & _ & ->). apply ai_object. reflexivity.
Qed.
Lemma rep_float v x z : rep s W v x -> float_of v = Some z -> as_float s x z.
Proof.
  destruct v; cbn [rep float_of]; intros R E; try discriminate; injection E as <-.
  - destruct R as [-> R]. rewrite <- (v_int_vint z0 R) at 2. apply af_int. reflexivity.
  - subst x. apply (af_float s (mkV T_FLOAT b)). reflexivity.
  - destruct R as [T G]. apply af_string; assumption.
Qed.
Lemma rep_text v x z : rep s W v x -> text_of_val v = Some z -> InsnSpec.text_of s x z.
Proof.
  destruct v; cbn [rep text_of_val]; intros R E; try discriminate; injection E as <-.
  - destruct R as [-> R]. rewrite <- (v_int_vint z0 R) at 2. apply to_dec. reflexivity.
  - subst x. apply (to_flo s (mkV T_FLOAT b)). reflexivity.
  - destruct R as [T G]. apply to_str; assumption.
Qed.
Lemma str_bytes i t : get_str s i = Some t -> all_bytes t.
Proof.
  intro G. destruct (get_str_entry_of s i t G) as (e & E & <-).
  destruct (sw_ent _ _ (oi_str _ _ (wd_inv _ _ _ _ _ D)) _ _ E) as (_ & _ & T). apply T.
Qed.

Lemma rep_orders a b x y c : rep s W a x -> rep s W b y -> order a b = Some c -> orders s x y c.
Proof.
  intros A B O. pose proof (rep_type _ _ _ _ A) as TA. pose proof (rep_type _ _ _ _ B) as TB.
  assert (a = VNil \/ a <> VNil) as [->|Na] by (destruct a; auto; right; discriminate).
  { destruct b; injection O as <-; try (apply or_nil_left; [exact TA|rewrite TB; discriminate]). apply or_nil; assumption. }
  assert (b = VNil \/ b <> VNil) as [->|Nb] by (destruct b; auto; right; discriminate).
  { assert (Some Lt = Some c) as E by (destruct a; try exact O; congruence). injection E as <-. apply or_nil_right; [rewrite TA; destruct a; try discriminate; congruence|exact TB]. }
  assert (v_type y <> T_NIL) as Ny by (rewrite TB; destruct b; try discriminate; congruence).
  destruct a as [z|z|z| |z|z]; [| | |congruence| |].
  - assert (exists n, number_of b = Some n /\ c = (z ?= n)) as (n & En & ->).
    { destruct b; try congruence; cbn [order] in O; destruct (number_of _) as [n|]; try discriminate; injection O as <-; eauto. }
    destruct A as [-> A]. replace (z ?= n) with (v_int (vint z) ?= n) by (rewrite (v_int_vint z A); reflexivity).
    apply or_int; [reflexivity|exact Ny|apply (rep_int b y n B En)].
  - assert (exists n, float_of b = Some n /\ SFcompare (f_dec z) (f_dec n) = Some c) as (n & En & E).
    { destruct b; try congruence; cbn [order] in O; destruct (float_of _) as [n|]; try discriminate; eauto. }
    cbn [rep] in A. subst x. apply (or_float s _ y n c); [reflexivity|apply (rep_float b y n B En)|exact E].
  - destruct b as [|?|u| | |]; try discriminate; try congruence. injection O as <-. destruct A as [_ GA], B as [_ GB].
    apply or_string; auto; eapply str_bytes; eauto.
  - destruct b; try discriminate; try congruence. injection O as <-. destruct A as [-> _], B as [-> _]. apply (or_func s (mkV T_FUNC z) (mkV T_FUNC id)); reflexivity.
  - destruct b as [| | | | |w]; try discriminate; try congruence. cbn [order] in O. destruct (Z.eqb_spec z w) as [<-|]; [|discriminate]. injection O as <-.
    destruct A as (i & Ei & ->), B as (j & Ej & ->). rewrite Ei in Ej. injection Ej as <-. rewrite <- (Z.compare_refl i). apply (or_obj s (vobj i) (vobj i)); reflexivity.
Qed.
Lemma rep_yes b : rep s W (yes b) (vint (if b then 1 else 0)).
Proof. split; [reflexivity|]. destruct b; vm_compute; intuition congruence. Qed.
Lemma rep_is_s32 z x : rep s W (VInt z) x -> is_s32 z. Proof. intros [_ R]. exact R. Qed.
End Operands.

Lemma quotient_s32 x y q : is_s32 x -> quotient x y q -> is_s32 q -> y <> 0 -> ~ (x = - W31 /\ y = -1).
Proof. intros X (r & E & A & P & N) Q Y0 [-> ->]. unfold is_s32, W31 in *. lia. Qed.

Lemma remainder_s32 x y q : is_s32 x -> y <> 0 -> quotient x y q -> is_s32 (x - y * q).
Proof.
  intros X Y (r & E & A & P & N).
  assert (y * q = 0 \/ Z.abs r < Z.abs (y * q)) as K.
  { destruct (Z.eq_dec q 0) as [->|Q]; [lia|]. right. rewrite Z.abs_mul.
    pose proof (Z.mul_le_mono_nonneg_l 1 (Z.abs q) (Z.abs y) ltac:(lia) ltac:(lia)). lia. }
  unfold is_s32 in *. lia.
Qed.
Lemma truncating_fun x y q r q' : y <> 0 -> truncating x y q r -> quotient x y q' -> q = q' /\ r = x - y * q'.
Proof.
  intros Y (E & A & P & N) (r' & E' & A' & P' & N').
  assert (q = q').
  { assert (y * (q - q') = r' - r) by lia.
    assert (Z.abs (r' - r) < Z.abs y) by lia.
    destruct (Z.eq_dec q q'); auto. exfalso.
    assert (Z.abs (y * (q - q')) >= Z.abs y) as K.
    { rewrite Z.abs_mul. pose proof (Z.mul_le_mono_nonneg_l 1 (Z.abs (q - q')) (Z.abs y) ltac:(lia) ltac:(lia)). lia. }
    rewrite H in K. lia. }
  subst q'. split; [reflexivity|]. lia.
Qed.

(** Binary operators; [+] on strings comes later. *)
Lemma bin_opcode s W mm H l x y a b v ty op : world lit s W mm H -> stack_is s (l ++ [x; y]) -> rep s W a x -> rep s W b y -> binop ty a b v ->
  (forall t, v <> VStr t) -> plain_op ty false = Some op ->
  exists s' z, opcode host op s = Ok (tt, s') /\ restacked s (l ++ [z]) s' /\ rep s W v z.
Proof.
  intros D S A B O Nv P.
  assert (forall n f, In (n, f) [(O_ADD, Z.add); (O_SUBTRACT, Z.sub); (O_MULTIPLY, Z.mul)] ->
    forall i j, a = VInt i -> number_of b = Some j -> is_s32 (f i j) ->
    exists s' z, opcode host n s = Ok (tt, s') /\ restacked s (l ++ [z]) s' /\ rep s W (VInt (f i j)) z) as K1.
  { intros n f I i j -> Nj F. destruct A as [-> A].
    destruct (C53_exact host s l (vint i) y j S eq_refl (rep_int s W _ _ _ B Nj) n f I) as [G _].
    rewrite (v_int_vint i A) in G. destruct (G F) as (s' & E & R). exists s', (vint (f i j)). split; [exact E|]. split; [exact R|]. split; [reflexivity|exact F]. }
  assert (forall n Pn c, order a b = Some c -> In (n, Pn) comparisons -> forall k, (Pn c <-> k = true) ->
    exists s' z, opcode host n s = Ok (tt, s') /\ restacked s (l ++ [z]) s' /\ rep s W (yes k) z) as K2.
  { intros n Pn c Oc I k Ek. destruct (C56_compare host s l x y c n Pn S (rep_orders s W mm H D _ _ _ _ _ A B Oc) I) as (s' & z & E & R & An).
    exists s', (vint z). split; [exact E|]. split; [exact R|].
    destruct An as [[H1 ->]|[H1 ->]]; destruct k; first [exact (rep_yes s W true) | exact (rep_yes s W false) | intuition congruence]. }
  assert (forall i j, a = VObj i -> b = VObj j -> i <> j -> exists c, orders s x y c /\ c <> Eq) as K3.
  { intros i j -> -> Nij. destruct A as (p & Ep & ->), B as (q & Eq & ->). exists (Z.compare p q). split; [apply (or_obj s (vobj p) (vobj q)); reflexivity|].
    intro E. apply Z.compare_eq in E. subst q. apply Nij. apply (wd_one _ _ _ _ _ D i j p Ep Eq). }
  destruct O as [i b j Nj F|i b j Nj F|i b j Nj F|i b j q Nj Y0 Q F|i b j q Nj Y0 Q F|f b g Ng|f b g Ng|f b g Ng|f b g Ng Ez|f b g Ng
    |a b c Oc|a b c Oc|a b c Oc|a b c Oc|a b c Oc|a b c Oc|a b c Sk Oc|a b Sk|i j Nij|i j Nij|i j Nij|a b i j Ni Nj Ti Tj|a b i j Ni Nj Ti Tj];
    injection P as <-.
  - apply (K1 O_ADD Z.add); cbn; auto.
  - apply (K1 O_SUBTRACT Z.sub); cbn; auto.
  - apply (K1 O_MULTIPLY Z.mul); cbn; auto.
  - destruct A as [-> A]. destruct (C19_divide host s l (vint i) y j S eq_refl (rep_int s W _ _ _ B Nj)) as (s' & E & _ & G).
    rewrite (v_int_vint i A) in G. destruct (G Y0 (quotient_s32 _ _ _ A Q F Y0)) as (q' & r & T & F' & R).
    destruct (truncating_fun _ _ _ _ _ Y0 T Q) as [-> _]. exists s', (vint q). split; [exact E|]. split; [exact R|]. split; [reflexivity|exact F].
  - destruct A as [-> A]. destruct (C19_modulo host s l (vint i) y j S eq_refl (rep_int s W _ _ _ B Nj)) as (s' & E & _ & G).
    rewrite (v_int_vint i A) in G. destruct (G Y0 (quotient_s32 _ _ _ A Q F Y0)) as (q' & r & T & R).
    destruct (truncating_fun _ _ _ _ _ Y0 T Q) as [-> ->]. exists s', (vint (i - j * q)). split; [exact E|]. split; [exact R|]. split; [reflexivity|].
    apply (remainder_s32 i j q A Y0 Q).
  - cbn [rep] in A. subst x. destruct (float_bin_run s l f y g S (rep_float s W _ _ _ B Ng)) as ((s' & E & R) & _).
    exists s', (mkV T_FLOAT (f_add f g)). split; [exact E|]. split; [exact R|reflexivity].
  - cbn [rep] in A. subst x. destruct (float_bin_run s l f y g S (rep_float s W _ _ _ B Ng)) as (_ & (s' & E & R) & _).
    exists s', (mkV T_FLOAT (f_sub f g)). split; [exact E|]. split; [exact R|reflexivity].
  - cbn [rep] in A. subst x. destruct (float_bin_run s l f y g S (rep_float s W _ _ _ B Ng)) as (_ & _ & (s' & E & R) & _).
    exists s', (mkV T_FLOAT (f_mul f g)). split; [exact E|]. split; [exact R|reflexivity].
  - cbn [rep] in A. subst x. destruct (float_bin_run s l f y g S (rep_float s W _ _ _ B Ng)) as (_ & _ & _ & (s' & E & R)).
    exists s', (mkV T_FLOAT (f_div f g)). split; [exact E|]. split; [exact R|reflexivity].
  - destruct (Nv (f ++ g) eq_refl).
  - apply (K2 O_LT _ c Oc (or_introl eq_refl)). destruct c; intuition congruence.
  - apply (K2 O_GT _ c Oc (or_intror (or_introl eq_refl))). destruct c; intuition congruence.
  - apply (K2 O_LE _ c Oc (or_intror (or_intror (or_intror (or_introl eq_refl))))). destruct c; intuition congruence.
  - apply (K2 O_GE _ c Oc (or_intror (or_intror (or_intror (or_intror (or_introl eq_refl)))))). destruct c; intuition congruence.
  - apply (K2 O_EQ _ c Oc (or_intror (or_intror (or_introl eq_refl)))). destruct c; intuition congruence.
  - apply (K2 O_NE _ c Oc (or_intror (or_intror (or_intror (or_intror (or_intror (or_introl eq_refl))))))). destruct c; intuition congruence.
  - destruct (C56_same_type host s l x y S) as [_ G].
    assert (v_type x = v_type y) as Ty.
    { rewrite (rep_type _ _ _ _ A), (rep_type _ _ _ _ B). destruct a, b; try discriminate Sk; reflexivity. }
    destruct (G c Ty (rep_orders s W mm H D _ _ _ _ _ A B Oc)) as (s' & z & E & R & An).
    exists s', (vint z). split; [exact E|]. split; [exact R|].
    destruct An as [[H1 ->]|[H1 ->]]; destruct c; first [exact (rep_yes s W true) | exact (rep_yes s W false) | congruence].
  - destruct (C56_same_type host s l x y S) as [G _].
    assert (v_type x <> v_type y) as Ty.
    { rewrite (rep_type _ _ _ _ A), (rep_type _ _ _ _ B). destruct a, b; try discriminate Sk; discriminate. }
    destruct (G Ty) as (s' & E & R). exists s', (vint 0). split; [exact E|]. split; [exact R|]. exact (rep_yes s W false).
  - destruct (K3 i j eq_refl eq_refl Nij) as (c & Oc & Nc).
    destruct (C56_compare host s l x y c O_EQ _ S Oc (or_intror (or_intror (or_introl eq_refl)))) as (s' & z & E & R & [[H1 _]|[_ ->]]); [congruence|].
    exists s', (vint 0). split; [exact E|]. split; [exact R|exact (rep_yes s W false)].
  - destruct (K3 i j eq_refl eq_refl Nij) as (c & Oc & Nc).
    destruct (C56_compare host s l x y c O_NE _ S Oc (or_intror (or_intror (or_intror (or_intror (or_intror (or_introl eq_refl))))))) as (s' & z & E & R & [[_ ->]|[H1 _]]); [|destruct (H1 Nc)].
    exists s', (vint 1). split; [exact E|]. split; [exact R|exact (rep_yes s W true)].
  - destruct (K3 i j eq_refl eq_refl Nij) as (c & Oc & Nc).
    destruct (C56_same_type host s l x y S) as [_ G].
    assert (v_type x = v_type y) as Ty by (rewrite (rep_type _ _ _ _ A), (rep_type _ _ _ _ B); reflexivity).
    destruct (G c Ty Oc) as (s' & z & E & R & [[H1 _]|[_ ->]]); [congruence|].
    exists s', (vint 0). split; [exact E|]. split; [exact R|exact (rep_yes s W false)].
  - destruct (C20_and_or_partial host s l x y i j S (rep_int s W _ _ _ A Ni) (rep_int s W _ _ _ B Nj) Ti Tj) as (s1 & s2 & E1 & E2 & G1 & G2 & G3 & G4).
    exists s1. destruct (Z.eqb_spec i 0); [|destruct (Z.eqb_spec j 0)]; cbn [negb andb];
    [exists (vint 0)|exists (vint 0)|exists (vint 1)]; (split; [exact E1|]); (split; [first [apply G1; lia|apply G2; lia]|first [exact (rep_yes s W true) | exact (rep_yes s W false)]]).
  - destruct (C20_and_or_partial host s l x y i j S (rep_int s W _ _ _ A Ni) (rep_int s W _ _ _ B Nj) Ti Tj) as (s1 & s2 & E1 & E2 & G1 & G2 & G3 & G4).
    exists s2. destruct (Z.eqb_spec i 0); [destruct (Z.eqb_spec j 0)|]; cbn [negb orb];
    [exists (vint 0)|exists (vint 1)|exists (vint 1)]; (split; [exact E2|]); (split; [first [apply G3; lia|apply G4; lia]|first [exact (rep_yes s W true) | exact (rep_yes s W false)]]).
Qed.

(** The instruction also changes strings, objects or globals. *)
Lemma one_changed L m ip op L' m' :
  at_ L m ip -> znth C ip = Some op -> 0 <= op < 64 -> op <> VmModel.OP_END ->
  (forall t W mm l, here t L m ip -> world lit t W mm (m_heap m) -> globs t W (m_global m) -> Forall2 (rep t W) L l -> stack_is t l ->
     string_room t -> (exists i, 0 <= i < W31 /\ get_obj t i = None) ->
     exists t1 t2 W' mm' l', opcode host op t = Ok (tt, t2) /\ restacked t1 l' t2 /\ frame t1 = frame t /\
       v_ctxs t1 = v_ctxs t /\ v_cur t1 = v_cur t /\ wf true 0 t2 /\
       world lit t1 W' mm' (m_heap m') /\ globs t1 W' (m_global m') /\ Forall2 (rep t1 W') L' l') ->
  at_ L' m' (u32 (ip + 1)).
Proof.
  intros A W O N X. apply (one L m ip op L' m' _ A W O N). intros t H Sr Ob. destruct (hr_mem _ _ _ _ H) as (Wd & mm & l & D & G & R & St).
  destruct (X t Wd mm l H D G R St Sr Ob) as (t1 & t2 & W' & mm' & l' & E & Rs & Ef & Ec & Eu & Wf & D' & G' & R').
  assert (ip_is t1 ip) as Ip by (destruct (hr_ip _ _ _ _ H) as (c & Hc & Ic); exists c; rewrite Ec, Eu; auto).
  destruct (instruction_restacked _ _ _ _ _ _ _ E Rs Ip) as (t3 & E3 & Mv). exists t3. split; [exact E3|].
  destruct (moved_upd _ _ _ _ Mv) as (c & k & Hc & Wk & Ck & Eq). pose proof (znth_some_range _ _ _ Hc) as Rg.
  destruct Mv as (c' & k' & Hc' & _ & Ck' & E'). rewrite Hc in Hc'. injection Hc' as <-.
  assert (forall v x, rep t1 W' v x -> rep t3 W' v x) as Rm by (intros v x; apply rep_mono; auto; rewrite E'; auto).
  split.
  - rewrite <- (hr_frame _ _ _ _ H), <- Ef. rewrite E'. reflexivity.
  - unfold instruction in E3. rewrite (bind_run _ _ _ _ _ E) in E3.
    assert (hoare (VmInv.A true 0 [] []) (ip <- get_ip ;; set_ip (u32 (ip + 1))) (fun _ => VmInv.A true 0 [] [])) as K.
    { eapply h_bind; [apply h_get_ip|]. intro. apply h_set_ip. }
    specialize (K t2 (conj Wf (conj (Forall_nil _) (Forall_nil _)))). rewrite E3 in K. apply K.
  - rewrite E'. eexists. vs. split; [apply znth_zupd_same; exact Rg|reflexivity].
  - exists W', mm', l'. split; [|split; [|split]].
    + apply (world_same lit t1 t3); auto; try (rewrite E'; reflexivity).
      * rewrite E'. eexists. vs. apply znth_zupd_same. exact Rg.
      * rewrite E'. apply (wd_static _ _ _ _ _ D').
    + intros i v Gi. rewrite E'. vs. destruct (G' i v Gi) as (P & x & Q & Cx). split; [exact P|]. exists x. split; [exact Q|]. rewrite E' in Rm. auto.
    + clear - R' Rm. induction R'; constructor; auto.
    + rewrite Eq. unfold upd_cur. rewrite Hc. eexists. vs. split; [apply znth_zupd_same; exact Rg|]. auto.
Qed.

Lemma i_bin L m ip a b v ty op : at_ (L ++ [a; b]) m ip -> binop ty a b v ->
  plain_op ty false = Some op -> mem_words code ip [op] -> at_ (L ++ [v]) m (ip + 1).
Proof.
  intros H O P W. destruct (words_cons _ _ _ W) as [W1 _]. unfold code in *. pose proof (znth_some_range _ _ _ W1) as Q1.
  rewrite <- (u32_next ip) by lia.
  assert (0 <= op < 64 /\ op <> VmModel.OP_END) as [R1 R2] by (clear - O P; destruct O; injection P as <-; split; oprange).
  assert ((exists x y, ty = TK_PLUS /\ a = VStr x /\ text_of_val b = Some y /\ v = VStr (x ++ y)) \/ (forall t, v <> VStr t)) as [(x & y & -> & -> & T & ->)|Nv].
  { destruct O; try (right; discriminate). left. eauto 8. }
  - injection P as <-. apply (one_changed _ _ _ _ _ _ H W1 R1 R2). intros t Wd mm l Ht D G R St Sr _.
    destruct (F2_snoc2 _ _ _ _ _ R) as (l1 & xa & xb & -> & Rl & Ra & Rb). destruct Ra as [Ta Ga].
    destruct (concat_run t mm l1 xa xb x y (wd_inv _ _ _ _ _ D) St Ta Ga (rep_text t Wd _ _ _ Rb T) Sr) as (t1 & t2 & i & E & Ms & Rs & Gi).
    assert (wf true 0 t2) as Wf2.
    { pose proof (h_op_add true 0 t (conj (hr_wf _ _ _ _ Ht) (conj (Forall_nil _) (Forall_nil _)))) as K. rewrite E in K. apply K. }
    assert (v_strs t2 = v_strs t1 /\ v_byhash t2 = v_byhash t1) as [Es Eb] by (destruct Rs as (? & ? & _ & _ & _ & ->); split; reflexivity).
    assert (str_wf (v_strs t1) (v_byhash t1)) as SW by (rewrite <- Es, <- Eb; apply Wf2).
    pose proof (world_more lit t t1 Wd mm _ D Ms SW) as D1.
    assert (forall w z, rep t Wd w z -> rep t1 Wd w z) as Rm.
    { intros w z. apply rep_mono; auto. intros j u Gj. destruct (get_str_entry_of t j u Gj) as (e & E1 & E2). unfold get_str. rewrite (proj2 Ms _ _ E1). congruence. }
    destruct Ms as ((tb & bh & Et) & _).
    exists t1, t2, Wd, mm, (l1 ++ [vstr i]). split; [exact E|]. split; [exact Rs|]. split; [rewrite Et; reflexivity|]. split; [rewrite Et; reflexivity|].
    split; [rewrite Et; reflexivity|]. split; [exact Wf2|]. split; [exact D1|]. split.
    + intros j w Gj. destruct (G j w Gj) as (P & z & Q & Cz). rewrite Et in Rm |- *. split; [exact P|]. exists z. split; [exact Q|]. apply Rm, Cz.
    + apply F2_push; [clear - Rl Rm; induction Rl; constructor; auto|]. split; [reflexivity|exact Gi].
  - apply (one_opcode _ _ _ _ _ H W1 R1 R2). intros t Wd mm l Ht D G R St.
    destruct (F2_snoc2 _ _ _ _ _ R) as (l1 & xa & xb & -> & Rl & Ra & Rb).
    destruct (bin_opcode t Wd mm _ l1 xa xb a b v ty op D St Ra Rb O Nv P) as (s' & z & E & Rs & Rz).
    exists s', (l1 ++ [z]). split; [exact E|]. split; [exact Rs|]. apply F2_push; auto.
Qed.

Lemma i_un L m ip a v ty op : at_ (L ++ [a]) m ip -> unop ty a v ->
  plain_op ty true = Some op -> mem_words code ip [op] -> at_ (L ++ [v]) m (ip + 1).
Proof.
  intros H O P W. destruct (words_cons _ _ _ W) as [W1 _]. unfold code in *. pose proof (znth_some_range _ _ _ W1) as Q1.
  rewrite <- (u32_next ip) by lia.
  assert (0 <= op < 64 /\ op <> VmModel.OP_END) as [R1 R2] by (clear - O P; destruct O; injection P as <-; split; oprange).
  apply (one_opcode _ _ _ _ _ H W1 R1 R2). intros t Wd mm l Ht D G R St.
  destruct (F2_snoc _ _ _ _ R) as (l1 & x & -> & Rl & Ra).
  destruct O as [i F|f|a i Ni]; injection P as <-.
  - destruct Ra as [-> A]. destruct (C53_negate host t l1 (vint i) St eq_refl) as [K _]. rewrite (v_int_vint i A) in K.
    destruct (K ltac:(unfold is_s32, W31 in *; lia)) as (s' & E & Rs). exists s', (l1 ++ [vint (- i)]). split; [exact E|]. split; [exact Rs|].
    apply F2_push; [exact Rl|]. split; [reflexivity|exact F].
  - cbn [rep] in Ra. subst x. destruct (float_neg_run t l1 f St) as (s' & E & Rs). exists s', (l1 ++ [mkV T_FLOAT (f_neg f)]).
    split; [exact E|]. split; [exact Rs|]. apply F2_push; [exact Rl|reflexivity].
  - destruct (C20_not host t l1 x i St (rep_int t Wd _ _ _ Ra Ni)) as (s' & E & G1 & G2). exists s'.
    destruct (Z.eqb_spec i 0); [exists (l1 ++ [vint 1])|exists (l1 ++ [vint 0])]; (split; [exact E|]); (split; [auto|]);
    (apply F2_push; [exact Rl|]); [exact (rep_yes t Wd true)|exact (rep_yes t Wd false)].
Qed.

Lemma i_pop L m ip v : at_ (L ++ [v]) m ip -> mem_words code ip [OP_POP] -> at_ L m (ip + 1).
Proof.
  intros H W. destruct (words_cons _ _ _ W) as [W1 _]. unfold code in *. pose proof (znth_some_range _ _ _ W1) as Q1.
  rewrite <- (u32_next ip) by lia. apply (one_opcode _ _ _ OP_POP _ H W1); [oprange|oprange|].
  intros t Wd mm l Ht D G R St. destruct (F2_snoc _ _ _ _ R) as (l1 & x & -> & Rl & Ra).
  destruct (C58_pop host t l1 x St) as (s' & E & Rs). exists s', l1. auto.
Qed.

Lemma i_popn L m ip d : at_ (L ++ d) m ip -> zlen (L ++ d) + 1 <= lim ->
  mem_words code ip [OP_LIT_INT; u32 (zlen d); OP_POPN] -> at_ L m (ip + 3).
Proof.
  intros H B W. destruct (words_app ip [OP_LIT_INT; u32 (zlen d)] [OP_POPN] W) as [Wa Wb].
  assert (is_s32 (zlen d)) as Sd by (rewrite zlen_app in B; pose proof (zlen_nonneg L); pose proof (zlen_nonneg d); unfold is_s32, W31; lia).
  pose proof (i_int _ _ _ _ H B Wa Sd) as H1.
  destruct (words_cons _ _ _ Wb) as [W1 _]. change (zlen [OP_LIT_INT; u32 (zlen d)]) with 2 in W1. unfold code in *.
  pose proof (znth_some_range _ _ _ W1) as Q1. replace (ip + 3) with (ip + 2 + 1) by lia. rewrite <- (u32_next (ip + 2)) by lia.
  apply (one_opcode _ _ _ OP_POPN L H1 W1); [oprange|oprange|].
  intros t Wd mm l Ht D G R St. destruct (F2_snoc _ _ _ _ R) as (l1 & x & -> & Rl & Ra). destruct (F2_app _ _ _ _ Rl) as (l2 & l3 & -> & Rl2 & Rl3).
  destruct (C58_popn host t l2 l3 x) as (s' & E & Rs).
  - rewrite app_assoc. exact St.
  - rewrite <- (Forall2_zlen _ _ _ Rl3). destruct Ra as [-> _]. apply vint_as. exact Sd.
  - exists s', l2. auto.
Qed.
Lemma i_close L m ip d : at_ (L ++ d) m ip -> (zlen d <> 0 -> zlen (L ++ d) + 1 <= lim) ->
  mem_words code ip (pop_words (zlen d)) -> at_ L m (ip + zlen (pop_words (zlen d))).
Proof.
  intros H B W. unfold pop_words in *. destruct (Z.eqb_spec (zlen d) 0) as [E|E].
  - destruct d; [|rewrite zlen_cons in E; pose proof (zlen_nonneg d); lia]. rewrite app_nil_r in H.
    change (zlen (@nil Z)) with 0. rewrite Z.add_0_r. exact H.
  - apply (i_popn L m ip d); auto.
Qed.

Lemma jump_target a b : is_u32 b -> u32 (u32 (a + 2 + s32 (u32 (b - a - 3))) + 1) = b.
Proof.
  intro B. rewrite <- (u32_id b B) at 2. clear B. unfold s32, u32, W31, W32.
  destruct (Z.ltb_spec (((b - a - 3) mod 4294967296) mod 4294967296) 2147483648); lia.
Qed.

Lemma i_goto L m a b : at_ L m a -> zlen L + 1 <= lim -> mem_words code a (jump_words OP_JUMP a b) -> is_u32 b -> at_ L m b.
Proof.
  intros H B W U. unfold jump_words in W. destruct (words_app a [OP_LIT_INT; u32 (b - a - 3)] [OP_JUMP] W) as [Wa Wb].
  pose proof (i_word _ _ _ _ H B Wa) as H1.
  destruct (words_cons _ _ _ Wb) as [W1 _]. change (zlen [OP_LIT_INT; u32 (b - a - 3)]) with 2 in W1. unfold code in *.
  rewrite <- (jump_target a b U). apply (one_opcode_moved _ _ _ OP_JUMP L (u32 (a + 2 + s32 (u32 (b - a - 3)))) H1 W1); [oprange|oprange|].
  intros t Wd mm l Ht D G R St. destruct (F2_snoc _ _ _ _ R) as (l1 & x & -> & Rl & [-> Ra]).
  destruct (C58_jump host t l1 (vint (s32 (u32 (b - a - 3)))) (s32 (u32 (b - a - 3))) (a + 2)) as (s' & E & Mv); [exact St|apply vint_as; exact Ra|apply (hr_ip _ _ _ _ Ht)|].
  exists s', l1. auto.
Qed.

Lemma i_branch L m a b v z : at_ (L ++ [v]) m a -> number_of v = Some z -> zlen L + 2 <= lim ->
  mem_words code a (jump_words OP_JZ a b) -> is_u32 b -> at_ L m (if z =? 0 then b else a + 3).
Proof.
  intros H N B W U. unfold jump_words in W. destruct (words_app a [OP_LIT_INT; u32 (b - a - 3)] [OP_JZ] W) as [Wa Wb].
  assert (zlen (L ++ [v]) + 1 <= lim) as B' by (rewrite zlen_app, zlen_cons, zlen_nil; lia).
  pose proof (i_word _ _ _ _ H B' Wa) as H1.
  destruct (words_cons _ _ _ Wb) as [W1 _]. change (zlen [OP_LIT_INT; u32 (b - a - 3)]) with 2 in W1. unfold code in *.
  pose proof (znth_some_range _ _ _ W1) as Q1. rewrite <- app_assoc in H1. cbn [app] in H1.
  destruct (Z.eqb_spec z 0) as [Ez|Ez].
  - rewrite <- (jump_target a b U). apply (one_opcode_moved _ _ _ OP_JZ L (u32 (a + 2 + s32 (u32 (b - a - 3)))) H1 W1); [oprange|oprange|].
    intros t Wd mm l Ht D G R St. destruct (F2_snoc2 _ _ _ _ _ R) as (l1 & x & y & -> & Rl & Rx & [-> Ry]).
    destruct (C58_jump_if_zero host t l1 x _ z _ (a + 2) St (rep_int t Wd _ _ _ Rx N) (vint_as t _ Ry) (hr_ip _ _ _ _ Ht)) as (s' & E & F & _).
    exists s', l1. auto.
  - replace (a + 3) with (a + 2 + 1) by lia. rewrite <- (u32_next (a + 2)) by lia. apply (one_opcode _ _ _ OP_JZ L H1 W1); [oprange|oprange|].
    intros t Wd mm l Ht D G R St. destruct (F2_snoc2 _ _ _ _ _ R) as (l1 & x & y & -> & Rl & Rx & [-> Ry]).
    destruct (C58_jump_if_zero host t l1 x _ z _ (a + 2) St (rep_int t Wd _ _ _ Rx N) (vint_as t _ Ry) (hr_ip _ _ _ _ Ht)) as (s' & E & _ & F).
    exists s', l1. auto.
Qed.

(** ** Memory *)

Lemma here_mem t L m m' ip : m_global m' = m_global m -> m_heap m' = m_heap m -> here t L m ip -> here t L m' ip.
Proof. intros E1 E2 [F Wf I M]. split; auto. rewrite E1, E2. exact M. Qed.
Lemma at_mem L m m' ip : m_global m' = m_global m -> m_heap m' = m_heap m -> at_ L m ip -> at_ L m' ip.
Proof. intros E1 E2 (t & S & H). exists t. split; [exact S|]. apply (here_mem t L m); auto. Qed.

(** The values of a function on the operand stack; [hv]: the ones that are not
    the script's business. *)
Definition frel (hv : Z -> val) (ml : list (option val)) (fr : list val) : Prop :=
  zlen fr = zlen ml /\
  forall i o, znth ml i = Some o -> exists x, znth fr i = Some x /\ match o with Some v => x = v | None => x = hv i end.

Lemma znth_mid {A} (p l r : list A) i : 0 <= i < zlen l -> znth (p ++ l ++ r) (zlen p + i) = znth l i.
Proof.
  intro H. rewrite znth_app_r by lia. replace (zlen p + i - zlen p) with i by lia. apply znth_app_l. lia.
Qed.
Lemma F2_znth {A B} (R : A -> B -> Prop) L l i v : Forall2 R L l -> znth L i = Some v -> exists x, znth l i = Some x /\ R v x.
Proof.
  intros F E. rewrite znth_def in E. destruct (Z.ltb_spec i 0); [discriminate|].
  assert (exists x, nth_error l (Z.to_nat i) = Some x /\ R v x) as (x & X & Rx).
  { clear H. revert E. generalize (Z.to_nat i). induction F as [|v0 x0 L l R0 F IH]; intros [|n] E; try discriminate; cbn [nth_error] in *.
    - injection E as <-. eauto.
    - apply IH. exact E. }
  exists x. split; [|exact Rx]. rewrite znth_def. destruct (Z.ltb_spec i 0); [lia|exact X].
Qed.

Lemma here_static t L m ip : here t L m ip -> zlen (v_static t) = v_smask t + 1 /\ v_smask t < W31 /\ pow2 (v_smask t + 1).
Proof.
  intro H. destruct (w_static _ _ _ (hr_wf _ _ _ _ H)) as [E P]. split; [exact E|]. rewrite E in P. split; [|exact P].
  destruct P as (e & Re & Ee). pose proof (Z.pow_le_mono_r 2 e 31 ltac:(lia) ltac:(lia)). change (2 ^ 31) with W31 in *. lia.
Qed.
Lemma global_s32 L m ip i v : at_ L m ip -> m_global m i = Some v -> is_s32 i.
Proof.
  intros (t & _ & H) E. destruct (hr_mem _ _ _ _ H) as (W & mm & l & D & G & R & St). destruct (G _ _ E) as (B & _).
  destruct (here_static _ _ _ _ H) as (_ & B2 & _). unfold is_s32, W31 in *. lia.
Qed.

Lemma i_get pre fr tmp a m p v hv off : at_ (pre ++ fr ++ tmp) m a -> read p m = Some v ->
  frel hv (m_local m) fr -> off = zlen fr + zlen tmp -> zlen (pre ++ fr ++ tmp) + 1 <= lim ->
  mem_words code a (fetch_code p off) -> at_ (pre ++ fr ++ tmp ++ [v]) m (a + 3).
Proof.
  intros H R F -> B W. set (st := pre ++ fr ++ tmp) in *.
  assert (pre ++ fr ++ tmp ++ [v] = st ++ [v]) as As by (unfold st; rewrite !app_assoc; reflexivity). rewrite As.
  assert (zlen st = zlen pre + zlen fr + zlen tmp) as Ls by (unfold st; rewrite !zlen_app; lia).
  pose proof (zlen_nonneg pre) as Np. pose proof (zlen_nonneg fr) as Nf. pose proof (zlen_nonneg tmp) as Nt.
  destruct p as [i|i]; cbn [fetch_code read] in *.
  - destruct (words_app a [OP_LIT_INT; u32 i] [OP_STATICPEEK] W) as [Wa Wb].
    pose proof (global_s32 _ _ _ _ _ H R) as Si.
    pose proof (i_int _ _ _ _ H B Wa Si) as H1.
    destruct (words_cons _ _ _ Wb) as [W1 _]. change (zlen [OP_LIT_INT; u32 i]) with 2 in W1. unfold code in *.
    pose proof (znth_some_range _ _ _ W1) as Q1. replace (a + 3) with (a + 2 + 1) by lia. rewrite <- (u32_next (a + 2)) by lia.
    apply (one_opcode _ _ _ OP_STATICPEEK (st ++ [v]) H1 W1); [oprange|oprange|].
    intros t Wd mm l Ht D G Rl St. destruct (F2_snoc _ _ _ _ Rl) as (l1 & x & -> & Rl1 & [-> _]).
    destruct (G i v R) as (Ri & y & Y & Ry). destruct (here_static _ _ _ _ Ht) as (_ & Sm & Sp).
    destruct (C57_global host t l1 i vnil Ri Sm Sp) as [K _]. destruct (K y Y St) as (s' & E & Rs).
    exists s', (l1 ++ [y]). split; [exact E|]. split; [exact Rs|]. apply F2_push; auto.
  - destruct (words_app a [OP_LIT_INT; u32 (i - (zlen fr + zlen tmp))] [OP_STACKPEEK] W) as [Wa Wb].
    destruct (znth (m_local m) i) as [o|] eqn:Ei; [|discriminate]. destruct F as [Fl F].
    destruct (F _ _ Ei) as (x & X & Rx). rewrite R in Rx. subst x. pose proof (znth_some_range _ _ _ X) as Xr.
    assert (is_s32 (i - (zlen fr + zlen tmp))) as Si by (unfold is_s32, W31; lia).
    pose proof (i_int _ _ _ _ H B Wa Si) as H1.
    destruct (words_cons _ _ _ Wb) as [W1 _]. change (zlen [OP_LIT_INT; u32 (i - (zlen fr + zlen tmp))]) with 2 in W1. unfold code in *.
    pose proof (znth_some_range _ _ _ W1) as Q1. replace (a + 3) with (a + 2 + 1) by lia. rewrite <- (u32_next (a + 2)) by lia.
    apply (one_opcode _ _ _ OP_STACKPEEK (st ++ [v]) H1 W1); [oprange|oprange|].
    intros t Wd mm l Ht D G Rl St. destruct (F2_snoc _ _ _ _ Rl) as (l1 & x & -> & Rl1 & [-> _]).
    pose proof (Forall2_zlen _ _ _ Rl1) as Zl.
    assert (znth st (zlen pre + i) = Some v) as Xs by (unfold st; rewrite znth_mid by lia; exact X).
    destruct (F2_znth _ _ _ _ _ Rl1 Xs) as (y & Y & Ry).
    destruct (C57_local_read host t l1 (i - (zlen fr + zlen tmp)) (zlen pre + i) y St Si) as (s' & E & Rs); [unfold slot_of; lia|exact Y|].
    exists s', (l1 ++ [y]). split; [exact E|]. split; [exact Rs|]. apply F2_push; auto.
Qed.

Lemma smask_t0 t L m ip : here t L m ip -> v_smask t = v_smask t0.
Proof. intro H. change (v_smask (frame t) = v_smask (frame t0)). rewrite (hr_frame _ _ _ _ H). reflexivity. Qed.
Lemma restacked_wf t l t' : wf true 0 t -> restacked t l t' -> wf true 0 t'.
Proof.
  intros Wf (c & k & Hc & Wk & Ck & ->).
  replace (set_ctxs _ t) with (upd_cur (set_c_stack k) t) by (unfold upd_cur; rewrite Hc; reflexivity).
  apply (wf_upd_cur true 0 t _ c Wf Hc); auto.
Qed.

(** Storing the top of the stack in a global. *)
Lemma i_setg L m a v i : at_ (L ++ [v]) m a -> 0 <= i <= v_smask t0 ->
  zlen (L ++ [v]) + 1 <= lim -> mem_words code a [OP_LIT_INT; u32 i; OP_STATICPOKE] ->
  at_ (L ++ [v]) (write (Global i) v m) (a + 3).
Proof.
  intros H Ri B W. destruct (words_app a [OP_LIT_INT; u32 i] [OP_STATICPOKE] W) as [Wa Wb].
  assert (is_s32 i) as Si.
  { destruct H as (t & _ & Ht). destruct (here_static _ _ _ _ Ht) as (_ & Sm & _). rewrite (smask_t0 _ _ _ _ Ht) in Sm. unfold is_s32, W31 in *. lia. }
  pose proof (i_int _ _ _ _ H B Wa Si) as H1.
  destruct (words_cons _ _ _ Wb) as [W1 _]. change (zlen [OP_LIT_INT; u32 i]) with 2 in W1. unfold code in *.
  pose proof (znth_some_range _ _ _ W1) as Q1. replace (a + 3) with (a + 2 + 1) by lia. rewrite <- (u32_next (a + 2)) by lia.
  apply (one_changed _ _ _ OP_STATICPOKE _ _ H1 W1); [oprange|oprange|].
  intros t Wd mm l Ht D G R St _ _. rewrite <- app_assoc in R. cbn [app] in R.
  destruct (F2_snoc2 _ _ _ _ _ R) as (l1 & x & y & -> & Rl & Rx & [-> _]).
  destruct (here_static _ _ _ _ Ht) as (Sl & Sm & Sp). rewrite <- (smask_t0 _ _ _ _ Ht) in Ri.
  destruct (C57_global host t l1 i x Ri Sm Sp) as [_ K]. destruct (K Sl St) as (t2 & E & gl & (Gl & Gx & Go) & Rs).
  exists (set_static gl t), t2, Wd, mm, (l1 ++ [x]). split; [exact E|]. split; [exact Rs|]. split; [reflexivity|]. split; [reflexivity|]. split; [reflexivity|].
  split; [apply (restacked_wf _ _ _ (wf_static_set _ _ _ _ (hr_wf _ _ _ _ Ht) Gl) Rs)|]. split; [|split].
  - apply (world_same lit t (set_static gl t)); auto.
    + destruct (hr_ip _ _ _ _ Ht) as (c & Hc & _). exists c. exact Hc.
    + intros z J. apply In_znth in J. destruct J as (j & J). vsin J. destruct (Z.eq_dec j i) as [->|Nj].
      * rewrite Gx in J. injection J as <-. eauto.
      * rewrite Go in J by exact Nj. apply (wd_static _ _ _ _ _ D). apply In_znth. eauto.
  - intros j w. cbn [write m_global]. vs. destruct (Z.eqb_spec j i) as [->|Nj]; intro Ej.
    + injection Ej as <-. split; [exact Ri|]. exists x. split; [exact Gx|]. exact Rx.
    + destruct (G j w Ej) as (Rj & z & Z1 & Rz). split; [exact Rj|]. exists z. split; [rewrite Go by exact Nj; exact Z1|]. exact Rz.
  - apply F2_push; [|exact Rx]. exact Rl.
Qed.

Lemma frel_upd hv ml fr i v : frel hv ml fr -> 0 <= i < zlen fr -> frel hv (zupd ml i (Some v)) (zupd fr i v).
Proof.
  intros (Ln & F) B. split; [rewrite !zlen_zupd; congruence|]. intros j o E.
  destruct (Z.eq_dec i j) as [<-|N].
  - rewrite znth_zupd_same in E by lia. injection E as <-. exists v. split; [apply znth_zupd_same; lia|reflexivity].
  - rewrite znth_zupd_other in E by exact N. destruct (F _ _ E) as (y & Y & P). exists y. split; [rewrite znth_zupd_other by exact N; exact Y|exact P].
Qed.
Lemma F2_intro {A B} (R : A -> B -> Prop) L l : zlen L = zlen l -> (forall i v x, znth L i = Some v -> znth l i = Some x -> R v x) -> Forall2 R L l.
Proof.
  revert l. induction L as [|v L IH]; intros [|x l] Ln X; try constructor.
  - rewrite zlen_cons, zlen_nil in Ln. pose proof (zlen_nonneg l). lia.
  - rewrite zlen_cons, zlen_nil in Ln. pose proof (zlen_nonneg L). lia.
  - apply (X 0); reflexivity.
  - apply IH; [rewrite !zlen_cons in Ln; lia|]. intros i w y E1 E2. pose proof (znth_some_range _ _ _ E1). apply (X (i + 1)).
    + change (v :: L) with ([v] ++ L). rewrite znth_app_r by (rewrite zlen_one; lia). rewrite zlen_one. replace (i + 1 - 1) with i by lia. exact E1.
    + change (x :: l) with ([x] ++ l). rewrite znth_app_r by (rewrite zlen_one; lia). rewrite zlen_one. replace (i + 1 - 1) with i by lia. exact E2.
Qed.
Lemma zupd_mid {A} (p l r : list A) i (x : A) : 0 <= i < zlen l -> zupd (p ++ l ++ r) (zlen p + i) x = p ++ zupd l i x ++ r.
Proof.
  intro B. apply list_ext_znth. intro j. pose proof (zlen_nonneg p). pose proof (zlen_nonneg r).
  destruct (Z.eq_dec j (zlen p + i)) as [->|N].
  - rewrite znth_zupd_same by (rewrite !zlen_app; lia). rewrite znth_mid by (rewrite zlen_zupd; lia). symmetry. apply znth_zupd_same. lia.
  - rewrite znth_zupd_other by lia. destruct (Z.lt_ge_cases j (zlen p)).
    + rewrite !znth_app_l by lia. reflexivity.
    + rewrite !(znth_app_r p) by lia. destruct (Z.lt_ge_cases (j - zlen p) (zlen l)).
      * rewrite !znth_app_l by (rewrite ?zlen_zupd; lia). symmetry. apply znth_zupd_other. lia.
      * rewrite (znth_app_r l), (znth_app_r (zupd l i x)) by (rewrite ?zlen_zupd; lia). rewrite zlen_zupd. reflexivity.
Qed.

Lemma i_set pre fr tmp a m p v v0 hv off : at_ (pre ++ fr ++ tmp ++ [v]) m a -> read p m = Some v0 ->
  frel hv (m_local m) fr -> off = zlen fr + zlen tmp + 1 -> zlen (pre ++ fr ++ tmp) + 2 <= lim ->
  mem_words code a (store_code p off) ->
  exists fr', at_ (pre ++ fr' ++ tmp ++ [v]) (write p v m) (a + 3) /\ frel hv (m_local (write p v m)) fr'.
Proof.
  intros H R F -> B W.
  assert (forall f, pre ++ f ++ tmp ++ [v] = (pre ++ f ++ tmp) ++ [v]) as As by (intro f; rewrite !app_assoc; reflexivity).
  assert (zlen (pre ++ fr ++ tmp) = zlen pre + zlen fr + zlen tmp) as Ls by (rewrite !zlen_app; lia).
  pose proof (zlen_nonneg pre) as Np. pose proof (zlen_nonneg fr) as Nf. pose proof (zlen_nonneg tmp) as Nt.
  rewrite As in H.
  assert (zlen ((pre ++ fr ++ tmp) ++ [v]) + 1 <= lim) as B1 by (rewrite zlen_app, zlen_cons, zlen_nil; lia).
  destruct p as [i|i]; cbn [store_code] in *.
  - exists fr. split; [|exact F]. rewrite As. apply i_setg; auto.
    destruct H as (t & _ & Ht). destruct (hr_mem _ _ _ _ Ht) as (Wd & mm & l & D & G & _). cbn [read] in R. destruct (G _ _ R) as (Ri & _).
    rewrite <- (smask_t0 _ _ _ _ Ht). exact Ri.
  - destruct (words_app a [OP_LIT_INT; u32 (i - (zlen fr + zlen tmp + 1))] [OP_STACKPOKE] W) as [Wa Wb].
    cbn [read] in R. destruct (znth (m_local m) i) as [o|] eqn:Ei; [|discriminate].
    pose proof F as [Fl F0]. destruct (F0 _ _ Ei) as (y & Y & Ry). pose proof (znth_some_range _ _ _ Y) as Yr.
    assert (is_s32 (i - (zlen fr + zlen tmp + 1))) as Si by (unfold is_s32, W31; lia).
    pose proof (i_int _ _ _ _ H B1 Wa Si) as H1.
    destruct (words_cons _ _ _ Wb) as [W1 _]. change (zlen [OP_LIT_INT; u32 (i - (zlen fr + zlen tmp + 1))]) with 2 in W1. unfold code in *.
    pose proof (znth_some_range _ _ _ W1) as Q1.
    exists (zupd fr i v). split; [|apply frel_upd; assumption].
    apply (at_mem _ m); [reflexivity|reflexivity|]. replace (a + 3) with (a + 2 + 1) by lia. rewrite <- (u32_next (a + 2)) by lia.
    apply (one_opcode _ _ _ OP_STACKPOKE _ H1 W1); [oprange|oprange|].
    intros t Wd mm l Ht D G Rl St. rewrite <- app_assoc in Rl. cbn [app] in Rl.
    destruct (F2_snoc2 _ _ _ _ _ Rl) as (l1 & x & z & -> & Rl1 & Rx & [-> _]).
    pose proof (Forall2_zlen _ _ _ Rl1) as Zl.
    destruct (C57_local_write host t l1 x (i - (zlen fr + zlen tmp + 1)) (zlen pre + i) St Si) as (t3 & l3 & E3 & R3 & (P1 & P2 & P3)).
    { unfold slot_of. rewrite (zlen_app l1 [x]), zlen_one. lia. }
    exists t3, l3. split; [exact E3|]. split; [exact R3|].
    rewrite As, zlen_app, zlen_one in *. rewrite <- As.
    rewrite <- (zupd_mid pre fr (tmp ++ [v]) i v) by exact Yr. rewrite As. pose proof (F2_push _ _ _ _ _ Rl1 Rx) as Rlx.
    apply F2_intro.
    + rewrite zlen_zupd, P1. rewrite !zlen_app, !zlen_one in *. lia.
    + intros j w q E1 E2. destruct (Z.eq_dec (zlen pre + i) j) as [<-|Nj].
      * rewrite znth_zupd_same in E1 by (rewrite !zlen_app, zlen_one; lia). rewrite P2 in E2. injection E1 as <-. injection E2 as <-. exact Rx.
      * rewrite znth_zupd_other in E1 by exact Nj. rewrite P3 in E2 by congruence. destruct (F2_znth _ _ _ _ _ Rlx E1) as (q' & E3' & Rq).
        rewrite E2 in E3'. injection E3' as <-. exact Rq.
Qed.

(** ** Calls *)

Lemma i_call L m id args f ip : at_ (L ++ VFun id :: args ++ [VInt (zlen args)]) m ip -> znth FT id = Some f -> f_ext f = INVALID ->
  f_argc f = zlen args -> is_u32 (f_first f) -> zlen L + zlen args + 3 <= lim -> mem_words code ip [OP_CALL] ->
  at_ (L ++ VFun id :: args ++ [VInt (zlen args); VInt ip]) m (f_first f).
Proof.
  intros H Fi X Ac U B W. destruct (words_cons _ _ _ W) as [W1 _]. unfold code in *. pose proof (znth_some_range _ _ _ W1) as Q1.
  assert (is_s32 ip) as Si.
  { destruct Clen as (e & Re & Ee). pose proof (Z.pow_le_mono_r 2 e 31 ltac:(lia) ltac:(lia)). unfold is_s32, W31. change (2 ^ 31) with 2147483648 in *. lia. }
  apply (one_moved _ m ip OP_CALL _ (f_first f) H W1); [oprange|oprange|].
  intros t Wd mm l Ht D G R St. destruct (F2_app _ _ _ _ R) as (l1 & l2 & -> & R1 & R2). inversion R2 as [|? y ? l3 Ry R3]; subst.
  destruct (F2_snoc _ _ _ _ R3) as (l4 & x & -> & R4 & [-> Rx]). destruct Ry as [-> _]. pose proof (Forall2_zlen _ _ _ R4) as Z4.
  pose proof (Forall2_zlen _ _ _ R1) as Z1. rewrite Z4 in St.
  destruct (C21_call host t l1 (mkV T_FUNC id) l4 f ip St (hr_ip _ _ _ _ Ht)) as (t2 & E & Mv).
  - split; [reflexivity|]. rewrite (i_funcs _ (here_inv _ _ _ _ Ht)). exact Fi.
  - exact X.
  - right. congruence.
  - exact U.
  - pose proof (i_max _ (here_inv _ _ _ _ Ht)). unfold CallSpec.fits, call_frame. repeat first [rewrite zlen_app|rewrite zlen_cons|rewrite zlen_nil].
    pose proof (zlen_nonneg l1). pose proof (zlen_nonneg l4). lia.
  - exists t2. eexists. split; [exact E|]. split; [exact Mv|]. unfold call_frame. apply Forall2_app; [exact R1|]. cbn [app]. constructor; [split; [reflexivity|]|].
    + inversion R2 as [|? ? ? ? Rz _]; subst. apply Rz.
    + rewrite <- app_assoc. apply Forall2_app; [exact R4|]. constructor; [rewrite Z4 in *; split; [reflexivity|exact Rx]|]. constructor; [split; [reflexivity|exact Si]|constructor].
Qed.

(** The functions of the host do what [hosts] says: called with values that
    stand for the arguments, they return one that stands for the result, in a
    machine whose globals and objects are those they should be, without an
    error, and without changing the stack or the meaning of what is on it. *)
Definition does {HS : Hosts} : Prop :=
  forall id vs m v m', hosts id vs m v m' -> exists cb, forall t W mm st xs,
    frame t = frame t0 -> wf true 0 t -> string_room t -> (exists i, 0 <= i < W31 /\ get_obj t i = None) ->
    world lit t W mm (m_heap m) -> globs t W (m_global m) ->
    stack_is t (st ++ call_frame (mkV T_FUNC id) xs) -> Forall2 (rep t W) vs xs ->
    good_native t (mkV T_FUNC id) xs cb /\
    exists x t' W' mm', host cb xs t = Ok (x, t') /\ frame t' = frame t /\ wf true 0 t' /\ v_ctxs t' = v_ctxs t /\
      world lit t' W' mm' (m_heap m') /\ globs t' W' (m_global m') /\ rep t' W' v x /\
      forall u y, In y (st ++ xs) -> rep t W u y -> rep t' W' u y.
(** If they should fail, they report an error, and leave a well-formed machine. *)
Definition reports {HS : Hosts} : Prop :=
  forall id vs m m', host_fails id vs m m' -> exists cb, forall t W mm st xs,
    frame t = frame t0 -> wf true 0 t -> string_room t -> (exists i, 0 <= i < W31 /\ get_obj t i = None) ->
    world lit t W mm (m_heap m) -> globs t W (m_global m) ->
    stack_is t (st ++ call_frame (mkV T_FUNC id) xs) -> Forall2 (rep t W) vs xs ->
    good_native t (mkV T_FUNC id) xs cb /\
    exists x t' W' mm', host cb xs t = Ok (x, t') /\ v_errs t' <> [] /\ frame t' = set_errs (v_errs t') (frame t) /\ wf true 0 t' /\ v_ctxs t' = v_ctxs t /\
      world lit t' W' mm' (m_heap m') /\ globs t' W' (m_global m').
Definition implements {HS : Hosts} : Prop := does /\ reports.

Lemma i_native {HS : Hosts} (Im : implements) L m id args v m' ip : at_ (L ++ VFun id :: args ++ [VInt (zlen args)]) m ip ->
  hosts id args m v m' -> zlen L + zlen args + 3 <= lim -> mem_words code ip [OP_CALL] ->
  at_ (L ++ [v]) m' (ip + 1).
Proof.
  intros H Hs B W. destruct (words_cons _ _ _ W) as [W1 _]. unfold code in *. pose proof (znth_some_range _ _ _ W1) as Q1.
  destruct (proj1 Im _ _ _ _ _ Hs) as (cb & X). rewrite <- (u32_next ip Q1).
  apply (one _ m ip OP_CALL _ m' _ H W1); [oprange|oprange|]. intros t Ht Sr Or.
  destruct (hr_mem _ _ _ _ Ht) as (Wd & mm & l & D & G & R & St).
  destruct (F2_app _ _ _ _ R) as (l1 & l2 & -> & R1 & R2). inversion R2 as [|? y ? l3 Ry R3]; subst.
  destruct (F2_snoc _ _ _ _ R3) as (l4 & x & -> & R4 & [-> Rx]). destruct Ry as [-> Uid]. pose proof (Forall2_zlen _ _ _ R4) as Z4. rewrite Z4 in St.
  destruct (X t Wd mm l1 l4 (hr_frame _ _ _ _ Ht) (hr_wf _ _ _ _ Ht) Sr Or D G St R4) as (Gn & r & t' & W' & mm' & Eh & Fr & Wf' & Cx & D' & G' & Rv & Keep).
  assert (v_cur t' = v_cur t) as Cu by (change (v_cur (frame t') = v_cur (frame t)); rewrite Fr; reflexivity).
  assert (stack_is t' (l1 ++ call_frame (mkV T_FUNC id) l4)) as St'. { destruct St as (c & A & Bc). exists c. rewrite Cx, Cu. auto. }
  assert (ip_is t' ip) as Ip'. { destruct (hr_ip _ _ _ _ Ht) as (c & A & Bc). exists c. rewrite Cx, Cu. auto. }
  pose proof (rs_start _ _ St) as Rs.
  destruct (native_run host t l1 _ l4 _ _ _ cb r t' Rs Gn Eh St') as (s1 & E & Rt).
  assert (opcode host OP_CALL t = Ok (tt, s1)) as Eo.
  { change (opcode host OP_CALL) with (op_call host). rewrite (call_start _ _ _ _ _ _ _ Rs).
    rewrite (bind_run _ _ _ _ _ (resolve_end (Some (mkV T_FUNC id)) (mkV T_FUNC id) 10 _ _ (or_introl eq_refl) ltac:(discriminate))). exact E. }
  destruct (instruction_restacked _ _ _ _ _ _ _ Eo Rt Ip') as (t3 & E3 & M3). exists t3. split; [exact E3|].
  assert (Forall2 (rep t' W') L l1) as R1'.
  { clear - R1 Keep. assert (forall u y, In y l1 -> rep t Wd u y -> rep t' W' u y) as K2 by (intros u y I; apply Keep, in_or_app; auto). clear Keep.
    induction R1; constructor; [apply K2; [left; reflexivity|assumption]|apply IHR1; intros u w I; apply K2; right; exact I]. }
  eapply (moved_here t' t3 (L ++ VFun id :: args ++ [VInt (zlen args)])); [|exact D'|exact G'|exact M3|].
  - split; [rewrite Fr; exact (hr_frame _ _ _ _ Ht)|exact Wf'|exact Ip'|]. exists W', mm', (l1 ++ call_frame (mkV T_FUNC id) l4). split; [exact D'|]. split; [exact G'|]. split; [|exact St'].
    apply Forall2_app; [exact R1'|]. unfold call_frame. constructor; [split; [reflexivity|exact Uid]|]. apply Forall2_app; [|constructor; [rewrite Z4 in *; split; [reflexivity|exact Rx]|constructor]].
    clear - R4 Keep. assert (forall u y, In y l4 -> rep t Wd u y -> rep t' W' u y) as K2 by (intros u y I; apply Keep, in_or_app; auto). clear Keep.
    induction R4; constructor; [apply K2; [left; reflexivity|assumption]|apply IHR4; intros u w I; apply K2; right; exact I].
  - apply Forall2_app; [exact R1'|]. constructor; [exact Rv|constructor].
Qed.

Lemma i_return L m fv args ip locals rv a :
  at_ (L ++ fv :: args ++ [VInt (zlen args); VInt ip] ++ locals ++ [rv; VInt (zlen locals)]) m a -> u32 ip <> INVALID -> mem_words code a [OP_RETURN] ->
  at_ (L ++ [rv]) m (u32 ip + 1).
Proof.
  intros H B W. destruct (words_cons _ _ _ W) as [W1 _]. unfold code in *.
  apply (one_moved _ m a OP_RETURN _ (u32 ip + 1) H W1); [oprange|oprange|].
  intros t Wd mm l Ht D G R St. destruct (F2_app _ _ _ _ R) as (l1 & l2 & -> & R1 & R2). inversion R2 as [|? y ? l3 Ry R3]; subst.
  destruct (F2_app _ _ _ _ R3) as (l4 & l5 & -> & R4 & R5). cbn [app] in R5. inversion R5 as [|? y1 ? l6 Ry1 R6]; subst. cbn [rep] in Ry1. destruct Ry1 as [-> Ry1].
  inversion R6 as [|? y2 ? l7 Ry2 R7]; subst. cbn [rep] in Ry2. destruct Ry2 as [-> Ry2]. destruct (F2_snoc2 _ _ _ _ _ R7) as (l8 & x & z & -> & R8 & Rx & [-> Rz]).
  rewrite (Forall2_zlen _ _ _ R4), (Forall2_zlen _ _ _ R8) in St.
  assert (0 <= u32 ip < INVALID) as Bi by (pose proof (u32_range ip) as U; unfold is_u32, INVALID, W32 in *; lia).
  assert (vint ip = vint (u32 ip)) as Vi by (unfold vint; rewrite (u32_id _ (u32_range ip)); reflexivity). rewrite Vi in St.
  destruct (C21_return host t l1 y l4 (u32 ip) l8 x) as (t2 & E & Mv); [|exact Bi|].
  - unfold call_frame. cbn [app]. rewrite <- app_assoc. cbn [app]. exact St.
  - exists t2. eexists. split; [exact E|]. split; [exact Mv|]. apply F2_push; auto.
Qed.

(** a->f(args): the object becomes the first argument. *)
Lemma i_selfcall L m o f args ip : at_ (L ++ o :: f :: args ++ [VInt (zlen args)]) m ip -> zlen L + zlen args + 3 <= lim ->
  mem_words code ip [OP_SELFCALL] -> at_ (L ++ f :: o :: args ++ [VInt (zlen (o :: args))]) m (ip + 1).
Proof.
  intros H B W. destruct (words_cons _ _ _ W) as [W1 _]. unfold code in *. pose proof (znth_some_range _ _ _ W1) as Q1.
  rewrite <- (u32_next ip) by lia. apply (one_opcode _ _ _ OP_SELFCALL _ H W1); [oprange|oprange|].
  intros t Wd mm l Ht D G R St. destruct (F2_app _ _ _ _ R) as (l1 & l2 & -> & R1 & R2). inversion R2 as [|? y ? l3 Ry R3]; subst.
  inversion R3 as [|? z ? l4 Rz R4]; subst. destruct (F2_snoc _ _ _ _ R4) as (l5 & x & -> & R5 & [-> Rx]).
  pose proof (Forall2_zlen _ _ _ R5) as Z5. rewrite Z5 in St.
  destruct (C23_self_call host t l1 y z l5 St) as (s' & E & Rs). exists s'. eexists. split; [exact E|]. split; [exact Rs|].
  apply Forall2_app; [exact R1|]. unfold call_frame. cbn [app]. constructor; [exact Rz|]. constructor; [exact Ry|]. apply F2_push; [exact R5|].
  rewrite !zlen_cons, Z5. split; [reflexivity|]. pose proof (zlen_nonneg L). pose proof (zlen_nonneg args). unfold is_s32, W31. lia.
Qed.

(** ** Objects *)

Lemma i_field L m ip o k l : at_ (L ++ [VObj o; k]) m ip -> fields o m = Some l -> key_ok k ->
  mem_words code ip [OP_FIELDGET] -> at_ (L ++ [oget k l]) m (ip + 1).
Proof.
  intros H F K W. destruct (words_cons _ _ _ W) as [W1 _]. unfold code in *. pose proof (znth_some_range _ _ _ W1) as Q1.
  rewrite <- (u32_next ip) by lia. apply (one_opcode _ _ _ OP_FIELDGET _ H W1); [oprange|oprange|].
  intros t Wd mm st Ht D G R St. destruct (F2_snoc2 _ _ _ _ _ R) as (l1 & x & y & -> & Rl & (i & Ei & ->) & Ry).
  destruct (world_get lit t Wd mm _ o i l k y D Ei F K Ry) as [Oy Rf].
  destruct (wd_objs _ _ _ _ _ D _ _ Ei) as (Gn & _). destruct (get_obj t i) as [ob|] eqn:Gi; [|congruence].
  destruct (field_get_run t mm l1 i ob y (wd_inv _ _ _ _ _ D) Gi Oy St) as (s' & E & Rs).
  exists s', (l1 ++ [mm i y]). split; [exact E|]. split; [exact Rs|]. apply F2_push; auto.
Qed.
Lemma i_field_keep L m ip o k l : at_ (L ++ [VObj o; k]) m ip -> fields o m = Some l -> key_ok k ->
  mem_words code ip [OP_FIELDGET_NOPOP] -> at_ (L ++ [VObj o; oget k l]) m (ip + 1).
Proof.
  intros H F K W. destruct (words_cons _ _ _ W) as [W1 _]. unfold code in *. pose proof (znth_some_range _ _ _ W1) as Q1.
  rewrite <- (u32_next ip) by lia. apply (one_opcode _ _ _ OP_FIELDGET_NOPOP _ H W1); [oprange|oprange|].
  intros t Wd mm st Ht D G R St. destruct (F2_snoc2 _ _ _ _ _ R) as (l1 & x & y & -> & Rl & (i & Ei & ->) & Ry).
  destruct (world_get lit t Wd mm _ o i l k y D Ei F K Ry) as [Oy Rf].
  destruct (wd_objs _ _ _ _ _ D _ _ Ei) as (Gn & _). destruct (get_obj t i) as [ob|] eqn:Gi; [|congruence].
  destruct (field_keep_run t mm l1 i ob y (wd_inv _ _ _ _ _ D) Gi Oy St) as (s' & E & Rs).
  exists s', (l1 ++ [vobj i; mm i y]). split; [exact E|]. split; [exact Rs|]. apply Forall2_app; [exact Rl|].
  constructor; [exists i; auto|]. constructor; auto.
Qed.
Lemma i_len L m ip o l : at_ (L ++ [VObj o]) m ip -> fields o m = Some l -> is_s32 (zlen l) ->
  mem_words code ip [OP_LEN] -> at_ (L ++ [VInt (zlen l)]) m (ip + 1).
Proof.
  intros H F K W. destruct (words_cons _ _ _ W) as [W1 _]. unfold code in *. pose proof (znth_some_range _ _ _ W1) as Q1.
  rewrite <- (u32_next ip) by lia. apply (one_opcode _ _ _ OP_LEN _ H W1); [oprange|oprange|].
  intros t Wd mm st Ht D G R St. destruct (F2_snoc _ _ _ _ R) as (l1 & x & -> & Rl & (i & Ei & ->)).
  destruct (wd_objs _ _ _ _ _ D _ _ Ei) as (Gn & _). destruct (get_obj t i) as [ob|] eqn:Gi; [|congruence].
  destruct (len_run t l1 i ob Gi St) as (s' & E & Rs). rewrite (world_size lit t Wd mm _ o i l ob D Ei F Gi) in Rs.
  exists s'. eexists. split; [exact E|]. split; [exact Rs|]. apply F2_push; [exact Rl|]. split; [reflexivity|exact K].
Qed.

Lemma i_object L m ip : at_ L m ip -> zlen L + 1 <= lim -> mem_words code ip [OP_NEWOBJ] ->
  at_ (L ++ [VObj (zlen (m_heap m))]) (set_heap (m_heap m ++ [[]]) m) (ip + 1).
Proof.
  intros H B W. destruct (words_cons _ _ _ W) as [W1 _]. unfold code in *. pose proof (znth_some_range _ _ _ W1) as Q1.
  rewrite <- (u32_next ip) by lia. apply (one_changed _ _ _ OP_NEWOBJ _ _ H W1); [oprange|oprange|].
  intros t Wd mm l Ht D G R St _ Fr.
  destruct (create_run t mm l (wd_inv _ _ _ _ _ D) St (can_push_here _ _ _ _ _ _ Ht St R B) Fr) as (i & tb & n & t2 & E & Rs & Gi & Bi & Gt & I2).
  destruct (world_create lit t Wd mm _ i tb n D Gi Gt I2) as [D2 Rm].
  exists (set_newcount n (set_objs tb t)), t2. eexists. eexists. exists (l ++ [vobj i]).
  split; [exact E|]. split; [exact Rs|]. split; [reflexivity|]. split; [reflexivity|]. split; [reflexivity|].
  split. { pose proof (h_op_create_object true 0 t (conj (hr_wf _ _ _ _ Ht) (conj (Forall_nil _) (Forall_nil _)))) as K. rewrite E in K. apply K. }
  split; [exact D2|]. split.
  - intros j w Gj. destruct (G j w Gj) as (P & z & Q & Cz). split; [exact P|]. exists z. split; [exact Q|]. apply Rm, Cz.
  - apply F2_push; [clear - R Rm; induction R; constructor; auto|]. exists i. rewrite Z.eqb_refl. auto.
Qed.

Lemma i_setfield L m ip o k v l : at_ (L ++ [v; VObj o; k]) m ip -> fields o m = Some l -> key_ok k -> fits mf k v l ->
  mem_words code ip [OP_FIELDSET] -> at_ (L ++ [v]) (set_field o k v l m) (ip + 1).
Proof.
  intros H F K Ft W. destruct (words_cons _ _ _ W) as [W1 _]. unfold code in *. pose proof (znth_some_range _ _ _ W1) as Q1.
  rewrite <- (u32_next ip) by lia. apply (one_changed _ _ _ OP_FIELDSET _ _ H W1); [oprange|oprange|].
  intros t Wd mm st Ht D G R St _ _. change [v; VObj o; k] with ([v] ++ [VObj o; k]) in R. rewrite app_assoc in R.
  destruct (F2_snoc2 _ _ _ _ _ R) as (l0 & x & y & -> & Rl & (i & Ei & ->) & Ry). destruct (F2_snoc _ _ _ _ Rl) as (l1 & z & -> & Rl1 & Rz).
  rewrite <- app_assoc in St. cbn [app] in St.
  destruct (world_get lit t Wd mm _ o i l k y D Ei F K Ry) as [Oy Rf].
  destruct (wd_objs _ _ _ _ _ D _ _ Ei) as (Gn & _). destruct (get_obj t i) as [ob|] eqn:Gi; [|congruence].
  pose proof (world_size lit t Wd mm _ o i l ob D Ei F Gi) as Sz.
  destruct (field_set_run t mm l1 i ob y z (wd_inv _ _ _ _ _ D) Gi Oy) as (tb & t2 & E & Rs & I2 & Kp).
  { destruct Ft as [->|[Ft|Ft]]; [left; exact Rz| |].
    - right. left. pose proof (i_fields _ (here_inv _ _ _ _ Ht)). lia.
    - right. right. intro Em. rewrite Em in Rf. destruct (oget k l); cbn [rep] in Rf; try congruence.
      + destruct Rf as [E0 _]. discriminate E0.
      + discriminate Rf.
      + destruct Rf as [E0 _]. discriminate E0.
      + destruct Rf as [E0 _]. discriminate E0.
      + destruct Rf as (? & _ & E0). discriminate E0. }
  { exact St. }
  destruct (world_write lit t Wd mm _ o i l tb k y v z D Ei F K Ry Rz I2) as [D2 Rm].
  { intros j Nj. specialize (Kp j). destruct (get_obj t j); [|congruence]. destruct Kp as (o' & Go & _). change (get_obj (set_objs tb t) j) with (tab_get tb j) in Go. congruence. }
  { intros j ob' Gj. specialize (Kp j). change (get_obj (set_objs tb t) j) with (tab_get tb j) in Kp. destruct (get_obj t j) as [oj|] eqn:Gtj; [|congruence].
    destruct Kp as (o' & Go & Ee). rewrite Gj in Go. injection Go as <-. rewrite Ee. apply (wd_plain _ _ _ _ _ D _ _ Gtj). }
  exists (set_objs tb t), t2, Wd. eexists. exists (l1 ++ [z]).
  split; [exact E|]. split; [exact Rs|]. split; [reflexivity|]. split; [reflexivity|]. split; [reflexivity|]. split.
  { pose proof (h_op_field_set 0 t (conj (hr_wf _ _ _ _ Ht) (conj (Forall_nil _) (Forall_nil _)))) as P. rewrite E in P. destruct P as (b & P & _).
    destruct b; [exact P|]. pose proof (w_err _ _ _ P eq_refl) as He. exfalso. unfold has_errors in He.
    assert (v_errs t2 = []) as E0 by (destruct Rs as (? & ? & _ & _ & _ & ->); exact (i_errs _ (here_inv _ _ _ _ Ht))). rewrite E0 in He. discriminate He. }
  split; [exact D2|]. split.
  - intros j w Gj. destruct (G j w Gj) as (P & q & Q & Cz). split; [exact P|]. exists q. split; [exact Q|]. apply Rm, Cz.
  - apply F2_push; [clear - Rl1 Rm; induction Rl1; constructor; auto|]. apply Rm, Rz.
Qed.
End Mach.
