(** * LeaveProperties: compiling disturbs nothing that is there already (C73) *)

From Verif Require Import Base BaseFacts State MonadFacts TableModel TableProofs StrModel StrSpec StrProofs TokenModel TokenProperties StackModel VmModel OpSpec CallSpec VmSpec VmInv CsModel ExprModel CompModel KFacts RunSpec RunProperties VmProperties SessionProperties CoroProperties.
From Verif Require Import ReplModel ReplSpec ReplProofs ReplProperties EmitProofs LeaveSpec LeaveProofs LeaveScope.
From Coq Require Import ZArith List Lia Bool.
Import ListNotations.
Open Scope Z_scope.

(** C73: whatever scripts are compiled into a machine, one after the other, each
    accepted or rejected at any point, everything that was there before is still
    there: variables with their values, strings, functions, code, objects, host
    functions, and where the program is in its execution. *)
Theorem C73_undisturbed l k k' : idle k -> compiles l k k' ->
  undisturbed (k_w k) (k_vm k) (k_vm k') /\ k_w k <= k_w k' < zlen (v_code (k_vm k')).
Proof. intros Id C. exact (leaves_undisturbed _ _ Id (scripts_leave _ _ _ _ _ _ C (id_live _ Id))). Qed.
Print Assumptions C73_undisturbed.

(** One script, accepted ([b = true]) or not. *)
Corollary C73_script fuel text fname b k k' : idle k -> script text -> compile_script fuel text fname k = Ok (b, k') ->
  undisturbed (k_w k) (k_vm k) (k_vm k').
Proof. intros Id Sc E. apply (C73_undisturbed [(text, fname)] k k' Id). eapply cs_one; eauto. constructor. Qed.
Print Assumptions C73_script.

Lemma script_idle fuel text fname b k k' : idle k -> script text -> compile_script fuel text fname k = Ok (b, k') -> idle k'.
Proof.
  intros Id Sc E. assert (live_ctx (k_vm k) (v_cur (k_vm k))) as L by exact (id_live _ Id).
  destruct (script_leaves (k_w k) (zlen (v_funcs (k_vm k))) (k_w k) _ _ _ _ _ _ E Sc L) as [Dt Rr]. destruct (Rr (idle_inv _ Id)) as [Iv _]. pose proof (iv_n _ _ _ _ Iv). pose proof (iv_w _ _ _ _ Iv).
  constructor.
  - apply (iv_pow _ _ _ _ Iv).
  - apply (iv_mask _ _ _ _ Iv).
  - lia.
  - destruct (id_scope _ Id) as (c & Ec & Lc & Fc). pose proof (script_scopes _ _ _ _ _ _ E) as Q. unfold S in Q. rewrite Ec in Q. destruct (sims_one _ _ Q) as (c' & E' & (S1 & _ & S3)).
    exists c'. split; [exact E'|]. split; [congruence|]. rewrite S3; auto.
  - destruct Dt as (_ & _ & [_ Sm] & _). apply (Sm (id_strs _ Id)).
  - exact (kdata_live _ _ Dt L).
Qed.
Lemma kept_refl w s : kept w s s.
Proof. constructor; auto; exists []; rewrite app_nil_r; reflexivity. Qed.
Lemma kept_trans w w1 a b c : w <= w1 -> kept w a b -> kept w1 b c -> kept w a c.
Proof.
  intros L A B. pose proof (kp_files _ _ _ A) as (f1 & F1). pose proof (kp_files _ _ _ B) as (f2 & F2). pose proof (kp_markers _ _ _ A) as (m1 & M1). pose proof (kp_markers _ _ _ B) as (m2 & M2).
  destruct A as [A1 A2 A3 A4 A5 _ _ A6 A7 A8 A9 A10 A11 A12 A13 A14 A15 A16 A17], B as [B1 B2 B3 B4 B5 _ _ B6 B7 B8 B9 B10 B11 B12 B13 B14 B15 B16 B17].
  constructor; auto; try congruence.
  - intros i H. rewrite B4, A4 by lia. reflexivity.
  - intros i H. rewrite B5, A5 by lia. reflexivity.
  - exists (f1 ++ f2). rewrite F2, F1, app_assoc. reflexivity.
  - exists (m1 ++ m2). rewrite M2, M1, app_assoc. reflexivity.
Qed.
Lemma clear_kept l k k' ch : idle k -> compiles l k k' -> chain (v_ctxs (k_vm k')) (v_cur (k_vm k')) ch ->
  exists k2, clear_repl (k_w k) k' = Ok (tt, k2) /\ starts_over (k_w k) k' k2 /\ kept (k_w k) (k_vm k) (k_vm k2).
Proof.
  intros Id C Ch. destruct (C73_undisturbed l k k' Id C) as [U W].
  pose proof (id_w _ Id). destruct (clear_starts (k_w k) k' ch Ch ltac:(lia)) as (k2 & E & S). exists k2. split; [exact E|]. split; [exact S|].
  pose proof (so_rest_vm _ _ _ S) as Er. pose proof (fun i (N : i <> k_w k) => so_code _ _ _ S i N) as Co. destruct (ud_kept _ _ _ U).
  assert (forall i, i < k_w k -> znth (v_code (k_vm k2)) i = znth (v_code (k_vm k)) i) as Cd by (intros i Hi; rewrite Co by lia; apply kp_code; exact Hi).
  assert (v_cmask (k_vm k2) = v_cmask (k_vm k')) as Cm by (rewrite Er; reflexivity).
  constructor; try exact Cd; try (rewrite Er; assumption).
  intros i Hi. rewrite <- kp_fetch, Cm by exact Hi. apply Co.
  intro Q. assert (0 <= i < zlen (v_code (k_vm k'))) as Ri by lia.
  destruct (scripts_leave (k_w k) (zlen (v_funcs (k_vm k))) (k_w k) _ _ _ C (id_live _ Id)) as [_ Rr]. destruct (Rr (idle_inv _ Id)) as [Iv _].
  rewrite (iv_mask _ _ _ _ Iv) in Q. destruct (pow2_bounds _ (iv_pow _ _ _ _ Iv)).
  pose proof (DidProofs.land_mask i _ (iv_pow _ _ _ _ Iv) Ri) as M1. unfold W31 in *. rewrite u32_id in M1 by (unfold is_u32, W32; lia). lia.
Qed.

(** Clearing afterwards, as an interactive host does after a rejected script: the
    main program starts over where the rejected script began, and finds
    everything it left. *)
Theorem C73_rejected l k k' : idle k -> vm_ok (k_vm k) -> compiles l k k' ->
  exists k2, clear_repl (k_w k) k' = Ok (tt, k2) /\ starts_over (k_w k) k' k2 /\ kept (k_w k) (k_vm k) (k_vm k2).
Proof.
  intros Id [b Wf] C. destruct (C73_undisturbed l k k' Id C) as [U W]. destruct (w_chain _ _ _ Wf) as (ch & Ch & _).
  rewrite <- (ud_ctxs _ _ _ U), <- (ud_cur _ _ _ U) in Ch. exact (clear_kept l k k' ch Id C Ch).
Qed.
Print Assumptions C73_rejected.

(** After a script, accepted or not, the compiler is again between two scripts:
    every scope the script opened is closed. *)
Theorem C73_idle l k k' : idle k -> compiles l k k' -> idle k'.
Proof. intros Id C. revert Id. induction C as [k|text fname l fuel b k k1 k2 Sc E _ IH]; intro Id; [exact Id|]. apply IH. eapply script_idle; eauto. Qed.
Print Assumptions C73_idle.

(** Whatever was compiled, and rejected, before: it can be made runnable, without
    a failing assertion about open scopes. *)
Lemma grow_run k : pow2 (zlen (v_code (k_vm k))) -> v_cmask (k_vm k) = zlen (v_code (k_vm k)) - 1 -> zlen (v_code (k_vm k)) <= 2 ^ 30 ->
  grow_code k = Ok (tt, set_k_vm (set_cmask (2 * zlen (v_code (k_vm k)) - 1) (set_code (v_code (k_vm k) ++ repeat 0 (length (v_code (k_vm k)))) (k_vm k))) k).
Proof.
  intros Pw Mk L. destruct (pow2_bounds _ Pw) as [L0 _]. change (2 ^ 30) with 1073741824 in L. unfold grow_code. unfold kbind at 1, kgets at 1. rewrite Mk. set (z := zlen (v_code (k_vm k))) in *.
  assert (u32 ((z - 1) * 2) = 2 * (z - 1)) as E1 by (rewrite u32_id; unfold is_u32, W32; lia).
  assert (u32 (z - 1 + 1) = z) as E2 by (rewrite u32_id; unfold is_u32, W32; lia).
  assert (u32 (z * 2) = z * 2) as E3 by (rewrite u32_id; unfold is_u32, W32; lia).
  rewrite E1, E2, lor_one, E3 by lia. replace (2 * (z - 1) + 1) with (2 * z - 1) by lia.
  replace (INVALID <=? 2 * z - 1) with false by (symmetry; apply Z.leb_gt; unfold INVALID; lia).
  unfold kbind at 1, kret at 1. replace (z * 2 =? 0) with false by (symmetry; apply Z.eqb_neq; lia).
  unfold kvm, modify. replace (Z.to_nat z) with (length (v_code (k_vm k))) by (unfold z, zlen; lia). reflexivity.
Qed.
Lemma last_fits n i : pow2 n -> 0 <= i < n -> Z.land i (n - 1) = i.
Proof. intros (e & He & ->) R. rewrite Z.sub_1_r, <- Z.ones_equiv, Z.land_ones by lia. apply Z.mod_small. exact R. Qed.
Lemma pfin_run k c : idle k -> k_ctx k = [c] -> zlen (v_code (k_vm k)) <= 2 ^ 30 ->
  exists x m, partially_finalize k = Ok (tt, set_k_w (k_w k) (set_k_vm (set_code (zupd (v_code (k_vm k) ++ x) (k_w k) OP_END)
      (set_cmask m (set_globals (map (fun v => (cv_pos v, cv_name v)) (cc_vars c)) (k_vm k)))) k)) /\
    pow2 (zlen (v_code (k_vm k) ++ x)) /\ m = zlen (v_code (k_vm k) ++ x) - 1 /\ zlen (v_code (k_vm k) ++ x) <= 2 * zlen (v_code (k_vm k)).
Proof.
  intros Id Ec L. pose proof (id_pow _ Id) as Pw. pose proof (id_mask _ Id) as Mk. pose proof (id_w _ Id) as Rw. destruct (pow2_bounds _ Pw) as [L0 _].
  unfold partially_finalize, generate_globals, cur_cc. unfold kbind at 1, kgets at 1. rewrite Ec. unfold kbind at 1. unfold kbind at 1. unfold kbind at 1, kgets at 1. rewrite Ec. unfold kret at 1, kvm at 1, modify at 1.
  unfold kbind at 1, kgets at 1. ks. unfold add_op, add_word. unfold kbind at 1. unfold kbind at 1, kgets at 1. ks. unfold kbind at 1, kgets at 1. ks. vs.
  set (s1 := set_globals _ (k_vm k)). set (k1 := set_k_vm s1 k). destruct (v_cmask (k_vm k) <=? k_w k) eqn:Q.
  - exists (repeat 0 (length (v_code (k_vm k)))), (2 * zlen (v_code (k_vm k)) - 1). unfold kbind at 1. rewrite (grow_run k1) by assumption.
    assert (zlen (v_code (k_vm k) ++ repeat 0 (length (v_code (k_vm k)))) = 2 * zlen (v_code (k_vm k))) as Zl by (rewrite zlen_app; unfold zlen; rewrite repeat_length; lia).
    unfold kbind at 1, kgets at 1. ks. vs. unfold kbind at 1, klift at 1. rewrite wr_ok by (unfold k1, s1; ks; vs; rewrite ?zlen_app in *; lia).
    unfold kbind at 1, kvm at 1, modify at 1. ks. unfold kbind at 1, kgets at 1. ks. unfold k1. ks. rewrite Ec. unfold kbind at 1, kret at 1. unfold kmod at 1. unfold kmod. unfold k1, s1. ks. vs.
    split; [reflexivity|]. rewrite Zl. split; [|split; [reflexivity|lia]]. apply pow2_double; [exact Pw|]. unfold W31. change (2 ^ 30) with 1073741824 in L. lia.
  - exists [], (v_cmask (k_vm k)). rewrite app_nil_r. apply Z.leb_gt in Q. unfold kbind at 1, kret at 1.
    unfold kbind at 1, kgets at 1. ks. vs. unfold kbind at 1, klift at 1. rewrite wr_ok by (unfold k1, s1; ks; vs; rewrite ?zlen_app in *; lia).
    unfold kbind at 1, kvm at 1, modify at 1. ks. unfold kbind at 1, kgets at 1. ks. unfold k1. ks. rewrite Ec. unfold kbind at 1, kret at 1. unfold kmod at 1. unfold kmod. unfold k1, s1. ks. vs.
    split; [|split; [exact Pw|split; [exact Mk|lia]]]. destruct k as [s0 ? ? ? ? ? ? ? ?]. destruct s0. reflexivity.
Qed.
Theorem C73_runnable l k k' : idle k -> compiles l k k' -> zlen (v_code (k_vm k')) <= 2 ^ 30 ->
  exists k2, partially_finalize k' = Ok (tt, k2) /\ made_runnable k' k2.
Proof.
  intros Id C L. pose proof (C73_idle _ _ _ Id C) as I1. clear Id C. destruct (id_scope _ I1) as (c & Ec & Lc & Fc). pose proof (id_w _ I1) as Rw. pose proof (id_mask _ I1) as Mk. pose proof (id_pow _ I1) as Pw.
  destruct (pfin_run _ _ I1 Ec L) as (x & m & E & P2 & -> & _). eexists. split; [exact E|].
  assert (k_w k' < zlen (v_code (k_vm k') ++ x)) as Rx by (rewrite zlen_app; pose proof (zlen_nonneg x); lia).
  assert (forall i, i < k_w k' -> znth (zupd (v_code (k_vm k') ++ x) (k_w k') OP_END) i = znth (v_code (k_vm k')) i) as Kc.
  { intros i Hi. rewrite znth_zupd_other by lia. apply znth_app_l. lia. }
  constructor; ks; vs.
  - reflexivity.
  - rewrite last_fits by (auto; lia). apply znth_zupd_same. lia.
  - intros c' Ec'. rewrite Ec in Ec'. injection Ec' as <-. reflexivity.
  - constructor; vs; try reflexivity; [|exists []; rewrite app_nil_r; reflexivity].
    constructor; vs; auto; try (exists []; rewrite app_nil_r; reflexivity).
    intros i Hi. rewrite Mk. rewrite !last_fits by (auto; lia). apply Kc. lia.
  - reflexivity.
  - constructor; ks; vs; rewrite ?zlen_zupd; auto; try lia.
    + exists c. auto.
    + apply (id_strs _ I1).
    + apply (id_live _ I1).
Qed.
Print Assumptions C73_runnable.

(** Writing a word goes well while there is room for the code to double. *)
Definition room (b : Z) (k : comp) : Prop :=
  pow2 (zlen (v_code (k_vm k))) /\ v_cmask (k_vm k) = zlen (v_code (k_vm k)) - 1 /\ 0 <= k_w k < zlen (v_code (k_vm k)) /\ zlen (v_code (k_vm k)) <= b.
Definition wrote (w : Z) (k k2 : comp) : Prop :=
  v_errs (k_vm k2) = v_errs (k_vm k) /\ v_globals (k_vm k2) = v_globals (k_vm k) /\ k_w k2 = k_w k + 1 /\
  (forall i, i < k_w k -> znth (v_code (k_vm k2)) i = znth (v_code (k_vm k)) i) /\ znth (v_code (k_vm k2)) (k_w k) = Some w.
Lemma word_run b w k adj : room b k -> b <= 2 ^ 30 -> adj = false \/ k_ctx k = [] ->
  exists k2, add_word w adj k = Ok (tt, k2) /\ room (2 * b) k2 /\ wrote w k k2 /\ k_ctx k2 = k_ctx k.
Proof.
  intros (Pw & Mk & Rw & Lb) B Ad. destruct (pow2_bounds _ Pw) as [L0 _]. change (2 ^ 30) with 1073741824 in B.
  unfold add_word. unfold kbind at 1, kgets at 1. unfold kbind at 1, kgets at 1.
  assert (exists x m, (if v_cmask (k_vm k) <=? k_w k then grow_code else kret tt) k = Ok (tt, set_k_vm (set_cmask m (set_code (v_code (k_vm k) ++ x) (k_vm k))) k) /\
    pow2 (zlen (v_code (k_vm k) ++ x)) /\ m = zlen (v_code (k_vm k) ++ x) - 1 /\ zlen (v_code (k_vm k) ++ x) <= 2 * zlen (v_code (k_vm k)) /\ k_w k + 1 < zlen (v_code (k_vm k) ++ x)) as (x & m & E & P2 & -> & Z2 & W2).
  { destruct (v_cmask (k_vm k) <=? k_w k) eqn:Q.
    - apply Z.leb_le in Q. assert (zlen (v_code (k_vm k) ++ repeat 0 (length (v_code (k_vm k)))) = 2 * zlen (v_code (k_vm k))) as Zl by (rewrite zlen_app; unfold zlen; rewrite repeat_length; lia).
      eexists _, _. rewrite (grow_run k Pw Mk) by (change (2 ^ 30) with 1073741824; lia). split; [reflexivity|]. rewrite Zl. split; [|lia]. apply pow2_double; [exact Pw|]. unfold W31. lia.
    - apply Z.leb_gt in Q. exists [], (v_cmask (k_vm k)). rewrite app_nil_r. split; [|split; [exact Pw|lia]]. destruct k as [s0 ? ? ? ? ? ? ? ?]. destruct s0. reflexivity. }
  unfold kbind at 1. rewrite E. clear E. unfold kbind at 1, kgets at 1. ks. vs. unfold kbind at 1, klift at 1. rewrite wr_ok by (vs; lia).
  unfold kbind at 1, kvm at 1, modify at 1. ks. unfold kbind at 1, kgets at 1. ks.
  assert (u32 (k_w k + 1) = k_w k + 1) as Eu by (apply u32_id; unfold is_u32, W32; lia). rewrite Eu.
  eexists. split.
  - unfold kbind at 1. instantiate (1 := set_k_w (k_w k + 1) (set_k_vm (set_code (zupd (v_code (k_vm k) ++ x) (k_w k) w) (set_cmask (zlen (v_code (k_vm k) ++ x) - 1) (set_code (v_code (k_vm k) ++ x) (k_vm k)))) k)).
    destruct Ad as [-> | Ec]; [destruct (k_ctx k)|rewrite Ec]; reflexivity.
  - split; [|split].
    + unfold room. ks. vs. rewrite zlen_zupd. split; [exact P2|]. split; [reflexivity|]. lia.
    + unfold wrote. ks. vs. split; [reflexivity|]. split; [reflexivity|]. split; [reflexivity|]. split.
      * intros i Hi. rewrite znth_zupd_other by lia. apply znth_app_l. lia.
      * apply znth_zupd_same. lia.
    + ks. reflexivity.
Qed.

(** Finishing the program goes well after any scripts, rejected ones included. *)
Theorem C73_finalize l k k' : idle k -> compiles l k k' -> zlen (v_code (k_vm k')) <= 2 ^ 26 ->
  exists k2, finalize k' = Ok (tt, k2) /\ finished k' k2.
Proof.
  intros Id C L. pose proof (C73_idle _ _ _ Id C) as I1. clear Id C. rename k' into k0. destruct (id_scope _ I1) as (c & Ec & Lc & Fc).
  change (2 ^ 26) with 67108864 in L. pose proof (id_w _ I1) as Rw.
  destruct (pfin_run _ _ I1 Ec ltac:(change (2 ^ 30) with 1073741824; lia)) as (x & m & E1 & P2 & Em & Lx).
  destruct (C73_runnable [] k0 k0 I1 (cs_none k0) ltac:(change (2 ^ 30) with 1073741824; lia)) as (k1 & E1' & Mr). rewrite E1 in E1'. injection E1' as E1'.
  assert (k_ctx k1 = [c] /\ zlen (v_code (k_vm k1)) <= 2 * zlen (v_code (k_vm k0))) as [Ec1 Lz].
  { rewrite <- E1'. ks. vs. split; [exact Ec|]. rewrite zlen_zupd. exact Lx. }
  assert (znth (v_code (k_vm k1)) (k_w k0) = Some OP_END) as End.
  { rewrite <- E1'. ks. vs. apply znth_zupd_same. rewrite zlen_app. pose proof (zlen_nonneg x). lia. }
  rewrite E1' in E1. clear E1' x m P2 Em Lx. pose proof (mr_idle _ _ Mr) as I2. pose proof (mr_next _ _ Mr) as Nx. pose proof (mr_errs _ _ Mr) as Er. pose proof (mr_names _ _ Mr) as Nm. pose proof (kp_code _ _ _ (ud_kept _ _ _ (mr_rest _ _ Mr))) as Co. clear Mr.
  unfold finalize. unfold kbind at 1, kgets at 1. rewrite Ec. unfold kbind at 1, kret at 1. unfold kbind at 1, kgets at 1. rewrite Ec. cbn [length Nat.sub pop_contexts]. unfold kbind at 1, kret at 1.
  unfold kbind at 1. rewrite E1. unfold kbind at 1, kgets at 1. rewrite Ec1. cbn [length pop_contexts].
  set (k2 := set_k_ctx [] k1).
  assert (room (134217728) k2) as R2. { unfold room, k2. ks. split; [apply (id_pow _ I2)|]. split; [apply (id_mask _ I2)|]. split; [apply (id_w _ I2)|lia]. }
  assert (exists k3, (pop_context ;~ kret tt) k1 = Ok (tt, k3) /\ room 1073741824 k3 /\ k_ctx k3 = [] /\ v_errs (k_vm k3) = v_errs (k_vm k1) /\ v_globals (k_vm k3) = v_globals (k_vm k1) /\
    (forall i, i < k_w k1 -> znth (v_code (k_vm k3)) i = znth (v_code (k_vm k1)) i) /\
    (k_w k3 = k_w k1 \/ exists n, n <> 0 /\ k_w k3 = k_w k1 + 3 /\ znth (v_code (k_vm k3)) (k_w k1) = Some OP_LIT_INT /\ znth (v_code (k_vm k3)) (k_w k1 + 1) = Some (u32 n) /\ znth (v_code (k_vm k3)) (k_w k1 + 2) = Some OP_POPN)) as (k3 & E3 & R3 & C3 & Er3 & Gl3 & Co3 & W3).
  { unfold pop_context. unfold kbind at 1. unfold kbind at 1, kgets at 1. rewrite Ec1. unfold kbind at 1, kmod at 1. fold k2. set (n := pop_count (cc_vars c)). destruct (n =? 0) eqn:Q.
    - exists k2. split; [reflexivity|]. split; [destruct R2 as (r1 & r2 & r3 & r4); repeat split; auto; lia|]. unfold k2. ks. repeat split; auto.
    - apply Z.eqb_neq in Q. destruct (word_run _ OP_LIT_INT k2 false R2 ltac:(change (2 ^ 30) with 1073741824; lia) (or_introl eq_refl)) as (a & Ea & Ra & (a1 & a2 & a3 & a4 & a5) & Ca).
      destruct (word_run _ (u32 n) a false Ra ltac:(change (2 ^ 30) with 1073741824; lia) (or_introl eq_refl)) as (b & Eb & Rb & (b1 & b2 & b3 & b4 & b5) & Cb).
      destruct (word_run _ OP_POPN b false Rb ltac:(change (2 ^ 30) with 1073741824; lia) (or_introl eq_refl)) as (d & Ed & Rd & (d1 & d2 & d3 & d4 & d5) & Cd).
      exists d. unfold push_lit_int, add_op. unfold kbind at 1. unfold kbind at 1. rewrite Ea, Eb, Ed. split; [reflexivity|]. split; [exact Rd|].
      change (k_w k2) with (k_w k1) in *. split; [rewrite Cd, Cb, Ca; reflexivity|]. split; [rewrite d1, b1, a1; reflexivity|]. split; [rewrite d2, b2, a2; reflexivity|].
      split; [intros i Hi; rewrite d4, b4, a4 by lia; reflexivity|]. right. exists n. split; [exact Q|]. split; [lia|].
      split; [rewrite d4, b4 by lia; exact a5|]. rewrite a3 in *. split; [rewrite d4 by lia; exact b5|]. rewrite b3 in d5. rewrite <- d5. f_equal. lia. }
  unfold kbind at 1. rewrite E3. unfold add_op.
  destruct (word_run _ OP_END k3 true R3 ltac:(change (2 ^ 30) with 1073741824; lia) (or_intror C3)) as (k4 & E4 & R4 & (f1 & f2 & f3 & f4 & f5) & C4).
  exists k4. split; [exact E4|]. assert (k_w k0 <= k_w k3) as Le by (destruct W3 as [?|(n & _ & ? & _)]; lia). constructor.
  - rewrite f1, Er3, Er. reflexivity.
  - intros i Hi. rewrite f4, Co3 by lia. exact (Co i Hi).
  - intros c' Ec'. rewrite f2, Gl3. apply Nm. exact Ec'.
  - rewrite C4. exact C3.
  - rewrite f3. replace (k_w k3 + 1 - 1) with (k_w k3) by lia. exact f5.
  - rewrite Nx in W3. destruct W3 as [W3|(n & Nz & W3 & x1 & x2 & x3)]; [left; lia|]. right. exists n. split; [exact Nz|]. split; [lia|]. rewrite !f4 by lia. auto.
Qed.
Print Assumptions C73_finalize.

Lemma kept_names w a b : kept w a b -> kept_but_names w a b.
Proof. intro K. unfold kept_but_names. rewrite (kp_names _ _ _ K). destruct a; exact K. Qed.
Lemma kept_set_names g w a b : kept w a b -> kept w (set_globals g a) (set_globals g b).
Proof. intros [A1 A2 A3 A4 A5 A6 A7 A8 A9 A10 A11 A12 A13 A14 A15 A16 A17 A18 A19]. constructor; vs; auto. Qed.
Lemma kept_names_trans w w1 a b c : w <= w1 -> kept_but_names w a b -> kept_but_names w1 b c -> kept_but_names w a c.
Proof. unfold kept_but_names. intros L A B. eapply kept_trans; [exact L| |exact B]. apply (kept_set_names (v_globals c)) in A. exact A. Qed.
(** Any number of turns of an interactive host that drops what it does not
    like. *)
Theorem C73_turns k k' : idle k -> vm_ok (k_vm k) -> turns k k' ->
  kept_but_names (k_w k) (k_vm k) (k_vm k') /\ k_w k <= k_w k' /\ idle k'.
Proof.
  intros Id [b Wf] T. destruct (w_chain _ _ _ Wf) as (ch & Ch & _). clear b Wf. revert ch Ch Id.
  induction T as [k|text fname fuel b k k1 k2 Sc E _ IH|text fname fuel b k k1 k2 k3 Sc E Ec _ IH|u k k1 k2 Lz E _ IH]; intros ch Ch Id.
  - split; [apply kept_names, kept_refl|]. split; [lia|exact Id].
  - assert (compiles [(text, fname)] k k1) as C by (eapply cs_one; eauto; constructor). destruct (C73_undisturbed _ _ _ Id C) as [U W].
    destruct (IH ch) as (K & L & I2); [rewrite (ud_ctxs _ _ _ U), (ud_cur _ _ _ U); exact Ch|eapply script_idle; eauto|].
    split; [eapply kept_names_trans; [|apply kept_names, (ud_kept _ _ _ U)|exact K]; lia|]. split; [lia|exact I2].
  - assert (compiles [(text, fname)] k k1) as C by (eapply cs_one; eauto; constructor). destruct (C73_undisturbed _ _ _ Id C) as [U W].
    rewrite <- (ud_ctxs _ _ _ U), <- (ud_cur _ _ _ U) in Ch. pose proof (id_w _ Id) as Rw.
    destruct (clear_kept _ _ _ ch Id C Ch) as (k2' & E2 & S2 & K2). rewrite Ec in E2. injection E2 as <-.
    pose proof (script_idle _ _ _ _ _ _ Id Sc E) as I1. pose proof (so_next _ _ _ S2) as Nx. pose proof (so_rest _ _ _ S2) as Rs. pose proof (so_rest_vm _ _ _ S2) as Rv.
    assert (exists c2, znth (v_ctxs (k_vm k2)) 0 = Some (Some c2) /\ c_parent c2 = None) as (c2 & H0 & P0).
    { destruct (clear_run k1 (k_w k) ch Ch ltac:(lia)) as (cs & E3 & _ & H0 & _). rewrite Ec in E3. injection E3 as ->. exists (set_c_ip (k_w k) ctx_init). ks. vs. split; [exact H0|reflexivity]. }
    assert (idle k2) as I2.
    { constructor; rewrite ?(so_code_len _ _ _ S2), ?Nx.
      - apply (id_pow _ I1).
      - rewrite Rv. apply (id_mask _ I1).
      - lia.
      - rewrite Rs. apply (id_scope _ I1).
      - rewrite Rv. apply (id_strs _ I1).
      - exists c2. rewrite (so_cur _ _ _ S2). exact H0. }
    destruct (IH [0]) as (K & L & I3); [rewrite (so_cur _ _ _ S2); econstructor; eauto|exact I2|].
    split; [eapply kept_names_trans; [|apply kept_names, K2|exact K]; lia|]. split; [lia|exact I3].
  - destruct (C73_runnable [] k k Id (cs_none k) Lz) as (k1' & E1 & Mr). rewrite E in E1. injection E1 as _ <-. pose proof (mr_rest _ _ Mr) as U. pose proof (mr_next _ _ Mr) as Nx.
    destruct (IH ch) as (K & L & I2); [rewrite (ud_ctxs _ _ _ U), (ud_cur _ _ _ U); exact Ch|apply (mr_idle _ _ Mr)|]. rewrite Nx in K, L.
    split; [eapply kept_names_trans; [|exact (ud_kept _ _ _ U)|exact K]; lia|]. split; [lia|exact I2].
Qed.
Print Assumptions C73_turns.

(** The hypotheses, in a machine in which a coroutine runs, with a script that
    is rejected after a function, loops and a variable have been compiled. *)
Definition lv_k : comp := set_k_w 30 rp_co.
Definition lv_bad : bytes := bs "function f(n) { while (n) { if (n > 3) { break; } n = n - 1; } return n; } var s = ""hi""; s = ;".
Lemma ok_ex {A} (r : res A) : match r with Ok _ => True | Ub _ => False end -> exists a, r = Ok a.
Proof. destruct r; [eauto|tauto]. Qed.
Lemma lv_idle : idle lv_k.
Proof.
  constructor.
  - exists 5. split; [lia|]. vm_compute. reflexivity.
  - vm_compute. reflexivity.
  - vm_compute. split; [discriminate|reflexivity].
  - eexists. vm_compute. repeat split.
  - destruct (co_ok co_code 9 co_pow) as [b Wf]. exact (sw_tab _ _ (w_str _ _ _ Wf)).
  - eexists. vm_compute. reflexivity.
Qed.
Example C73_case : idle lv_k /\ vm_ok (k_vm lv_k) /\ exists k', compiles [(lv_bad, bs "f")] lv_k k'.
Proof.
  split; [exact lv_idle|]. split; [exact (co_ok co_code 9 co_pow)|].
  destruct (ok_ex (compile_script 1000 lv_bad (bs "f") lv_k)) as [[b k'] E]; [vm_compute; exact I|]. exists k'. eapply cs_one; [|exact E|constructor].
  unfold script. repeat (constructor; [discriminate|]). constructor.
Qed.
(** It is rejected, the function and the string it began with stay behind. *)
Example C73_values :
  match compile_script 1000 lv_bad (bs "f") lv_k with
  | Ok (b, k') => (b, length (v_errs (k_vm k')), v_cur (k_vm k'), zlen (v_funcs (k_vm k')) - zlen (v_funcs (k_vm lv_k)), 30 <? k_w k') = (false, 1%nat, 1, 1, true)
  | Ub _ => False
  end.
Proof. vm_compute. reflexivity. Qed.

(** Two turns: this script is dropped, the next one is accepted and begins where
    the dropped one began. *)
Definition lv_drop : res comp := match compile_script 1000 lv_bad (bs "f") lv_k with Ok (_, k1) => match clear_repl 30 k1 with Ok (_, k2) => Ok k2 | Ub u => Ub u end | Ub u => Ub u end.
Example C73_turns_case : exists k', turns lv_k k'.
Proof.
  destruct (ok_ex (compile_script 1000 lv_bad (bs "f") lv_k)) as [[b k1] E]; [vm_compute; exact I|].
  assert (compiles [(lv_bad, bs "f")] lv_k k1) as C. { eapply cs_one; [|exact E|constructor]. unfold script. repeat (constructor; [discriminate|]). constructor. }
  destruct (C73_rejected _ _ _ lv_idle (co_ok co_code 9 co_pow) C) as (k2 & E2 & _).
  exists k2. eapply tn_dropped; [|exact E|exact E2|constructor]. unfold script. repeat (constructor; [discriminate|]). constructor.
Qed.
Example C73_turns_values :
  match lv_drop with
  | Ok k2 => match compile_script 1000 (bs "var q = 1;") (bs "g") k2 with
             | Ok (b, k3) => (b, length (v_errs (k_vm k3)), k_w k2, 30 <? k_w k3, length (k_ctx k3)) = (true, 0%nat, 30, true, 1%nat)
             | Ub _ => False
             end
  | Ub _ => False
  end.
Proof. vm_compute. reflexivity. Qed.

(** Made runnable although the script was rejected in the middle of it. *)
Example C73_runnable_values :
  match compile_script 1000 lv_bad (bs "f") lv_k with
  | Ok (b, k') => match partially_finalize k' with
                  | Ok (_, k2) => (b, zlen (v_code (k_vm k')) <=? 2 ^ 30, k_w k2 =? k_w k', length (v_globals (k_vm k2))) = (false, true, true, 2%nat)
                  | Ub _ => False
                  end
  | Ub _ => False
  end.
Proof. vm_compute. reflexivity. Qed.

(** And finished: one more word, no error beyond the one of the script. *)
Example C73_finalize_values :
  match compile_script 1000 lv_bad (bs "f") lv_k with
  | Ok (b, k') => match finalize k' with
                  | Ok (_, k2) => (b, zlen (v_code (k_vm k')) <=? 2 ^ 26, k_w k2 - k_w k', length (v_errs (k_vm k2)), length (k_ctx k2)) = (false, true, 1, 1%nat, 0%nat)
                  | Ub _ => False
                  end
  | Ub _ => False
  end.
Proof. vm_compute. reflexivity. Qed.

(** What does not hold: that the end of the program is still there after a
    rejected script.  Words that were written stay, so a program let on without
    clearing would run into the beginning of the rejected script. *)
Definition lv_1 : comp := runnable (compiled (bs "var a = 1;") se_k0).
Theorem C73_end_refuted : ~ (forall fuel text fname b k k', script text -> compile_script fuel text fname k = Ok (b, k') -> b = false ->
  znth (v_code (k_vm k)) (k_w k) = Some OP_END -> znth (v_code (k_vm k')) (k_w k) = Some OP_END).
Proof.
  intro H. assert (match compile_script 1000 (bs "a = 2; a = ;") (bs "f") lv_1 with Ok (b, k') => b = false /\ znth (v_code (k_vm lv_1)) (k_w lv_1) = Some OP_END /\ znth (v_code (k_vm k')) (k_w lv_1) <> Some OP_END | Ub _ => False end) as X.
  { vm_compute. repeat split. discriminate. }
  destruct (ok_ex (compile_script 1000 (bs "a = 2; a = ;") (bs "f") lv_1)) as [[b k'] E].
  - revert X. generalize (compile_script 1000 (bs "a = 2; a = ;") (bs "f") lv_1). intros [[? ?]|?]; auto.
  - rewrite E in X. destruct X as (Xb & X1 & X2). apply X2. eapply H; [|exact E|exact Xb|exact X1]. unfold script. repeat (constructor; [discriminate|]). constructor.
Qed.
Print Assumptions C73_end_refuted.
