(** * SliceProofs: slices against a run in one go *)

From Coq Require Import ZArith List Lia Bool.
From Verif Require Import Base BaseFacts State MonadFacts StackModel VmModel OpSpec FrameProofs CtxProofs OpProofs RegProofs SliceSpec.
Import ListNotations.
Open Scope Z_scope.

Lemma cur_ctx_inv s c s1 : cur_ctx s = Ok (c, s1) -> s1 = s /\ znth (v_ctxs s) (v_cur s) = Some (Some c).
Proof.
  unfold cur_ctx, mbind, gets, get_ctx. destruct (znth (v_ctxs s) (v_cur s)) as [[c'|]|]; [|discriminate..].
  intro E. injection E as <- <-. auto.
Qed.
Lemma ended_fetch s b s1 : program_has_ended s = Ok (b, s1) -> s1 = s /\ exists w, fetch s = Ok (w, s) /\ b = (w =? OP_END).
Proof.
  unfold program_has_ended. intro E. destruct (bind_inv _ _ _ _ _ E) as (w & s2 & A & B). pose proof (fetch_inv _ _ _ A). subst s2.
  unfold ret in B. injection B as <- <-. eauto.
Qed.
Lemma fetch_ended s w : fetch s = Ok (w, s) -> program_has_ended s = Ok (w =? OP_END, s).
Proof. intro F. unfold program_has_ended. rewrite (bind_run _ _ _ _ _ F). reflexivity. Qed.

(** Adding multiples of 2^32 to an address does not matter. *)
Lemma land_u32 a m : 0 <= m < W32 -> Z.land (u32 a) m = Z.land a m.
Proof.
  intro R. unfold u32, W32 in *. change 4294967296 with (2 ^ 32) in *. rewrite <- Z.land_ones by lia. rewrite <- Z.land_assoc. f_equal.
  rewrite Z.land_comm, Z.land_ones by lia. apply Z.mod_small. lia.
Qed.

Section Slice.
Variable hostmark : Z -> Z -> option Z -> list value.
Variable host : Z -> list value -> M value.
Notation iterate := (iterate hostmark host).
Notation iterate_n := (iterate_n hostmark host).
Notation execute := (execute hostmark host).
Notation sliced := (sliced hostmark host).
Notation did := (did hostmark host).

(** The end of the program, executed. *)
Lemma end_tick u t : program_has_ended u = Ok (true, u) -> iterate u = Ok (tt, t) ->
  exists go t1, tick hostmark u = Ok (go, t1) /\ v_code t1 = v_code u /\ v_cmask t1 = v_cmask u /\
    if go then (op_end ;;; ip <- get_ip ;; set_ip (u32 (ip + 1))) t1 = Ok (tt, t) else t = t1.
Proof.
  intros E I. destruct (ended_fetch _ _ _ E) as (_ & w & F & W). symmetry in W. apply Z.eqb_eq in W. subst w.
  unfold VmModel.iterate in I. rewrite (bind_run _ _ _ _ _ F) in I.
  destruct (bind_inv _ _ _ _ _ I) as (go & t1 & T & J). clear I. exists go, t1. split; [exact T|].
  assert (forall g, tick hostmark u = Ok (g, t1) -> v_code t1 = v_code u /\ v_cmask t1 = v_cmask u) as K.
  { intros g Tg. clear - Tg. unfold tick in Tg. unfold mbind at 1, modify at 1 in Tg. unfold mbind at 1, self, gets in Tg. vsin Tg.
    destruct (negb _); [unfold ret in Tg; injection Tg as _ <-; auto|].
    destruct (bind_inv _ _ _ _ _ Tg) as (g2 & s4 & E5 & E6). clear Tg.
    assert (v_code s4 = v_code u /\ v_cmask s4 = v_cmask u) as [Q1 Q2].
    { destruct (v_left u =? INVALID); [unfold ret in E5; injection E5 as _ <-; auto|].
      destruct (v_left u <? v_gcint u).
      - destruct (bind_inv _ _ _ _ _ E5) as (u' & s5 & E7 & E8). unfold mbind, modify, ret in E8. injection E8 as _ <-. destruct (err_inv _ _ _ _ E7) as (e & ->). auto.
      - unfold mbind, modify, ret in E5. injection E5 as _ <-. auto. }
    rewrite <- Q1, <- Q2. destruct g2; [|unfold ret in E6; injection E6 as _ <-; auto].
    destruct (bind_inv _ _ _ _ _ E6) as (u' & s5 & E7 & E8). unfold mbind, modify, ret in E8. injection E8 as _ <-. vs.
    destruct (v_newcount u =? 0); [|unfold ret in E7; injection E7 as _ <-; auto].
    destruct (bind_inv _ _ _ _ _ E7) as (u2 & s6 & E9 & EA). unfold modify in EA. injection EA as _ <-. vs.
    pose proof (k_gc hostmark _ _ _ E9) as K. split; [apply (st_code _ _ K)|apply (st_cmask _ _ K)]. }
  destruct (K _ T) as [Q1 Q2]. split; [exact Q1|]. split; [exact Q2|].
  destruct go; [exact J|]. unfold ret in J. injection J as <-. reflexivity.
Qed.

(** Where it leads: the counters of the collector and the errors apart, only
    unreachable objects can go. *)
Lemma end_inv u t : program_has_ended u = Ok (true, u) -> iterate u = Ok (tt, t) -> 0 <= v_cmask u < W32 ->
  program_has_ended t = Ok (true, t) /\ (forall l, stack_is u l -> stack_is t l) /\
  (exists e, v_errs t = v_errs u ++ e).
Proof.
  intros E I Rm. destruct (end_tick _ _ E I) as (go & t1 & T & Q1 & Q2 & J).
  destruct (ended_fetch _ _ _ E) as (_ & w & F & W). symmetry in W. apply Z.eqb_eq in W. subst w.
  unfold fetch in F. destruct (bind_inv _ _ _ _ _ F) as (c & u' & Cu & F2). clear F. destruct (cur_ctx_inv _ _ _ Cu) as [-> Hc]. clear Cu.
  unfold mbind, self, gets, lift in F2. destruct (rd (v_code u) (Z.land (c_ip c) (v_cmask u))) as [w|] eqn:Rd; [|discriminate]. injection F2 as ->.
  assert (forall t', v_code t' = v_code u -> v_cmask t' = v_cmask u -> forall c', znth (v_ctxs t') (v_cur t') = Some (Some c') -> Z.land (c_ip c') (v_cmask u) = Z.land (c_ip c) (v_cmask u) ->
    program_has_ended t' = Ok (true, t')) as Fin.
  { intros t' A1 A2 c' Hc' Ip. change true with (OP_END =? OP_END). apply fetch_ended. unfold fetch. rewrite (bind_run _ _ _ _ _ (cur_ctx_ok _ _ Hc')).
    unfold mbind, self, gets, lift. rewrite A1, A2, Ip, Rd. reflexivity. }
  (* the counters *)
  assert (exists e, v_errs t1 = v_errs u ++ e /\
            (go = false -> v_ctxs t1 = v_ctxs u /\ v_cur t1 = v_cur u)) as (e & Ee & Eg).
  { clear - T. unfold tick in T. unfold mbind at 1, modify at 1 in T. unfold mbind at 1, self, gets in T. vsin T.
    destruct (negb _); [unfold ret in T; injection T as <- <-; exists []; rewrite app_nil_r; split; [reflexivity|discriminate]|].
    destruct (bind_inv _ _ _ _ _ T) as (g2 & s4 & E5 & E6). clear T.
    assert (exists e, v_errs s4 = v_errs u ++ e /\ v_ctxs s4 = v_ctxs u /\ v_cur s4 = v_cur u) as (e & A1 & A3 & A4).
    { destruct (Z.eqb_spec (v_left u) INVALID) as [Q|Q]; [unfold ret in E5; injection E5 as _ <-; exists []; rewrite app_nil_r; auto|].
      destruct (v_left u <? v_gcint u).
      - destruct (bind_inv _ _ _ _ _ E5) as (u' & s5 & E7 & E8). unfold mbind, modify, ret in E8. injection E8 as _ <-. destruct (err_inv _ _ _ _ E7) as (e & ->).
        exists [e]. vs. auto.
      - unfold mbind, modify, ret in E5. injection E5 as _ <-. exists []. rewrite app_nil_r. auto. }
    destruct g2; [|unfold ret in E6; injection E6 as <- <-; exists e; auto].
    destruct (bind_inv _ _ _ _ _ E6) as (u' & s5 & E7 & E8). unfold mbind, modify, ret in E8. injection E8 as <- <-. vs.
    assert (exists e', v_errs s5 = v_errs s4 ++ e') as (e' & Q).
    { destruct (v_newcount u =? 0); [|unfold ret in E7; injection E7 as _ <-; exists []; rewrite app_nil_r; auto].
      destruct (bind_inv _ _ _ _ _ E7) as (u2 & s6 & E9 & EA). unfold modify in EA. injection EA as _ <-. vs.
      exact (st_errs _ _ (k_gc hostmark _ _ _ E9)). }
    exists (e ++ e'). split; [rewrite Q, A1, app_assoc; reflexivity|discriminate]. }
  pose proof (l_tick false hostmark _ _ _ T) as Lc. destruct (lc_here _ _ _ Lc _ Hc) as (y & Hy & Ky). cbv iota in Ky.
  pose proof (lc_cur _ _ _ Lc) as Ec.
  destruct go.
  - unfold op_end in J. destruct (bind_inv _ _ _ _ _ J) as ([] & t2 & J1 & J2). clear J.
    destruct (bind_inv _ _ _ _ _ J1) as (sz & t3 & S1 & J3). clear J1. unfold stack_size in S1. destruct (bind_inv _ _ _ _ _ S1) as (c1 & t4 & S2 & S3). clear S1.
    destruct (cur_ctx_inv _ _ _ S2) as [-> Hc1]. unfold ret in S3. injection S3 as <- <-. clear S2.
    rewrite Ec, Hy in Hc1. injection Hc1 as ->. destruct Ky as [Ky|Ky]; [|discriminate]. injection Ky as ->.
    destruct (bind_inv _ _ _ _ _ J3) as ([] & t5 & J4 & J5). clear J3.
    assert (exists e', t5 = set_errs (v_errs t1 ++ e') t1) as (e' & ->).
    { destruct (Z.eqb_spec (k_size (c_stack c)) 0) as [Q|Q].
      - unfold ret in J4. injection J4 as <-. exists []. rewrite app_nil_r. destruct t1; reflexivity.
      - destruct (err_inv _ _ _ _ J4) as (x & ->). exists [x]. reflexivity. }
    set (t6 := set_errs (v_errs t1 ++ e') t1) in *.
    assert (znth (v_ctxs t6) (v_cur t6) = Some (Some c)) as H6 by (unfold t6; vs; rewrite Ec; exact Hy).
    unfold get_ip in J5, J2. unfold mbind at 1 in J5. rewrite (bind_run _ _ _ _ _ (cur_ctx_ok _ _ H6)) in J5. unfold ret at 1 in J5.
    unfold set_ip in J5. rewrite (mod_cur_ok _ _ _ H6) in J5. injection J5 as <-.
    pose proof (znth_some_range _ _ _ H6) as Rg.
    match type of J2 with _ ?z = _ => set (t7 := z) in * end.
    assert (znth (v_ctxs t7) (v_cur t7) = Some (Some (set_c_ip (u32 (c_ip c - 1)) c))) as H7.
    { unfold t7. vs. apply znth_zupd_same. exact Rg. }
    unfold mbind at 1 in J2. rewrite (bind_run _ _ _ _ _ (cur_ctx_ok _ _ H7)) in J2. unfold ret at 1 in J2.
    unfold set_ip in J2. rewrite (mod_cur_ok _ _ _ H7) in J2. injection J2 as <-.
    match goal with |- program_has_ended ?z = _ /\ _ => set (t8 := z) end.
    pose proof (znth_some_range _ _ _ H7) as Rg7.
    assert (znth (v_ctxs t8) (v_cur t8) = Some (Some (set_c_ip (u32 (u32 (c_ip c - 1) + 1)) c))) as H8.
    { unfold t8. vs. rewrite znth_zupd_same by exact Rg7. destruct c; reflexivity. }
    split; [|split].
    + apply (Fin t8) with (c' := set_c_ip (u32 (u32 (c_ip c - 1) + 1)) c); [exact Q1|exact Q2|exact H8|].
      change (c_ip (set_c_ip (u32 (u32 (c_ip c - 1) + 1)) c)) with (u32 (u32 (c_ip c - 1) + 1)).
      replace (u32 (u32 (c_ip c - 1) + 1)) with (u32 (c_ip c)); [apply land_u32, Rm|].
      unfold u32. rewrite Zplus_mod_idemp_l. f_equal. lia.
    + intros l (c2 & A & B). rewrite Hc in A. injection A as <-. eexists. split; [exact H8|]. exact B.
    + exists (e ++ e'). change (v_errs t8) with (v_errs t1 ++ e'). rewrite Ee, app_assoc. reflexivity.
  - subst t1. destruct (Eg eq_refl) as [G1 G2]. split; [|split].
    + apply (Fin t) with (c' := c); auto. rewrite G1, G2. exact Hc.
    + intros l (c2 & A & B). exists c2. rewrite G1, G2. auto.
    + exists e. auto.
Qed.

(** ** Counting *)

Lemma did_iter n f s u : did n s u -> iterate_n (n + f) s = iterate_n f u.
Proof.
  induction 1 as [|n s s1 t E N I D IH]; [reflexivity|]. cbn [Nat.add VmModel.iterate_n].
  destruct (ended_fetch _ _ _ E) as (_ & w & F & W). rewrite (bind_run _ _ _ _ _ F), <- W. unfold mbind at 1, self, gets. rewrite N.
  rewrite (bind_run _ _ _ _ _ I). exact IH.
Qed.
Lemma did_execute n f s u : did n s u -> has_errors u = false -> execute (n + f) s = execute f u.
Proof.
  intros D Nu. induction D as [|n s s1 t E N I D IH]; [reflexivity|]. cbn [Nat.add VmModel.execute].
  destruct (ended_fetch _ _ _ E) as (_ & w & F & W). rewrite (bind_run _ _ _ _ _ F), <- W.
  rewrite (bind_run _ _ _ _ _ I). unfold mbind at 1, self, gets. replace (has_errors s1) with false; [exact (IH Nu)|].
  destruct D; auto.
Qed.
Lemma did_failed n s u : did n s u -> has_errors s = false -> has_errors u = true -> execute n s = Ok (Some false, u).
Proof.
  induction 1 as [s|n s s1 t E N I D IH]; intros Ns Nu; [congruence|]. cbn [VmModel.execute].
  destruct (ended_fetch _ _ _ E) as (_ & w & F & W). rewrite (bind_run _ _ _ _ _ F), <- W.
  rewrite (bind_run _ _ _ _ _ I). unfold mbind at 1, self, gets. destruct (has_errors s1) eqn:Q; [|auto].
  inversion D; subst; [reflexivity|congruence].
Qed.
Lemma did_split a b s u : did (a + b) s u -> exists v, did a s v /\ did b v u.
Proof.
  revert s. induction a as [|a IH]; intros s D; [exists s; split; [constructor|exact D]|]. cbn [Nat.add] in D. inversion D as [|n s0 s1 t E N I D1]; subst.
  destruct (IH _ D1) as (v & A & B). exists v. split; [econstructor; eauto|exact B].
Qed.
Lemma did_trans a b s v u : did a s v -> did b v u -> did (a + b) s u.
Proof. induction 1 as [|n s s1 t E N I D IH]; intro H; [exact H|]. cbn [Nat.add]. econstructor; eauto. Qed.

Lemma exec_did n s r u : has_errors s = false -> execute n s = Ok (r, u) ->
  exists k, (k <= n)%nat /\ did k s u /\
    match r with
    | None => k = n /\ has_errors u = false /\ program_has_ended u = Ok (false, u)
    | Some true => has_errors u = false /\ program_has_ended u = Ok (true, u)
    | Some false => has_errors u = true
    end.
Proof.
  revert s. induction n as [|n IH]; intros s N E; cbn [VmModel.execute] in E; destruct (bind_inv _ _ _ _ _ E) as (w & s1 & F & E2); clear E; pose proof (fetch_inv _ _ _ F); subst s1;
    pose proof (fetch_ended _ _ F) as P; destruct (w =? OP_END).
  - unfold ret in E2. injection E2 as <- <-. exists 0%nat. split; [lia|]. split; [constructor|auto].
  - unfold ret in E2. injection E2 as <- <-. exists 0%nat. split; [lia|]. split; [constructor|auto].
  - unfold ret in E2. injection E2 as <- <-. exists 0%nat. split; [lia|]. split; [constructor|auto].
  - destruct (bind_inv _ _ _ _ _ E2) as ([] & s1 & I & E3). unfold mbind at 1, self, gets in E3. destruct (has_errors s1) eqn:Q.
    + unfold ret in E3. injection E3 as <- <-. exists 1%nat. split; [lia|]. split; [econstructor; eauto; constructor|exact Q].
    + destruct (IH _ Q E3) as (k & L & D & X). exists (S k). split; [lia|]. split; [econstructor; eauto|]. destruct r as [[]|]; auto. destruct X as (-> & X). auto.
Qed.

(** ** The loop *)

(** The loop only stops at the end of the program or with an error. *)
Lemma allowed_cons c r : allowed (c :: r) = (c + allowed r)%nat. Proof. reflexivity. Qed.

Definition over (s : vm) : Prop := has_errors s = true \/ program_has_ended s = Ok (true, s).

Lemma over_sliced counts s : over s -> sliced counts s = Ok (true, s).
Proof.
  intro O. assert (forall K, (s <- self ;; if has_errors s then ret true else e <- program_has_ended ;; if e then ret true else K) s = Ok (true, s)) as X.
  { intro K. unfold mbind at 1, self, gets. destruct (has_errors s) eqn:Q; [reflexivity|]. destruct O as [O|O]; [congruence|].
    rewrite (bind_run _ _ _ _ _ O). reflexivity. }
  destruct counts; apply X.
Qed.
Lemma not_over_sliced counts s : has_errors s = false -> program_has_ended s = Ok (false, s) ->
  sliced counts s = match counts with [] => Ok (false, s) | c :: r => (iterate_n c ;;; sliced r) s end.
Proof. intros N P. destruct counts; cbn [SliceSpec.sliced]; unfold mbind at 1, self, gets; rewrite N, (bind_run _ _ _ _ _ P); reflexivity. Qed.

Definition fine (s : vm) : Prop := forall k t, did k s t -> 0 <= v_cmask t < W32 /\ exists w, fetch t = Ok (w, t).
Lemma fine_did a s v : fine s -> did a s v -> fine v.
Proof. intros F D k t D2. apply (F (a + k)%nat). eapply did_trans; eauto. Qed.

Lemma did_sliced counts : forall k s u, fine s -> did k s u -> over u -> (k <= allowed counts)%nat ->
  sliced counts s = Ok (true, u) \/ (program_has_ended u = Ok (true, u) /\ sliced counts s = (iterate ;;; ret true) u).
Proof.
  induction counts as [|c r IH]; intros k s u F D O L.
  - cbn in L. assert (k = 0%nat) as -> by lia. inversion D; subst. left. apply over_sliced, O.
  - destruct D as [s|n s s1 t E N I D]; [left; apply over_sliced, O|].
    assert (did (S n) s t) as D' by (econstructor; eauto). rewrite (not_over_sliced _ _ N E). set (k := S n) in *. clearbody k. clear n I D.
    destruct (Nat.le_gt_cases c k) as [G|G].
    + replace k with (c + (k - c))%nat in D' by lia. destruct (did_split _ _ _ _ D') as (v & A & B).
      pose proof (did_iter c 0 s v A) as X. rewrite Nat.add_0_r in X. unfold mbind. rewrite X. cbn [VmModel.iterate_n]. unfold ret at 1.
      apply (IH (k - c)%nat v t); auto; [eapply fine_did; eauto|]. rewrite allowed_cons in L. lia.
    + pose proof (did_iter k (c - k) s t D') as X. replace (k + (c - k))%nat with c in X by lia. destruct (c - k)%nat as [|j] eqn:Ej; [lia|].
      assert ((iterate_n c ;;; sliced r) s = (iterate_n (S j) ;;; sliced r) t) as -> by (unfold mbind; rewrite X; reflexivity).
      destruct (F _ _ D') as (Rm & w & Fw). pose proof (fetch_ended _ _ Fw) as P.
      assert (iterate_n (S j) t = if w =? OP_END then iterate t else if has_errors t then Ok (tt, t) else (iterate ;;; iterate_n j) t) as X2.
      { cbn [VmModel.iterate_n]. rewrite (bind_run _ _ _ _ _ Fw). destruct (w =? OP_END); [reflexivity|]. unfold mbind at 1, self, gets. destruct (has_errors t); reflexivity. }
      destruct (w =? OP_END).
      * right. split; [exact P|]. unfold mbind. rewrite X2. destruct (iterate t) as [[[] t2]|] eqn:It; [|reflexivity].
        rewrite (over_sliced r t2); [reflexivity|]. right. apply (proj1 (end_inv _ _ P It Rm)).
      * left. assert (has_errors t = true) as He by (destruct O as [O|O]; [exact O|rewrite O in P; discriminate]).
        rewrite He in X2. unfold mbind. rewrite X2. apply over_sliced, O.
Qed.

Lemma sliced_did counts : forall s b t, fine s -> has_errors s = false -> sliced counts s = Ok (b, t) ->
  exists k u, (k <= allowed counts)%nat /\ did k s u /\
    if b then over u /\ (t = u \/ (program_has_ended u = Ok (true, u) /\ iterate u = Ok (tt, t)))
    else k = allowed counts /\ t = u /\ has_errors u = false /\ program_has_ended u = Ok (false, u).
Proof.
  assert (forall c s t, fine s -> iterate_n c s = Ok (tt, t) -> exists k u, (k <= c)%nat /\ did k s u /\
    ((k = c /\ t = u) \/ (has_errors u = true /\ t = u) \/ (program_has_ended u = Ok (true, u) /\ iterate u = Ok (tt, t)))) as It.
  { induction c as [|c IH]; intros s t F E; cbn [VmModel.iterate_n] in E.
    - unfold ret in E. injection E as <-. exists 0%nat, s. split; [lia|]. split; [constructor|auto].
    - destruct (bind_inv _ _ _ _ _ E) as (w & s1 & Fw & E2). clear E. pose proof (fetch_inv _ _ _ Fw). subst s1. pose proof (fetch_ended _ _ Fw) as P.
      destruct (w =? OP_END); [exists 0%nat, s; split; [lia|]; split; [constructor|auto]|].
      unfold mbind at 1, self, gets in E2. destruct (has_errors s) eqn:N.
      + unfold ret in E2. injection E2 as <-. exists 0%nat, s. split; [lia|]. split; [constructor|auto].
      + destruct (bind_inv _ _ _ _ _ E2) as ([] & s1 & I & E3).
        assert (did 1 s s1) as D1 by (econstructor; eauto; constructor).
        destruct (IH _ _ (fine_did _ _ _ F D1) E3) as (k & u & L & D & X). exists (S k), u. split; [lia|]. split; [econstructor; eauto|].
        destruct X as [[-> ->]|X]; auto. }
  induction counts as [|c r IH]; intros s b t F N E.
  - cbn [SliceSpec.sliced] in E. unfold mbind at 1, self, gets in E. rewrite N in E. destruct (bind_inv _ _ _ _ _ E) as (e & s1 & P & E2). destruct (ended_fetch _ _ _ P) as (-> & _).
    exists 0%nat, s. split; [cbn; lia|]. split; [constructor|]. destruct e; unfold ret in E2; injection E2 as <- <-; [split; [right; exact P|auto]|auto].
  - cbn [SliceSpec.sliced] in E. unfold mbind at 1, self, gets in E. rewrite N in E. destruct (bind_inv _ _ _ _ _ E) as (e & s1 & P & E2). destruct (ended_fetch _ _ _ P) as (-> & _). clear E.
    destruct e; [unfold ret in E2; injection E2 as <- <-; exists 0%nat, s; split; [lia|]; split; [constructor|]; split; [right; exact P|auto]|].
    destruct (bind_inv _ _ _ _ _ E2) as ([] & s1 & I & E3). destruct (It _ _ _ F I) as (k & u & L & D & X). clear It I E2.
    destruct X as [[-> ->]|[[He ->]|[Pe Ie]]].
    + destruct (has_errors u) eqn:He.
      * rewrite over_sliced in E3 by (left; exact He). injection E3 as <- <-. exists c, u. split; [rewrite allowed_cons; lia|]. split; [exact D|]. split; [left; exact He|auto].
      * destruct (IH _ _ _ (fine_did _ _ _ F D) He E3) as (k & v & L2 & D2 & X). exists (c + k)%nat, v. split; [rewrite allowed_cons; lia|]. split; [eapply did_trans; eauto|].
        destruct b; [exact X|]. destruct X as (-> & X). split; [reflexivity|exact X].
    + rewrite over_sliced in E3 by (left; exact He). injection E3 as <- <-. exists k, u. split; [rewrite allowed_cons; lia|]. split; [exact D|]. split; [left; exact He|auto].
    + pose proof (end_inv _ _ Pe Ie (proj1 (F _ _ D))) as (Pt & _). rewrite over_sliced in E3 by (right; exact Pt). injection E3 as <- <-.
      exists k, u. split; [rewrite allowed_cons; lia|]. split; [exact D|]. split; [right; exact Pe|auto].
Qed.
End Slice.
