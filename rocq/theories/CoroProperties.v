(** * CoroProperties: coroutines (C26, C27) *)
From Verif Require Import Base BaseFacts.
From Verif Require Import VmModel MonadFacts StackProofs ObjsProofs HostModel HostProofs VmSpec VmInv VmStep VmProperties OpProofs CtxProofs CallSpec CallProofs CoroProofs.

(** An iteration is its periodic work and then its instruction. *)
Lemma at_iterate hostmark host s op t : at_instruction hostmark s op t -> iterate hostmark host s = instruction host op t.
Proof.
  intros (w & F & -> & T). unfold iterate. rewrite (bind_run _ _ _ _ _ F), (bind_run _ _ _ _ _ T). reflexivity.
Qed.
Lemma at_ok hostmark s op t : vm_ok s -> has_errors s = false -> v_gcpass s < INVALID -> at_instruction hostmark s op t ->
  vm_ok t /\ lc false s t.
Proof.
  intros V N G (w & F & _ & T). split; [|eapply (l_tick false); eauto].
  pose proof (h_tick hostmark s (conj (clean_exact s V N) G)) as Q. rewrite T in Q. exists true. apply Q.
Qed.
(** Between two iterations nothing happens to a context but that it may be
    freed; the running one is not. *)
Lemma at_ctx hostmark s op t i w : vm_ok s -> has_errors s = false -> v_gcpass s < INVALID -> at_instruction hostmark s op t ->
  ctx_is t i w -> ctx_is s i w.
Proof.
  intros V N G A (c & Hc & R). destruct (at_ok _ _ _ _ V N G A) as (_ & L). exists c. split; auto.
  destruct (lc_back _ _ (lc_false_true _ _ L) _ _ Hc) as (c0 & H0 & _). rewrite H0.
  destruct (Z.eq_dec i (v_cur s)) as [-> |Ni].
  - destruct (lc_here _ _ _ L _ H0) as (y & Hy & [K|K]); congruence.
  - destruct (lc_other _ _ _ L _ _ Ni H0) as (y & Hy & [K|K]); congruence.
Qed.

Lemma ctx_of s i w c : ctx_is s i w -> znth (v_ctxs s) i = Some (Some c) -> kwf (c_stack c) /\ contents (c_stack c) = w_stack w /\
    c_ip c = w_ip w /\ c_parent c = w_parent w /\ c_state c = w_state w.
Proof. intros (c' & H & R) H'. rewrite H in H'. injection H' as <-. exact R. Qed.
Lemma stack_ctx s i w : v_cur s = i -> ctx_is s i w -> stack_is s (w_stack w).
Proof. intros <- (c & H & W & C & _). exists c. auto. Qed.

(** ** C26 *)

(** C26, resuming: the resumer loses the two operands, the coroutine gets the
    value on top of the stack it had and goes on after the instruction it had
    stopped at.  Nothing else changes. *)
Theorem C26_resume host s st co v i p pip pp ps cst cip :
  vm_ok s -> v_cur s = p -> ctx_is s p (mkView (st ++ [co; v]) pip pp ps) -> coroutine s co i ->
  ctx_is s i (mkView cst cip None CO_RUNNING) -> fits s (cst ++ [v]) ->
  exists s', instruction host 40 s = Ok (tt, s') /\ v_cur s' = i /\ switched s [p; i] s' /\
    ctx_is s' i (mkView (cst ++ [v]) (u32 (cip + 1)) (Some p) CO_RUNNING) /\
    ctx_is s' p (mkView st pip pp ps).
Proof.
  intros V <- Cp Co (c & Hc & Wc & Cc & Ic & Pc & Sc) F. cbn [w_stack w_ip w_parent w_state] in *.
  pose proof (stack_ctx _ _ _ eq_refl Cp) as S. cbn [w_stack] in S.
  destruct (resume_run s st co v i c cst V S Co Hc Pc Cc (or_introl (conj Sc F))) as (d & k & c' & s1 & Hd & Wk & Ck & Ni & E & Sw & W' & C' & I' & P' & S' & O').
  rewrite Sc in C'. change (CO_RUNNING =? CO_CREATED) with false in C'. cbv iota in C'.
  destruct (instruction_swap host 40 s s1 _ _ _ _ E Sw (znth_some_range _ _ _ Hc)) as (s' & E2 & Sw2).
  destruct (swap2_spec _ _ _ _ _ _ d c Sw2 (not_eq_sym Ni) Hd Hc eq_refl) as (Q1 & Q2 & Q3 & Q4). { cs. auto. }
  destruct (ctx_of _ _ _ _ Cp Hd) as (_ & _ & I0 & P0 & S0). cbn [w_stack w_ip w_parent w_state] in *.
  exists s'. split; [auto|]. split; [auto|]. split; [auto|]. split.
  - eexists. split; [exact Q4|]. cs. cbn [w_stack w_ip w_parent w_state]. rewrite I', Ic. auto 10.
  - eexists. split; [exact Q3|]. cs. auto 10.
Qed.

(** The first time, the value is dropped and the function begins. *)
Theorem C26_first_resume host s st co v i p pip pp ps cst cip :
  vm_ok s -> v_cur s = p -> ctx_is s p (mkView (st ++ [co; v]) pip pp ps) -> coroutine s co i ->
  ctx_is s i (mkView cst cip None CO_CREATED) ->
  exists s', instruction host 40 s = Ok (tt, s') /\ v_cur s' = i /\ switched s [p; i] s' /\
    ctx_is s' i (mkView cst (u32 (cip + 1)) (Some p) CO_RUNNING) /\
    ctx_is s' p (mkView st pip pp ps).
Proof.
  intros V <- Cp Co (c & Hc & Wc & Cc & Ic & Pc & Sc). cbn [w_stack w_ip w_parent w_state] in *.
  pose proof (stack_ctx _ _ _ eq_refl Cp) as S. cbn [w_stack] in S.
  destruct (resume_run s st co v i c cst V S Co Hc Pc Cc (or_intror Sc)) as (d & k & c' & s1 & Hd & Wk & Ck & Ni & E & Sw & W' & C' & I' & P' & S' & O').
  rewrite Sc in C'. change (CO_CREATED =? CO_CREATED) with true in C'. cbv iota in C'.
  destruct (instruction_swap host 40 s s1 _ _ _ _ E Sw (znth_some_range _ _ _ Hc)) as (s' & E2 & Sw2).
  destruct (swap2_spec _ _ _ _ _ _ d c Sw2 (not_eq_sym Ni) Hd Hc eq_refl) as (Q1 & Q2 & Q3 & Q4). { cs. auto. }
  destruct (ctx_of _ _ _ _ Cp Hd) as (_ & _ & I0 & P0 & S0). cbn [w_stack w_ip w_parent w_state] in *.
  exists s'. split; [auto|]. split; [auto|]. split; [auto|]. split.
  - eexists. split; [exact Q4|]. cs. cbn [w_stack w_ip w_parent w_state]. rewrite I', Ic. auto 10.
  - eexists. split; [exact Q3|]. cs. auto 10.
Qed.

(** C26, yielding: the resumer gets the yielded value on top of the stack it
    had and goes on after the resume instruction; the coroutine keeps its
    stack, less that value, and its place. *)
Theorem C26_yield host s i cst y cip cs p pst pip pp ps :
  vm_ok s -> v_cur s = i -> ctx_is s i (mkView (cst ++ [y]) cip (Some p) cs) -> ctx_is s p (mkView pst pip pp ps) ->
  fits s (pst ++ [y]) ->
  exists s', instruction host 39 s = Ok (tt, s') /\ v_cur s' = p /\ switched s [i; p] s' /\
    ctx_is s' p (mkView (pst ++ [y]) (u32 (pip + 1)) pp ps) /\
    ctx_is s' i (mkView cst cip None cs).
Proof.
  intros V <- Ci Cp F. pose proof (stack_ctx _ _ _ eq_refl Ci) as S. cbn [w_stack] in S.
  destruct Ci as (c & Hc & Wc & Cc & Ic & Pc & Sc). destruct Cp as (d & Hd & Wd & Cd & Id & Pd & Sd). cbn [w_stack w_ip w_parent w_state] in *.
  destruct (yield_run s cst y c p d pst V S Hc Pc Hd Cd F) as (k & k' & s1 & E & Wk & Ck & Wk' & Ck' & Sw).
  destruct (parent_live _ _ _ V Hc Pc) as (N & _).
  destruct (instruction_swap host 39 s s1 _ _ _ _ E Sw (znth_some_range _ _ _ Hd)) as (s' & E2 & Sw2).
  destruct (swap2_spec _ _ _ _ _ _ c d Sw2 (not_eq_sym N) Hc Hd eq_refl) as (Q1 & Q2 & Q3 & Q4). { reflexivity. }
  exists s'. split; [auto|]. split; [auto|]. split; [auto|]. split.
  - eexists. split; [exact Q4|]. cs. cbn [w_stack w_ip w_parent w_state]. rewrite Id. auto 10.
  - eexists. split; [exact Q3|]. cs. auto 10.
Qed.

(** C26, finishing: when the function the coroutine was created with returns,
    the resumer gets the returned value the same way, and the coroutine is
    finished. *)
Theorem C26_finish host s i pre fv args locals rv cip cs p pst pip pp ps :
  vm_ok s -> v_cur s = i ->
  ctx_is s i (mkView (pre ++ call_frame fv args ++ [vint INVALID] ++ locals ++ [rv; vint (zlen locals)]) cip (Some p) cs) ->
  ctx_is s p (mkView pst pip pp ps) -> fits s (pst ++ [rv]) ->
  exists s', instruction host 19 s = Ok (tt, s') /\ v_cur s' = p /\ switched s [i; p] s' /\
    ctx_is s' p (mkView (pst ++ [rv]) (u32 (pip + 1)) pp ps) /\
    ctx_is s' i (mkView pre INVALID None CO_FINISHED).
Proof.
  intros V <- Ci Cp F. pose proof (stack_ctx _ _ _ eq_refl Ci) as S. cbn [w_stack] in S.
  destruct Ci as (c & Hc & Wc & Cc & Ic & Pc & Sc). destruct Cp as (d & Hd & Wd & Cd & Id & Pd & Sd). cbn [w_stack w_ip w_parent w_state] in *.
  destruct (finish_run s pre fv args locals rv c p d pst V S Hc Pc Hd Cd F) as (k & k' & s1 & E & Wk & Ck & Wk' & Ck' & Sw).
  destruct (parent_live _ _ _ V Hc Pc) as (N & _).
  destruct (instruction_swap host 19 s s1 _ _ _ _ E Sw (znth_some_range _ _ _ Hd)) as (s' & E2 & Sw2).
  destruct (swap2_spec _ _ _ _ _ _ c d Sw2 (not_eq_sym N) Hc Hd eq_refl) as (Q1 & Q2 & Q3 & Q4). { reflexivity. }
  exists s'. split; [auto|]. split; [auto|]. split; [auto|]. split.
  - eexists. split; [exact Q4|]. cs. cbn [w_stack w_ip w_parent w_state]. rewrite Id. auto 10.
  - eexists. split; [exact Q3|]. cs. auto 10.
Qed.

(** C26, creating: a new context holding the call frame, ready to enter the
    function when resumed for the first time; a new object stands for it.  The
    other contexts and objects stay as they are. *)
Theorem C26_create host s st fv args f p pip pp ps :
  vm_ok s -> v_cur s = p -> ctx_is s p (mkView (st ++ call_frame fv args) pip pp ps) ->
  function_is s fv f -> f_ext f = INVALID -> accepts (f_argc f) (zlen args) -> is_u32 (f_first f) ->
  fits s (call_frame fv args ++ [vint INVALID]) -> (exists j, 0 <= j < W31 /\ get_obj s j = None) ->
  exists id s', let i := zlen (v_ctxs s) in
    instruction host 38 s = Ok (tt, s') /\ v_cur s' = p /\ get_obj s id = None /\ coroutine s' (vobj id) i /\
    ctx_is s' p (mkView (st ++ [vobj id]) (u32 (pip + 1)) pp ps) /\
    ctx_is s' i (mkView (call_frame fv args ++ [vint INVALID]) (u32 (f_first f - 1)) None CO_CREATED) /\
    (forall j w, j <> p -> ctx_is s j w -> ctx_is s' j w) /\ (forall j, j <> id -> get_obj s' j = get_obj s j) /\
    v_errs s' = v_errs s.
Proof.
  intros V <- Cp Fi X Ac U F Fr. pose proof (stack_ctx _ _ _ eq_refl Cp) as S. cbn [w_stack] in S.
  destruct Cp as (c & Hc & Wc & Cc & Ic & Pc & Sc). cbn [w_stack w_ip w_parent w_state] in *.
  destruct (create_run s c Hc host st fv args f V S Fi X Ac F Fr) as (id & k & X0 & t & E & G & Ct & CC & Wk & EX & Ck & Co & Ob).
  exists id. set (t' := set_ctxs (zupd (v_ctxs t) (v_cur s) (match znth (v_ctxs t) (v_cur s) with Some (Some c) => Some (set_c_ip (u32 (pip + 1)) c) | _ => None end)) t).
  destruct (cc_here _ _ _ _ _ _ CC) as (k1 & H1 & W1 & C1). pose proof (znth_some_range _ _ _ H1) as R1. pose proof (znth_some_range _ _ _ Hc) as R0.
  assert (instruction host 38 s = Ok (tt, t')) as E2.
  { unfold instruction. change (opcode host 38) with (op_coroutine_create host). rewrite (bind_run _ _ _ _ _ E).
    assert (get_ip t = Ok (pip, t)) as Gi.
    { unfold get_ip. erewrite bind_run; [|apply cur_ctx_ok; rewrite Ct; exact H1]. cs. rewrite Ic. reflexivity. }
    rewrite (bind_run _ _ _ _ _ Gi). unfold set_ip. erewrite mod_cur_ok; [|rewrite Ct; exact H1]. unfold t'. rewrite Ct, H1. reflexivity. }
  exists t'. cbv zeta. split; [auto|]. split; [exact Ct|]. split; [auto|]. split; [exact Co|].
  unfold t'. rewrite H1. split; [|split; [|split; [|split]]].
  - eexists. vs. split; [apply znth_zupd_same; auto|]. cs. auto 10.
  - exists X0. vs. rewrite znth_zupd_other by lia. split; [apply (cc_new _ _ _ _ _ _ CC)|]. rewrite EX. cbn [c_stack c_ip c_parent c_state w_stack w_ip w_parent w_state]. auto.
  - intros j w Nj (c2 & H2 & R2). exists c2. split; auto. vs. rewrite znth_zupd_other by auto.
    rewrite (cc_rest _ _ _ _ _ _ CC); auto. pose proof (znth_some_range _ _ _ H2). lia.
  - exact Ob.
  - vs. rewrite (cc_eq _ _ _ _ _ _ CC). reflexivity.
Qed.

(** C26: a context that does not run keeps its stack, its place, its resumer
    and its state through any execution, including garbage collections and
    whatever the other contexts and the host functions do. *)
Theorem C26_sleeping hostmark prog s l s' i w :
  goes hostmark (api_host hostmark prog) s l s' -> sleeps i l s' -> ctx_is s i w ->
  (exists c, znth (v_ctxs s') i = Some (Some c)) -> ctx_is s' i w.
Proof.
  intros G Sl (c & Hc & R) (c' & Hc'). destruct (goes_sleep _ _ _ _ _ _ G Sl _ Hc) as (y & Hy & K).
  rewrite Hc' in Hy. injection Hy as <-. destruct K as [K|K]; [|discriminate]. injection K as ->. exists c. auto.
Qed.

(** C26, from the coroutine's side: it yields; whatever happens while it does
    not run, when it is resumed next it finds its stack as it was, with the
    new value in place of the yielded one, at the next instruction. *)
Theorem C26_coroutine_side hostmark prog s t i cst y cip p pst pip pp ps :
  vm_ok s -> has_errors s = false -> v_gcpass s < INVALID -> at_instruction hostmark s 39 t ->
  v_cur t = i -> ctx_is t i (mkView (cst ++ [y]) cip (Some p) CO_RUNNING) -> ctx_is t p (mkView pst pip pp ps) ->
  fits t (pst ++ [y]) ->
  exists s1, iterate hostmark (api_host hostmark prog) s = Ok (tt, s1) /\ v_cur s1 = p /\
    ctx_is s1 p (mkView (pst ++ [y]) (u32 (pip + 1)) pp ps) /\
  forall l s2 t2 rst co v rip rp rstate,
    goes hostmark (api_host hostmark prog) s1 l s2 -> sleeps i l s2 -> has_errors s2 = false -> v_gcpass s2 < INVALID ->
    at_instruction hostmark s2 40 t2 -> ctx_is t2 (v_cur t2) (mkView (rst ++ [co; v]) rip rp rstate) -> coroutine t2 co i ->
    fits t2 (cst ++ [v]) ->
    exists s3, iterate hostmark (api_host hostmark prog) s2 = Ok (tt, s3) /\ v_cur s3 = i /\
      ctx_is s3 i (mkView (cst ++ [v]) (u32 (cip + 1)) (Some (v_cur t2)) CO_RUNNING) /\
      ctx_is s3 (v_cur t2) (mkView rst rip rp rstate).
Proof.
  intros V N G A Cu Ci Cp F. destruct (at_ok _ _ _ _ V N G A) as (Vt & L).
  destruct (C26_yield (api_host hostmark prog) t i cst y cip CO_RUNNING p pst pip pp ps Vt Cu Ci Cp F) as (s1 & E1 & Cu1 & Sw1 & Cp1 & Ci1).
  pose proof (at_iterate hostmark (api_host hostmark prog) _ _ _ A) as EI. rewrite E1 in EI.
  exists s1. split; [auto|]. split; [auto|]. split; [auto|]. intros l s2 t2 rst co v rip rp rstate Go Sl N2 G2 A2 Cr Co F2.
  pose proof (C18_step_safe hostmark prog s V N G) as V1. rewrite EI in V1.
  pose proof (goes_ok _ _ _ _ _ V1 Go) as V2. destruct (at_ok _ _ _ _ V2 N2 G2 A2) as (Vt2 & L2).
  destruct (coroutine_live _ _ _ Vt2 Co) as (N0 & c2 & Hc2).
  assert (v_cur t2 = v_cur s2) as Ct2 by apply L2.
  assert (ctx_is t2 i (mkView cst cip None CO_RUNNING)) as Ci2.
  { destruct (lc_back _ _ (lc_false_true _ _ L2) _ _ Hc2) as (c1 & H1 & _).
    destruct (C26_sleeping _ _ _ _ _ _ _ Go Sl Ci1) as (c3 & H3 & R3); [eauto|]. exists c3. split; auto.
    destruct (lc_other _ _ _ L2 _ _ (not_eq_sym (proj2 Sl)) H3) as (y2 & Hy2 & [K|K]); congruence. }
  destruct (C26_resume (api_host hostmark prog) t2 rst co v i (v_cur t2) rip rp rstate cst cip Vt2 eq_refl Cr Co Ci2 F2) as (s3 & E3 & Cu3 & _ & C3 & D3).
  exists s3. rewrite (at_iterate hostmark (api_host hostmark prog) _ _ _ A2). auto.
Qed.

(** C26, from the resumer's side: while a context waits for a coroutine it
    resumed, it is not touched, and the only way back to it is that this
    coroutine yields or returns (and [C26_yield] and [C26_finish] say with
    which value). *)
Theorem C26_resumer_side hostmark prog s i p wi w l s2 op t2 s3 :
  vm_ok s -> ctx_is s i wi -> w_parent wi = Some p -> ctx_is s p w ->
  goes hostmark (api_host hostmark prog) s l s2 -> sleeps p l s2 ->
  has_errors s2 = false -> v_gcpass s2 < INVALID -> at_instruction hostmark s2 op t2 ->
  iterate hostmark (api_host hostmark prog) s2 = Ok (tt, s3) -> v_cur s3 = p ->
  ctx_is t2 p w /\ v_cur t2 = i /\ (exists wi2, ctx_is t2 i wi2 /\ w_parent wi2 = Some p) /\ (op = 39 \/ op = 19).
Proof.
  intros V (c & Hc & _ & _ & _ & Pc & _) Pw (d & Hd & Rd) Go Sl N G A E Cu. rewrite Pw in Pc.
  destruct (goes_waiting _ _ _ _ _ _ _ _ _ V Go Sl Hc Pc Hd) as (c2 & Hc2 & Pc2 & Hd2).
  pose proof (goes_ok _ _ _ _ _ V Go) as V2. destruct (at_ok _ _ _ _ V2 N G A) as (Vt & L).
  pose proof (C18_step_safe hostmark prog s2 V2 N G) as V3. rewrite E in V3.
  pose proof (c_iterate _ (l_api_host hostmark prog) hostmark _ _ _ E) as C.
  pose proof (back_from _ _ _ _ _ _ V2 V3 C Hc2 Pc2 Hd2 (proj2 Sl) Cu) as Q.
  assert (v_cur t2 = i) as Qt by (rewrite <- Q; apply L).
  assert (p <> 0 -> c_parent d <> None) as Np.
  { intro Np. rewrite <- Q in Hc2. destruct (parent_live _ _ _ V2 Hc2 Pc2) as (_ & _ & d' & Hd' & Pd'). rewrite Hd2 in Hd'. injection Hd' as <-. auto. }
  assert (p <> i) as Nip. { intros ->. apply (proj2 Sl). auto. }
  destruct Vt as (bt & Wt). destruct (w_chain _ _ _ Wt) as (lt & Ch & _). rewrite Qt in Ch.
  assert (znth (v_ctxs t2) i = Some (Some c2)) as Hct.
  { destruct (chain_live _ _ _ Ch) as (c3 & H3). rewrite <- Q in Hc2. destruct (lc_here _ _ _ L _ Hc2) as (y & Hy & [K|K]); congruence. }
  assert (i <> 0) as Ni by (intros ->; pose proof (chain_root _ _ _ Ch _ Hct); congruence).
  destruct (chain_parent _ _ _ Ch _ _ (chain_head _ _ _ Ch) Ni Hct) as (q & Pq & Iq). assert (q = p) as -> by congruence.
  assert (znth (v_ctxs t2) p = Some (Some d)) as Hdt.
  { destruct (chain_in _ _ _ Ch _ Iq) as (d3 & H3). rewrite <- Q in Nip. destruct (lc_other _ _ _ L _ _ Nip Hd2) as (y & Hy & [K|K]); congruence. }
  split; [exists d; auto|]. split; [auto|]. split.
  { exists (mkView (contents (c_stack c2)) (c_ip c2) (Some p) (c_state c2)). split; [|reflexivity]. exists c2. cbn [w_stack w_ip w_parent w_state].
    split; [auto|]. split; [eapply w_stk; eauto|auto]. }
  pose proof E as E'. rewrite (at_iterate _ _ _ _ _ A) in E'. unfold instruction in E'.
  destruct (bind_inv _ _ _ _ _ E') as ([] & s4 & E4 & E5).
  assert (lc true s4 s3) as L4. { match type of E5 with ?m _ = _ => assert (lcl true m) as Lm by loc; exact (Lm _ _ _ E5) end. }
  destruct (in_dec Z.eq_dec op [19; 38; 39; 40]) as [I|I].
  - destruct I as [<-|[<-|[<-|[<-|[]]]]]; auto; exfalso.
    + apply (create_cur _ _ _ _ (l_api_host hostmark prog)) in E4. rewrite (lc_cur _ _ _ L4) in Cu. congruence.
    + destruct (resume_cur _ _ _ E4) as [R|R]; [rewrite (lc_cur _ _ _ L4) in Cu; congruence|].
      rewrite <- (lc_cur _ _ _ L4), Cu in R. destruct V3 as (b3 & W3). destruct (w_chain _ _ _ W3) as (l3 & Ch3 & _). rewrite Cu in Ch3.
      destruct (chain_live _ _ _ Ch3) as (d3 & H3). destruct (lc_back _ _ L4 _ _ H3) as (d4 & H4 & P4 & _).
      pose proof (R _ H4) as P4'. rewrite Qt in P4'.
      destruct (waiting_step s2 s3 p d V2 (ex_intro _ b3 W3) C Hd2) as (d5 & H5 & P5);
        [destruct (Z.eq_dec p 0); auto|intro; destruct (proj2 Sl); auto|].
      rewrite H3 in H5. injection H5 as <-. refine (chain_no_child _ _ _ Ch p d Iq Hdt _). congruence.
  - exfalso. pose proof (l_opcode _ (l_api_host hostmark prog) op I _ _ _ E4) as L3. rewrite (lc_cur _ _ _ L4), (lc_cur _ _ _ L3) in Cu. congruence.
Qed.
Print Assumptions C26_resume.
Print Assumptions C26_first_resume.
Print Assumptions C26_yield.
Print Assumptions C26_finish.
Print Assumptions C26_create.
Print Assumptions C26_sleeping.
Print Assumptions C26_coroutine_side.
Print Assumptions C26_resumer_side.

(** ** C27 *)

(** C27: resuming a coroutine that is running or waiting for one it resumed
    is an error, and no context is entered - in any state reached, by any
    program, from one with no coroutines yet. *)
Theorem C27_active host hostmark prog s0 c0 l s st co v i :
  vm_ok s0 -> v_ctxs s0 = [Some c0] -> goes hostmark (api_host hostmark prog) s0 l s ->
  stack_is s (st ++ [co; v]) -> coroutine s co i -> active s i ->
  exists s', opcode host O_RESUME s = Ok (tt, s') /\ failed s st s' /\ v_cur s' = v_cur s.
Proof.
  change (opcode host O_RESUME) with op_resume. intros V0 C0 Go S Co (la & Ch & I). pose proof (goes_ok _ _ _ _ _ V0 Go) as V.
  assert (CoroProofs.settled s) as Se.
  { apply (goes_settled _ _ _ _ _ V0 Go). intros j c Nj H. apply znth_some_range in H. rewrite C0 in H. change (zlen [Some c0]) with 1 in H. lia. }
  destruct (coroutine_live _ _ _ V Co) as (N0 & c & Hc). destruct (chain_parent _ _ _ Ch _ _ I N0 Hc) as (p & P & _).
  destruct (resume_enter s st co v i c S Co Hc) as (t & R & E). rewrite E.
  assert (forall msg, exists s', add_error msg t = Ok (tt, s') /\ failed s st s' /\ v_cur s' = v_cur s) as Er.
  { intro msg. destruct (rs_error _ _ _ _ msg R) as (s' & E1 & F). exists s'. split; [auto|]. split; [auto|].
    destruct F as (e & c1 & k1 & H1 & W1 & C1 & ->). reflexivity. }
  destruct (_ =? CO_INVALID); [apply Er|]. destruct (Z.eqb_spec (c_state c) CO_FINISHED) as [Q|Q].
  - rewrite (Se i c N0 Hc Q) in P. discriminate.
  - rewrite P. apply Er.
Qed.

(** C27: resuming a finished coroutine gives nil and enters nothing. *)
Theorem C27_finished host s st co v i w :
  stack_is s (st ++ [co; v]) -> coroutine s co i -> ctx_is s i w -> w_state w = CO_FINISHED ->
  exists s', opcode host O_RESUME s = Ok (tt, s') /\ restacked s (st ++ [vnil]) s'.
Proof.
  change (opcode host O_RESUME) with op_resume. intros S Co (c & Hc & _ & _ & _ & _ & Sc) Sw. rewrite Sw in Sc. destruct (resume_enter s st co v i c S Co Hc) as (t & R & E). rewrite E.
  rewrite Sc. change (CO_FINISHED =? CO_INVALID) with false. change (CO_FINISHED =? CO_FINISHED) with true. cbv iota.
  destruct (push_rs _ _ vnil _ _ R) as (s' & E' & R'); [lia|]. exists s'. split; [auto|]. eapply rs_restacked; eauto.
Qed.

(** C27: asking whether a coroutine is finished gives 1 or 0. *)
Theorem C27_is_finished host s st co i w :
  stack_is s (st ++ [co]) -> coroutine s co i -> ctx_is s i w ->
  exists s' b, opcode host O_FINISHED s = Ok (tt, s') /\ restacked s (st ++ [vint b]) s' /\
    (b = 1 <-> w_state w = CO_FINISHED) /\ (b = 0 <-> w_state w <> CO_FINISHED).
Proof.
  intros S Co (c & Hc & _ & _ & _ & _ & Sc). destruct (pop_rs _ _ _ _ _ (rs_start _ _ S)) as (t & E1 & R).
  change (opcode host O_FINISHED) with op_is_finished. unfold op_is_finished. rewrite (bind_run _ _ _ _ _ E1). unfold mbind at 1, gets at 1.
  destruct (coroutine_rs _ _ _ _ _ _ R Co) as (X1 & X2 & X3). rewrite X3, (bind_run _ _ _ _ _ X1), Z.eqb_refl. cbn [negb].
  rewrite (bind_run _ _ _ _ _ X2). destruct (rs_slots _ _ _ _ R) as (d & k & Hd & W & Ck & Et).
  assert (exists c', znth (v_ctxs t) i = Some (Some c') /\ c_state c' = c_state c) as (c' & Hc' & Sc').
  { rewrite Et. vs. destruct (Z.eq_dec i (v_cur s)) as [-> |Ni].
    - rewrite znth_zupd_same by apply (znth_some_range _ _ _ Hd). rewrite Hc in Hd. injection Hd as <-. eauto.
    - rewrite znth_zupd_other by auto. eauto. }
  rewrite (bind_run _ _ _ _ _ (get_ctx_ok _ _ _ Hc')), Sc', Sc.
  destruct (push_rs _ _ (vint (b2z (w_state w =? CO_FINISHED))) _ _ R) as (s' & E' & R'); [lia|].
  exists s', (b2z (w_state w =? CO_FINISHED)). split; [auto|]. split; [eapply rs_restacked; eauto|].
  destruct (Z.eqb_spec (w_state w) CO_FINISHED); cbn [b2z]; split; split; intros; try congruence; lia.
Qed.

(** C27: a finished coroutine never runs again, whatever the program does:
    from the moment it finished, in no state of any execution is its context
    the running one. *)
Theorem C27_never_again hostmark prog s i w l s' :
  vm_ok s -> v_cur s <> i -> i <> 0 -> ctx_is s i w -> w_state w = CO_FINISHED -> w_parent w = None ->
  goes hostmark (api_host hostmark prog) s l s' -> sleeps i l s' /\
  ((exists c, znth (v_ctxs s') i = Some (Some c)) -> ctx_is s' i w).
Proof.
  intros V N N0 Ci Sw Pw Go. assert (sleeps i l s') as Sl.
  { pose proof Ci as (c & Hc & _ & _ & _ & Pc & Sc).
    destruct (goes_done hostmark prog s l s' i V Go) as (F & D); [|split; [auto|apply D]].
    split; auto. split; auto. exists (Some c). split; auto. intros c' Q. injection Q as <-. split; congruence. }
  split; auto. intro Lv. eapply C26_sleeping; eauto.
Qed.
Print Assumptions C27_active.
Print Assumptions C27_finished.
Print Assumptions C27_is_finished.
Print Assumptions C27_never_again.

(** ** Non-vacuity *)

(** What [ctx_is] says, computed. *)
Definition look (s : vm) (i : Z) : option view :=
  match znth (v_ctxs s) i with
  | Some (Some c) => Some (mkView (contents (c_stack c)) (c_ip c) (c_parent c) (c_state c))
  | _ => None
  end.
Lemma look_is s i w : vm_ok s -> look s i = Some w -> ctx_is s i w.
Proof.
  intros (b & W) H. unfold look in H. destruct (znth (v_ctxs s) i) as [[c|]|] eqn:E; try discriminate. injection H as <-.
  exists c. split; auto. split; [eapply w_stk; eauto|auto].
Qed.
Fixpoint sleepsb hm h (n : nat) (s : vm) (i : Z) : bool :=
  negb (v_cur s =? i) && match n with
  | O => true
  | S k => match iterate hm h s with Ok (_, s') => sleepsb hm h k s' i | Ub _ => false end
  end.
Lemma run_goes hm h n : forall s s', run_n hm h n s = Some s' -> exists l, goes hm h s l s'.
Proof.
  induction n as [|n IH]; cbn [run_n]; intros s s' H.
  - injection H as <-. eexists. constructor.
  - destruct (has_errors s) eqn:E; [discriminate|]. destruct (Z.ltb_spec (v_gcpass s) INVALID); [|discriminate]. cbn [orb negb] in H.
    destruct (iterate hm h s) as [[[] s1]|u] eqn:I; [|discriminate]. destruct (IH _ _ H) as (l & G). eexists. econstructor; eauto.
Qed.
Lemma run_sleeps hm h n i : forall s s', run_n hm h n s = Some s' -> sleepsb hm h n s i = true -> exists l, goes hm h s l s' /\ sleeps i l s'.
Proof.
  induction n as [|n IH]; cbn [run_n sleepsb]; intros s s' H B; apply andb_prop in B; destruct B as (B1 & B2);
    destruct (Z.eqb_spec (v_cur s) i); try discriminate.
  - injection H as <-. eexists. split; [constructor|split; [constructor|auto]].
  - destruct (has_errors s) eqn:E; [discriminate|]. destruct (Z.ltb_spec (v_gcpass s) INVALID); [|discriminate]. cbn [orb negb] in H.
    destruct (iterate hm h s) as [[[] s1]|u] eqn:I; [|discriminate]. destruct (IH _ _ H B2) as (l & G & F & L).
    exists (s :: l). split; [econstructor; eauto|]. split; auto.
Qed.
Definition ticked (s : vm) : vm := match tick nomark s with Ok (_, t) => t | Ub _ => s end.
Definition opb (s : vm) (op : Z) : bool :=
  match fetch s, tick nomark s with Ok (w, _), Ok (true, _) => Z.land w 63 =? op | _, _ => false end.
Lemma opb_at s op : opb s op = true -> vm_ok s -> at_instruction nomark s op (ticked s).
Proof.
  unfold opb, ticked. intros H (b & W). destruct (fetch_run nomark (api_host nomark ex_prog) (api_host_ok nomark ex_prog) b s W) as (w & E & _). rewrite E in H. exists w. split; auto.
  destruct (tick nomark s) as [[[|] t]|u]; try discriminate. apply Z.eqb_eq in H. auto.
Qed.

(** A program: create a coroutine of the function at 24 with argument 7,
    resume it with 5 (it yields 11), resume it with 6 (it returns 6). *)
Definition co_code : list Z := [10;0;7;7;7;1;38;7;0;13;7;5;40;11;7;0;13;7;6;40;20;0;0;0;7;11;39;7;0;19;0;0].
Definition co_start (code : list Z) : vm := load_code code (set_funcs [mkF 1 24 INVALID] vm_init).
Definition co_at code n : vm := match run_n nomark (api_host nomark ex_prog) n (co_start code) with Some s => s | None => co_start code end.
Lemma co_start_ok code : pow2 (zlen code) -> vm_ok (co_start code).
Proof.
  intro P. destruct vm_init_ok as (b & W). exists b. destruct W. split; auto. cbn. split; [lia|auto].
Qed.
Lemma co_ok code n : pow2 (zlen code) -> vm_ok (co_at code n).
Proof.
  intro P. unfold co_at. destruct (run_n nomark (api_host nomark ex_prog) n (co_start code)) as [s|] eqn:E; [|apply co_start_ok; auto].
  destruct (run_goes _ _ _ _ _ E) as (l & G). eapply goes_ok; [|exact G]. apply co_start_ok; auto.
Qed.

Lemma co_pow : pow2 (zlen co_code). Proof. exists 5. split; [lia|reflexivity]. Qed.
Ltac ck := first [reflexivity | vm_compute; first [reflexivity | discriminate | lia | split; discriminate]].
Ltac lk := apply look_is; [apply co_ok, co_pow|vm_compute; reflexivity].

(** Creating, resuming for the first time, yielding, resuming, finishing: the
    hypotheses of the theorems hold along this program. *)
Example C26_create_example : vm_ok (co_at co_code 3) /\ v_cur (co_at co_code 3) = 0 /\
  ctx_is (co_at co_code 3) 0 (mkView ([] ++ call_frame (vfunc 0) [vint 7]) 6 None CO_RUNNING) /\
  function_is (co_at co_code 3) (vfunc 0) (mkF 1 24 INVALID) /\ accepts 1 (zlen [vint 7]) /\
  fits (co_at co_code 3) (call_frame (vfunc 0) [vint 7] ++ [vint INVALID]) /\ get_obj (co_at co_code 3) 0 = None.
Proof. split; [apply co_ok, co_pow|]. split; [ck|]. split; [lk|]. split; [split; ck|]. split; [right; reflexivity|]. split; [split; ck|ck]. Qed.
Example C26_first_resume_example : v_cur (co_at co_code 7) = 0 /\
  ctx_is (co_at co_code 7) 0 (mkView ([vobj 0] ++ [vobj 0; vint 5]) 12 None CO_RUNNING) /\ coroutine (co_at co_code 7) (vobj 0) 1 /\
  ctx_is (co_at co_code 7) 1 (mkView (call_frame (vfunc 0) [vint 7] ++ [vint INVALID]) 23 None CO_CREATED).
Proof. split; [ck|]. split; [lk|]. split; [split; [reflexivity|eexists; split; [vm_compute; reflexivity|split; reflexivity]]|lk]. Qed.
Example C26_yield_example : v_cur (co_at co_code 9) = 1 /\
  ctx_is (co_at co_code 9) 1 (mkView ((call_frame (vfunc 0) [vint 7] ++ [vint INVALID]) ++ [vint 11]) 26 (Some 0) CO_RUNNING) /\
  ctx_is (co_at co_code 9) 0 (mkView [vobj 0] 12 None CO_RUNNING) /\ fits (co_at co_code 9) ([vobj 0] ++ [vint 11]) /\
  at_instruction nomark (co_at co_code 9) 39 (ticked (co_at co_code 9)).
Proof. split; [ck|]. split; [lk|]. split; [lk|]. split; [split; ck|apply opb_at; [ck|apply co_ok, co_pow]]. Qed.
Example C26_resume_example : v_cur (co_at co_code 14) = 0 /\
  ctx_is (co_at co_code 14) 0 (mkView ([vobj 0] ++ [vobj 0; vint 6]) 19 None CO_RUNNING) /\ coroutine (co_at co_code 14) (vobj 0) 1 /\
  ctx_is (co_at co_code 14) 1 (mkView (call_frame (vfunc 0) [vint 7] ++ [vint INVALID]) 26 None CO_RUNNING) /\
  fits (co_at co_code 14) ((call_frame (vfunc 0) [vint 7] ++ [vint INVALID]) ++ [vint 6]).
Proof. split; [ck|]. split; [lk|]. split; [split; [reflexivity|eexists; split; [vm_compute; reflexivity|split; reflexivity]]|]. split; [lk|split; ck]. Qed.
Example C26_finish_example : v_cur (co_at co_code 16) = 1 /\
  ctx_is (co_at co_code 16) 1 (mkView ([] ++ call_frame (vfunc 0) [vint 7] ++ [vint INVALID] ++ [] ++ [vint 6; vint 0]) 29 (Some 0) CO_RUNNING) /\
  ctx_is (co_at co_code 16) 0 (mkView [vobj 0] 19 None CO_RUNNING) /\ fits (co_at co_code 16) ([vobj 0] ++ [vint 6]).
Proof. split; [ck|]. split; [lk|]. split; [lk|split; ck]. Qed.

(** From the yield to the second resume. *)
Example C26_coroutine_side_example : exists l,
  goes nomark (api_host nomark ex_prog) (co_at co_code 10) l (co_at co_code 14) /\ sleeps 1 l (co_at co_code 14) /\
  has_errors (co_at co_code 14) = false /\ at_instruction nomark (co_at co_code 14) 40 (ticked (co_at co_code 14)) /\
  iterate nomark (api_host nomark ex_prog) (co_at co_code 9) = Ok (tt, co_at co_code 10) /\
  ctx_is (co_at co_code 15) 1 (mkView ((call_frame (vfunc 0) [vint 7] ++ [vint INVALID]) ++ [vint 6]) 27 (Some 0) CO_RUNNING).
Proof.
  destruct (run_sleeps nomark (api_host nomark ex_prog) 4 1 (co_at co_code 10) (co_at co_code 14)) as (l & G & S); [vm_compute; reflexivity..|].
  exists l. split; [auto|]. split; [auto|]. split; [ck|]. split; [apply opb_at; [ck|apply co_ok, co_pow]|]. split; [vm_compute; reflexivity|lk].
Qed.
(** From the first resume to the yield. *)
Example C26_resumer_side_example : exists l,
  ctx_is (co_at co_code 8) 1 (mkView (call_frame (vfunc 0) [vint 7] ++ [vint INVALID]) 24 (Some 0) CO_RUNNING) /\
  ctx_is (co_at co_code 8) 0 (mkView [vobj 0] 12 None CO_RUNNING) /\
  goes nomark (api_host nomark ex_prog) (co_at co_code 8) l (co_at co_code 9) /\ sleeps 0 l (co_at co_code 9) /\
  iterate nomark (api_host nomark ex_prog) (co_at co_code 9) = Ok (tt, co_at co_code 10) /\ v_cur (co_at co_code 10) = 0.
Proof.
  destruct (run_sleeps nomark (api_host nomark ex_prog) 1 0 (co_at co_code 8) (co_at co_code 9)) as (l & G & S); [vm_compute; reflexivity..|].
  exists l. split; [lk|]. split; [lk|]. split; [auto|]. split; [auto|]. split; [vm_compute; reflexivity|ck].
Qed.

(** C27: after the run above, the coroutine is finished. *)
Example C27_finished_example : ctx_is (co_at co_code 17) 0 (mkView ([] ++ [vobj 0; vint 6]) 20 None CO_RUNNING) /\
  coroutine (co_at co_code 17) (vobj 0) 1 /\ v_cur (co_at co_code 17) = 0 /\
  ctx_is (co_at co_code 17) 1 (mkView [] INVALID None CO_FINISHED).
Proof. split; [lk|]. split; [split; [reflexivity|eexists; split; [vm_compute; reflexivity|split; reflexivity]]|]. split; [ck|lk]. Qed.
(** A coroutine that finds itself in a global variable and tries to resume
    itself. *)
Definition self_code : list Z := [10;0;7;7;7;1;38;7;0;15;7;0;16;7;5;40;20;0;0;0;0;0;0;0;7;0;16;7;1;40;0;0].
Example C27_active_example : exists c0 l, vm_ok (co_start self_code) /\ v_ctxs (co_start self_code) = [Some c0] /\
  goes nomark (api_host nomark ex_prog) (co_start self_code) l (co_at self_code 13) /\
  v_cur (co_at self_code 13) = 1 /\
  stack_is (co_at self_code 13) ((call_frame (vfunc 0) [vint 7] ++ [vint INVALID]) ++ [vobj 0; vint 1]) /\
  coroutine (co_at self_code 13) (vobj 0) 1 /\ active (co_at self_code 13) 1.
Proof.
  assert (pow2 (zlen self_code)) as P by (exists 5; split; [lia|reflexivity]).
  destruct (run_goes nomark (api_host nomark ex_prog) 13 (co_start self_code) (co_at self_code 13)) as (l & G); [vm_compute; reflexivity|].
  eexists _, l. split; [apply co_start_ok; auto|]. split; [reflexivity|]. split; [auto|]. split; [ck|]. pose proof (co_ok self_code 13 P) as V. split; [|split].
  - assert (ctx_is (co_at self_code 13) 1 (mkView ((call_frame (vfunc 0) [vint 7] ++ [vint INVALID]) ++ [vobj 0; vint 1]) 29 (Some 0) CO_RUNNING)) as C
      by (apply look_is; [auto|vm_compute; reflexivity]). apply (stack_ctx _ 1 _) in C; auto.
  - split; [reflexivity|eexists; split; [vm_compute; reflexivity|split; reflexivity]].
  - destruct V as (b & W). destruct (w_chain _ _ _ W) as (la & Ch & _). exists la. split; auto.
    replace 1 with (v_cur (co_at self_code 13)) by ck. eapply chain_head; eauto.
Qed.
