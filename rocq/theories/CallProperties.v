(** * CallProperties: calls and returns (C21-C23) *)
From Verif Require Import Base BaseFacts.
From Verif Require Import VmModel MonadFacts StackProofs ObjsProofs HostModel HostProofs VmSpec VmInv VmStep VmProperties CtxProofs CallSpec CallProofs.
From Verif Require Import OpProperties.

Lemma instruction_moved host op s st ip s1 : opcode host op s = Ok (tt, s1) -> moved s st ip s1 ->
  exists s', instruction host op s = Ok (tt, s') /\ moved s st (u32 (ip + 1)) s'.
Proof.
  intros E (c & k & Hc & W & C & ->). unfold instruction. rewrite (bind_run _ _ _ _ _ E).
  pose proof (znth_some_range _ _ _ Hc) as Rg.
  assert (forall x, znth (v_ctxs (set_ctxs (zupd (v_ctxs s) (v_cur s) (Some x)) s)) (v_cur s) = Some (Some x)) as Q
    by (intro x; vs; apply znth_zupd_same; auto).
  unfold get_ip, cur_ctx. unfold mbind at 1 2 3, gets. vs. unfold get_ctx. vs. rewrite znth_zupd_same by auto. cbv beta iota. unfold ret. cs.
  unfold set_ip. rewrite (mod_cur_upd _ _) by (eexists; vs; apply znth_zupd_same; auto).
  eexists. split; [reflexivity|]. exists c, k. sp; auto. unfold upd_cur. vs. rewrite znth_zupd_same by auto. vs. rewrite zupd_zupd. reflexivity.
Qed.
Lemma instruction_restacked host op s s0 st ip s1 : opcode host op s = Ok (tt, s1) -> restacked s0 st s1 -> ip_is s0 ip ->
  exists s', instruction host op s = Ok (tt, s') /\ moved s0 st (u32 (ip + 1)) s'.
Proof.
  intros E (c & k & Hc & W & C & ->) (c' & Hc' & I). rewrite Hc in Hc'. injection Hc' as <-. unfold instruction. rewrite (bind_run _ _ _ _ _ E).
  pose proof (znth_some_range _ _ _ Hc) as Rg.
  unfold get_ip, cur_ctx. unfold mbind at 1 2 3, gets. vs. unfold get_ctx. vs. rewrite znth_zupd_same by auto. cbv beta iota. unfold ret. cs.
  unfold set_ip. rewrite (mod_cur_upd _ _) by (eexists; vs; apply znth_zupd_same; auto).
  eexists. split; [reflexivity|]. exists c, k. sp; auto. unfold upd_cur. vs. rewrite znth_zupd_same by auto. vs. rewrite zupd_zupd, I. reflexivity.
Qed.

(** ** C21 *)

(** C21, entering: with a script function, its arguments and their number on
    the stack, the call instruction pushes the address of the call and goes to
    the function's first instruction; everything else stays. *)
Theorem C21_call host s st fv args f ip :
  stack_is s (st ++ call_frame fv args) -> ip_is s ip ->
  function_is s fv f -> f_ext f = INVALID -> accepts (f_argc f) (zlen args) -> is_u32 (f_first f) ->
  fits s (st ++ call_frame fv args ++ [vint ip]) ->
  exists s', instruction host 18 s = Ok (tt, s') /\
    moved s (st ++ call_frame fv args ++ [vint ip]) (f_first f) s'.
Proof.
  intros S I Fi X Ac U F. pose proof (rs_start _ _ S) as R.
  assert (v_type fv <> T_OBJ) as NT by (destruct Fi as [-> _]; discriminate).
  destruct (script_run host s st fv args _ _ fv f ip R Fi Ac X I F) as (s1 & E & Mv).
  assert (opcode host 18 s = Ok (tt, s1)) as E1.
  { change (opcode host 18) with (op_call host). rewrite (call_start host _ _ _ _ _ _ R).
    rewrite (bind_run _ _ _ _ _ (resolve_end (Some fv) fv 10 _ _ (or_introl eq_refl) NT)). exact E. }
  destruct (instruction_moved _ _ _ _ _ _ E1 Mv) as (s' & E2 & Mv2). exists s'. split; auto.
  replace (u32 (u32 (f_first f - 1) + 1)) with (f_first f) in Mv2; auto.
  unfold is_u32, u32, W32 in *. lia.
Qed.

(** C21, leaving: whatever the frame looks like - any arguments, any local
    variables - the return instruction replaces the callee and its arguments
    by the returned value and continues after the call. *)
Theorem C21_return host s st fv args ip locals rv :
  stack_is s (st ++ call_frame fv args ++ [vint ip] ++ locals ++ [rv; vint (zlen locals)]) -> 0 <= ip < INVALID ->
  exists s', instruction host 19 s = Ok (tt, s') /\ moved s (st ++ [rv]) (ip + 1) s'.
Proof.
  intros S Ri. destruct (return_run s st fv args ip locals rv S Ri) as (s1 & E & Mv).
  destruct (instruction_moved host 19 _ _ _ _ E Mv) as (s' & E2 & Mv2). exists s'. split; auto.
  replace (u32 (ip + 1)) with (ip + 1) in Mv2; auto. symmetry. apply u32_id. unfold is_u32, INVALID, W32 in *. lia.
Qed.

(** C21: a call, and the return of the callee in any state [s2], however it
    got there, in which the frame is in place (the arguments and local
    variables may have changed, even in number). *)
Theorem C21_call_return host s st fv args f ip :
  stack_is s (st ++ call_frame fv args) -> ip_is s ip -> 0 <= ip < INVALID ->
  function_is s fv f -> f_ext f = INVALID -> accepts (f_argc f) (zlen args) -> is_u32 (f_first f) ->
  fits s (st ++ call_frame fv args ++ [vint ip]) ->
  exists s1, instruction host 18 s = Ok (tt, s1) /\ ip_is s1 (f_first f) /\
    stack_is s1 (st ++ call_frame fv args ++ [vint ip]) /\
  forall s2 args' locals rv,
    stack_is s2 (st ++ call_frame fv args' ++ [vint ip] ++ locals ++ [rv; vint (zlen locals)]) ->
    exists s3, instruction host 19 s2 = Ok (tt, s3) /\ stack_is s3 (st ++ [rv]) /\ ip_is s3 (ip + 1).
Proof.
  intros S I Ri Fi X Ac U F. destruct (C21_call host s st fv args f ip S I Fi X Ac U F) as (s1 & E & (c & k & Hc & W & C & E1)).
  pose proof (znth_some_range _ _ _ Hc) as Rg.
  exists s1. split; [auto|]. rewrite E1. split; [|split].
  - eexists. vs. split; [apply znth_zupd_same; auto|reflexivity].
  - eexists. vs. split; [apply znth_zupd_same; auto|auto].
  - intros s2 args' locals rv S2. destruct (C21_return host s2 st fv args' ip locals rv S2 Ri) as (s3 & E3 & (c3 & k3 & Hc3 & W3 & C3 & ->)).
    pose proof (znth_some_range _ _ _ Hc3) as Rg3. eexists. split; [exact E3|]. split.
    + eexists. vs. split; [apply znth_zupd_same; auto|auto].
    + eexists. vs. split; [apply znth_zupd_same; auto|reflexivity].
Qed.

(** Host functions that go through the API leave the stacks alone. *)
Lemma api_host_stack hostmark prog cb args s r t l ip :
  vm_ok s -> vm_ok t -> api_host hostmark prog cb args s = Ok (r, t) -> stack_is s l -> ip_is s ip -> stack_is t l /\ ip_is t ip.
Proof.
  intros _ Vt E (c & Hc & W & C) (c' & Hc' & I). rewrite Hc in Hc'. injection Hc' as <-.
  unfold api_host in E. pose proof (l_run_host false hostmark _ _ _ _ E) as L.
  destruct (lc_here _ _ _ L _ Hc) as (y & Hy & K). rewrite <- (lc_cur _ _ _ L) in Hy.
  destruct Vt as [b Wt]. destruct (wf_live _ _ _ Wt) as [c2 Hc2]. rewrite Hy in Hc2. injection Hc2 as ->.
  destruct K as [K|K]; [|discriminate]. injection K as ->. split; exists c; auto.
Qed.

(** C21, native functions: if the host function returns [r] and the machine is
    well-formed then, the callee and the arguments are replaced by [r]; the
    host got exactly the arguments. *)
Theorem C21_native hostmark prog s st fv args cb ip r t :
  vm_ok s -> stack_is s (st ++ call_frame fv args) -> ip_is s ip -> good_native s fv args cb ->
  api_host hostmark prog cb args s = Ok (r, t) -> vm_ok t ->
  exists s', instruction (api_host hostmark prog) 18 s = Ok (tt, s') /\ moved t (st ++ [r]) (u32 (ip + 1)) s'.
Proof.
  intros Vs S I Gn Hh Vt. destruct (api_host_stack _ _ _ _ _ _ _ _ _ Vs Vt Hh S I) as [S2 I2].
  pose proof (rs_start _ _ S) as R.
  assert (v_type fv <> T_OBJ) as NT by (destruct Gn as (f & xf & [-> _] & _); discriminate).
  destruct (native_run (api_host hostmark prog) s st fv args _ _ fv cb r t R Gn Hh S2) as (s1 & E & Rs).
  eapply instruction_restacked; eauto.
  change (opcode (api_host hostmark prog) 18) with (op_call (api_host hostmark prog)). rewrite (call_start _ _ _ _ _ _ _ R).
  rewrite (bind_run _ _ _ _ _ (resolve_end (Some fv) fv 10 _ _ (or_introl eq_refl) NT)). exact E.
Qed.
Print Assumptions C21_call.
Print Assumptions C21_return.
Print Assumptions C21_call_return.
Print Assumptions C21_native.

(** ** C22 *)

(** C22: a call that has to be rejected is: one error is reported and nothing
    else happens.  The same happens whatever the host functions would do, so
    none was called; the instruction pointer is still at the call, so no
    instruction of the callee was run. *)
Theorem C22_bad_call s st fv args :
  vm_ok s -> stack_is s (st ++ call_frame fv args) -> v_type fv <> T_OBJ -> bad_call s fv args ->
  exists s', (forall host, op_call host s = Ok (tt, s')) /\ failed s (st ++ call_frame fv args) s' /\ has_errors s' = true.
Proof.
  intros (b & Ws) S NT B. pose proof (rs_start _ _ S) as R.
  destruct (bad_run s st fv args _ _ fv R B (w_extfuncs _ _ _ Ws)) as (s' & E & F).
  exists s'. split; [|split; [auto|eapply failed_errors; eauto]]. intro host. rewrite (call_start _ _ _ _ _ _ _ R).
  rewrite (bind_run _ _ _ _ _ (resolve_end (Some fv) fv 10 _ _ (or_introl eq_refl) NT)). auto.
Qed.

(** Every call of a value that is not an object is rejected or goes ahead. *)
Theorem C22_complete s fv args : vm_ok s -> v_type fv <> T_OBJ ->
  bad_call s fv args \/
  (exists f, function_is s fv f /\ f_ext f = INVALID /\ accepts (f_argc f) (zlen args)) \/
  (exists cb, good_native s fv args cb).
Proof.
  intros (b & Ws) NT. destruct (Z.eq_dec (v_type fv) T_FUNC) as [Tf|Tf]; [|left; apply bc_type; auto].
  destruct (znth (v_funcs s) (v_data fv)) as [f|] eqn:Hf; [|left; apply bc_unknown; auto].
  assert (function_is s fv f) as Fi by (split; auto).
  destruct (accepts_dec (f_argc f) (zlen args)) as [Ac|Ac]; [|left; eapply bc_count; eauto].
  destruct (Z.eq_dec (f_ext f) INVALID) as [X|X]; [right; left; eauto|].
  destruct (znth (v_extfuncs s) (f_ext f)) as [xf|] eqn:Hx; [|left; eapply bc_unregistered; eauto].
  destruct (x_cb xf) as [cb|] eqn:Cb; [|left; eapply bc_null; eauto].
  destruct (accepts_dec (x_argc xf) (zlen args)) as [Ax|Ax]; [|left; eapply bc_native_count; eauto].
  destruct (Z.eq_dec (x_argc xf) INVALID) as [Xi|Xi].
  { right. right. exists cb, f, xf. sp; auto; congruence. }
  assert (forall l tl, (exists i d a, znth tl i = Some d /\ znth l i = Some a /\ mismatch s d a) \/
      forall i d a, znth tl i = Some d -> znth l i = Some a -> ~ mismatch s d a) as Dec.
  { induction l as [|a l IH]; intro tl.
    - right. intros i d a _ H. apply znth_some_range in H. unfold zlen in H. cbn [length] in H. lia.
    - destruct tl as [|d tl].
      + right. intros i d a0 H. apply znth_some_range in H. unfold zlen in H. cbn [length] in H. lia.
      + assert (mismatch s d a \/ ~ mismatch s d a) as [M|M].
        { unfold mismatch. destruct (Z.eq_dec (fst d) T_NIL) as [Q1|Q1]; [right; tauto|].
          destruct (Z.eq_dec (v_type a) (fst d)) as [Q2|Q2]; [|left; split; auto].
          destruct (Z.eq_dec (fst d) T_OBJ) as [Q3|Q3]; [|right; tauto].
          destruct (get_obj s (v_data a)) as [o|]; [|left; split; auto].
          destruct (Z.eq_dec (snd d) INVALID) as [Q4|Q4]; [right; tauto|].
          destruct (Z.eq_dec (snd d) (o_ext o)) as [Q5|Q5]; [right; tauto|left; split; auto]. }
        * left. exists 0, d, a. rewrite !znth_cons_0. auto.
        * destruct (IH tl) as [(i & d2 & a2 & H1 & H2 & H3)|H].
          -- left. pose proof (znth_some_range _ _ _ H1). exists (i + 1), d2, a2. rewrite !znth_cons_S by lia.
             replace (i + 1 - 1) with i by lia. auto.
          -- right. intros i d2 a2 H1 H2. pose proof (znth_some_range _ _ _ H1). destruct (Z.eq_dec i 0) as [->|Ni].
             ++ rewrite znth_cons_0 in H1. rewrite znth_cons_0 in H2. injection H1 as <-. injection H2 as <-. auto.
             ++ rewrite znth_cons_S in H1 by lia. rewrite znth_cons_S in H2 by lia. eauto. }
  destruct (Dec args (x_types xf)) as [(i & d & a & H1 & H2 & H3)|H].
  - left. eapply bc_native_type; eauto.
  - right. right. exists cb, f, xf. sp; auto. intros _. split; auto. apply (w_extfuncs _ _ _ Ws _ _ Hx Xi).
Qed.
Print Assumptions C22_bad_call.
Print Assumptions C22_complete.

(** ** C23 *)

(** C23, script functions: calling an object that leads, through at most ten
    objects, to a script function enters that function with the "_data" values
    inserted before the arguments. *)
Theorem C23_script host s m st v args n f ds fn ip :
  obj_history s m -> string_room s -> stack_is s (st ++ call_frame v args) -> ip_is s ip ->
  callable s m v n f ds -> (n <= 10)%nat ->
  function_is s f fn -> f_ext fn = INVALID -> accepts (f_argc fn) (zlen (ds ++ args)) -> is_u32 (f_first fn) ->
  fits s (st ++ call_frame v (ds ++ args) ++ [vint ip]) ->
  exists s1 s', instruction host 18 s = Ok (tt, s') /\ more_strings s s1 /\
    moved s1 (st ++ call_frame v (ds ++ args) ++ [vint ip]) (f_first fn) s'.
Proof.
  intros H Sr S I C L Fi X Ac U F. pose proof (obj_history_inv _ _ H) as I0. pose proof (rs_start _ _ S) as R.
  destruct (resolve_rs s m I0 v n f ds C 10 st v args s s 0 L (more_strings_refl s) R I0) as (r & s1 & t1 & k1 & E & Er & Ms & R1 & Ob & _).
  { assert (free1 s) by (destruct Sr as (i & j & Ri & Rj & _ & Gi & _); exists i; auto). unfold ready. auto 10. }
  { reflexivity. }
  { eapply fits_sub; [|exact F]. rewrite app_assoc, (zlen_app _ [_]), zlen_cons, zlen_nil. lia. }
  assert (r = Some f) as -> by (destruct Er as [Er|[_ Er]]; auto; destruct Fi as [Tf _]; rewrite Tf in Er; discriminate).
  assert (function_is s1 f fn /\ ip_is s1 ip) as (Fi1 & I1).
  { destruct Ms as ((tb & bh & ->) & _). split; auto. }
  destruct (script_run host s1 st v (ds ++ args) _ _ f fn ip R1 Fi1 Ac X I1 (more_fits _ _ _ Ms F)) as (s2 & E2 & Mv).
  assert (opcode host 18 s = Ok (tt, s2)) as E3.
  { change (opcode host 18) with (op_call host). rewrite (call_start host _ _ _ _ _ _ R). rewrite (bind_run _ _ _ _ _ E). exact E2. }
  assert (exists s', instruction host 18 s = Ok (tt, s') /\ moved s1 (st ++ call_frame v (ds ++ args) ++ [vint ip]) (u32 (u32 (f_first fn - 1) + 1)) s') as (s' & E4 & Mv4).
  { destruct Mv as (c & k & Hc & W & Ck & ->). unfold instruction. rewrite (bind_run _ _ _ _ _ E3).
    pose proof (znth_some_range _ _ _ Hc) as Rg.
    unfold get_ip, cur_ctx. unfold mbind at 1 2 3, gets. vs. unfold get_ctx. vs. rewrite znth_zupd_same by auto. cbv beta iota. unfold ret. cs.
    unfold set_ip. rewrite (mod_cur_upd _ _) by (eexists; vs; apply znth_zupd_same; auto).
    eexists. split; [reflexivity|]. exists c, k. sp; auto. unfold upd_cur. vs. rewrite znth_zupd_same by auto. vs. rewrite zupd_zupd. reflexivity. }
  exists s1, s'. split; [auto|]. split; [auto|].
  replace (u32 (u32 (f_first fn - 1) + 1)) with (f_first fn) in Mv4; auto. unfold is_u32, u32, W32 in *. lia.
Qed.

(** C23, native functions: the host function gets the "_data" values before
    the arguments, and its result replaces the object and the arguments. *)
Theorem C23_native host s m st v args n f ds cb :
  obj_history s m -> string_room s -> stack_is s (st ++ call_frame v args) ->
  callable s m v n f ds -> (n <= 10)%nat -> good_native s f (ds ++ args) cb ->
  fits s (st ++ call_frame v (ds ++ args)) ->
  exists s1 t1, more_strings s s1 /\ restacked s1 (st ++ call_frame v (ds ++ args)) t1 /\
    forall r t2, host cb (ds ++ args) t1 = Ok (r, t2) -> stack_is t2 (st ++ call_frame v (ds ++ args)) ->
    exists s', op_call host s = Ok (tt, s') /\ restacked t2 (st ++ [r]) s'.
Proof.
  intros H Sr S C L Gn F. pose proof (obj_history_inv _ _ H) as I0. pose proof (rs_start _ _ S) as R.
  destruct (resolve_rs s m I0 v n f ds C 10 st v args s s 0 L (more_strings_refl s) R I0) as (r & s1 & t1 & k1 & E & Er & Ms & R1 & Ob & _).
  { assert (free1 s) by (destruct Sr as (i & j & Ri & Rj & _ & Gi & _); exists i; auto). unfold ready. auto 10. }
  { reflexivity. } { auto. }
  assert (r = Some f) as -> by (destruct Er as [Er|[_ Er]]; auto; destruct Gn as (fn & xf & [Tf _] & _); rewrite Tf in Er; discriminate).
  exists s1, t1. split; [auto|]. split; [eapply rs_restacked; eauto|]. intros r t2 Hh S2.
  assert (good_native s1 f (ds ++ args) cb) as Gn1.
  { destruct Ms as ((tb & bh & ->) & _). exact Gn. }
  rewrite (call_start host _ _ _ _ _ _ R). rewrite (bind_run _ _ _ _ _ E). eapply native_run; eauto.
Qed.

(** C23 and C22: an object that leads to something that cannot be called with
    these arguments. *)
Theorem C23_bad_call s m st v args n f ds :
  vm_ok s -> obj_history s m -> string_room s -> stack_is s (st ++ call_frame v args) ->
  callable s m v n f ds -> (n <= 10)%nat -> bad_call s f (ds ++ args) ->
  fits s (st ++ call_frame v (ds ++ args)) ->
  exists s1 s', (forall host, op_call host s = Ok (tt, s')) /\ more_strings s s1 /\
    failed s1 (st ++ call_frame v (ds ++ args)) s'.
Proof.
  intros (b & Ws) H Sr S C L Bc F. pose proof (obj_history_inv _ _ H) as I0. pose proof (rs_start _ _ S) as R.
  destruct (resolve_rs s m I0 v n f ds C 10 st v args s s 0 L (more_strings_refl s) R I0) as (r & s1 & t1 & k1 & E & Er & Ms & R1 & Ob & _).
  { assert (free1 s) by (destruct Sr as (i & j & Ri & Rj & _ & Gi & _); exists i; auto). unfold ready. auto 10. }
  { reflexivity. } { auto. }
  assert (bad_call s1 f (ds ++ args)) as Bc1.
  { destruct Ms as ((tb & bh & ->) & _). destruct Bc; [eapply bc_type|eapply bc_unknown|eapply bc_count|eapply bc_unregistered|eapply bc_null|eapply bc_native_count|eapply bc_native_type]; eauto. }
  destruct Er as [-> |[-> Tn]].
  - destruct (bad_run s1 st v (ds ++ args) _ _ f R1 Bc1) as (s' & E2 & F2).
    { destruct Ms as ((tb & bh & ->) & _). apply (w_extfuncs _ _ _ Ws). }
    exists s1, s'. split; [|auto]. intro host. rewrite (call_start host _ _ _ _ _ _ R). rewrite (bind_run _ _ _ _ _ E). auto.
  - destruct (rs_error _ _ _ _ (bs "Tried to call something that is not a function id or a callable object.") R1) as (s' & E2 & F2).
    exists s1, s'. split; [|auto]. intro host. rewrite (call_start host _ _ _ _ _ _ R). rewrite (bind_run _ _ _ _ _ E). auto.
Qed.

(** C23: more than ten objects are reported as an error; nothing is called. *)
Theorem C23_too_deep s m st v args k :
  obj_history s m -> string_room s -> stack_is s (st ++ call_frame v args) -> deep s m v 11 k ->
  zlen st + zlen args + 2 + Z.of_nat k <= 65536 -> 2 * (zlen st + zlen args + 2 + Z.of_nat k) - 2 <= v_maxstack s ->
  exists s1 s' l, (forall host, op_call host s = Ok (tt, s')) /\ more_strings s s1 /\ failed s1 (st ++ v :: l) s'.
Proof.
  intros H Sr S D F1 F2. pose proof (obj_history_inv _ _ H) as I0. pose proof (rs_start _ _ S) as R.
  destruct (deep_rs s m I0 v 11 k D 10 st v args s s 0) as (l & s1 & s' & E & Ms & Fl); auto using more_strings_refl.
  { assert (free1 s) by (destruct Sr as (i & j & Ri & Rj & _ & Gi & _); exists i; auto). unfold ready. auto 10. }
  exists s1, s', l. split; [|auto]. intro host. rewrite (call_start host _ _ _ _ _ _ R). rewrite (bind_run _ _ _ _ _ E). reflexivity.
Qed.
Print Assumptions C23_script.
Print Assumptions C23_native.
Print Assumptions C23_bad_call.
Print Assumptions C23_too_deep.

(** ** Non-vacuity *)
Definition after {A} (d : vm) (r : res (A * vm)) : vm := match r with Ok (_, s) => s | Ub _ => d end.
Ltac stk n := eexists; split; [vm_compute; reflexivity|split; [split; [reflexivity|reflexivity|exists n; split; [lia|reflexivity]|vm_compute; split; congruence]|reflexivity]].
(** A call of a two-argument function at instruction 40, with something below
    on the stack; its return with one local variable; and calls that are
    rejected: too few arguments, not a function, an unknown function. *)
Definition ex_call : vm := set_funcs [mkF 2 40 INVALID] (with_values [vint 5; vfunc 0; vint 1; vint 2; vint 2]).
Definition ex_return : vm := set_funcs [mkF 2 40 INVALID] (with_values [vint 5; vfunc 0; vint 1; vint 2; vint 2; vint 17; vnil; vint 99; vint 1]).
Example C21_example :
  stack_is ex_call ([vint 5] ++ call_frame (vfunc 0) [vint 1; vint 2]) /\ ip_is ex_call 0 /\
  function_is ex_call (vfunc 0) (mkF 2 40 INVALID) /\ accepts 2 (zlen [vint 1; vint 2]) /\
  fits ex_call ([vint 5] ++ call_frame (vfunc 0) [vint 1; vint 2] ++ [vint 0]) /\
  stack_is ex_return ([vint 5] ++ call_frame (vfunc 0) [vint 1; vint 2] ++ [vint 17] ++ [vnil] ++ [vint 99; vint (zlen [vnil])]).
Proof.
  split; [stk 3|]. split; [eexists; split; [vm_compute; reflexivity|reflexivity]|]. split; [split; reflexivity|]. split; [right; reflexivity|].
  split; [split; vm_compute; discriminate|stk 4].
Qed.
Example C22_example :
  stack_is ex_call ([vint 5] ++ call_frame (vfunc 0) [vint 1; vint 2]) /\
  bad_call ex_call (vfunc 0) [vint 1] /\ bad_call ex_call (vfunc 1) [] /\ bad_call ex_call vnil [vint 1].
Proof.
  split; [stk 3|]. split; [|split].
  - eapply bc_count; [split; reflexivity|]. intros [H|H]; vm_compute in H; discriminate.
  - apply bc_unknown; reflexivity.
  - apply bc_type. discriminate.
Qed.
(** A native function taking one object of the external type 0. *)
Definition ex_native : vm :=
  set_extfuncs [mkXF (bs "f") (Some 7) 0 1 [(T_OBJ, 0)]] (set_funcs [mkF 1 INVALID 0]
    (after vm_init (push_all [vfunc 0; vobj 0; vint 1] (after vm_init (create_object vm_init))))).
Example C22_native_example :
  stack_is ex_native ([] ++ call_frame (vfunc 0) [vobj 0]) /\ bad_call ex_native (vfunc 0) [vobj 0] /\
  bad_call ex_native (vfunc 0) [vint 3] /\
  good_native (set_extfuncs [mkXF (bs "f") (Some 7) 0 1 [(T_OBJ, INVALID)]] ex_native) (vfunc 0) [vobj 0] 7.
Proof.
  split; [stk 2|]. split; [|split].
  - eapply (bc_native_type _ _ _ (mkF 1 INVALID 0) (mkXF (bs "f") (Some 7) 0 1 [(T_OBJ, 0)]) 0); [split; reflexivity|discriminate|reflexivity|discriminate|reflexivity|reflexivity|]. split; [discriminate|]. right. split; [reflexivity|].
    vm_compute. split; discriminate.
  - eapply (bc_native_type _ _ _ (mkF 1 INVALID 0) (mkXF (bs "f") (Some 7) 0 1 [(T_OBJ, 0)]) 0); [split; reflexivity|discriminate|reflexivity|discriminate|reflexivity|reflexivity|]. split; [discriminate|]. left. discriminate.
  - eexists _, _. split; [split; reflexivity|]. split; [right; reflexivity|]. split; [discriminate|]. split; [reflexivity|]. split; [reflexivity|].
    split; [right; reflexivity|]. intros _. split; [reflexivity|]. intros i d a H1 H2.
    pose proof (znth_some_range _ _ _ H1) as R. unfold zlen in R. cbn in R. assert (i = 0) as -> by lia. injection H1 as <-. injection H2 as <-.
    intros (_ & [H|(_ & H)]); [apply H; reflexivity|]. vm_compute in H. destruct H as [H _]. apply H. reflexivity.
Qed.

(** A callable object: "_exec" is a function, "_data" is 9. *)
Definition co1 := after vm_init (find_or_add_string (bs "_exec") vm_init).
Definition co2 := after vm_init (find_or_add_string (bs "_data") co1).
Definition co3 := after vm_init (create_object co2).
Definition co4 := after vm_init (write_field 0 (vstr 0) (vfunc 0) co3).
Definition co5 := after vm_init (write_field 0 (vstr 1) (vint 9) co4).
Definition co6 := set_funcs [mkF 2 40 INVALID] (after vm_init (push_all [vint 5; vobj 0; vint 3; vint 1] co5)).
Definition co_m : memory := mem_write (mem_write (fun o k => if o =? 0 then vnil else vnil) 0 (vstr 0) (vfunc 0)) 0 (vstr 1) (vint 9).
Example C23_example : obj_history co6 co_m /\ string_room co6 /\ stack_is co6 ([vint 5] ++ call_frame (vobj 0) [vint 3]) /\ ip_is co6 0 /\
  callable co6 co_m (vobj 0) 1 (vfunc 0) [vint 9] /\ function_is co6 (vfunc 0) (mkF 2 40 INVALID) /\ accepts 2 (zlen ([vint 9] ++ [vint 3])) /\
  fits co6 ([vint 5] ++ call_frame (vobj 0) ([vint 9] ++ [vint 3]) ++ [vint 0]).
Proof.
  assert (obj_history co3 (fun o k => if o =? 0 then vnil else vnil)) as H3.
  { eapply oh_create with (s := co2) (m := fun _ _ => vnil); [|vm_compute; reflexivity].
    eapply oh_string with (s := co1) (t := bs "_data"); [|repeat constructor|vm_compute; reflexivity].
    eapply oh_string with (s := vm_init) (t := bs "_exec"); [|repeat constructor|vm_compute; reflexivity].
    apply oh_init; try reflexivity. eexists. reflexivity. }
  assert (obj_history co5 co_m) as H5.
  { refine (oh_write co4 _ 0 (vstr 1) (vint 9) co5 (oh_write co3 _ 0 (vstr 0) (vfunc 0) co4 H3 _ _ _ _) _ _ _ _);
      try (vm_compute; reflexivity); try (vm_compute; discriminate); try (split; [discriminate|]; vm_compute; auto). all: split; [cbn [v_data vstr]; unfold W32; lia|right; right; left; split; [reflexivity|eexists; vm_compute; reflexivity]]. }
  split; [|split; [|split; [|split; [|split; [|split; [|split]]]]]].
  - eapply oh_other; [exact H5|reflexivity..|]. eexists. vm_compute. reflexivity.
  - exists 5, 6. split; [unfold W31; lia|]. split; [unfold W31; lia|]. split; [lia|]. split; vm_compute; reflexivity.
  - stk 2.
  - eexists. split; [vm_compute; reflexivity|reflexivity].
  - eapply (cl_data _ _ _ (vfunc 0) (vint 9) 0 (vfunc 0) []); [reflexivity|vm_compute; discriminate| | |discriminate|].
    + left. exists 0. split; vm_compute; reflexivity.
    + left. exists 1. split; vm_compute; reflexivity.
    + apply cl_end. discriminate.
  - split; vm_compute; reflexivity.
  - right. reflexivity.
  - split; vm_compute; discriminate.
Qed.
(** An object whose "_exec" is the object itself. *)
Definition cy4 := after vm_init (write_field 0 (vstr 0) (vobj 0) co3).
Definition cy6 := after vm_init (push_all [vobj 0; vint 3; vint 1] cy4).
Definition cy_m : memory := mem_write (fun o k => if o =? 0 then vnil else vnil) 0 (vstr 0) (vobj 0).
Example C23_too_deep_example : stack_is cy6 ([] ++ call_frame (vobj 0) [vint 3]) /\ deep cy6 cy_m (vobj 0) 11 0.
Proof.
  split; [stk 2|]. do 10 (eapply dp_plain with (x := vobj 0); [reflexivity|vm_compute; discriminate|left; exists 0; split; vm_compute; reflexivity|left; exists 1; split; vm_compute; reflexivity|]).
  apply dp_end; [reflexivity|vm_compute; discriminate].
Qed.
