(** * OpProperties: arithmetic, logic, limits and errors (C19, C20, C24, C25, C53-C55) *)
From Coq Require Import Floats.SpecFloat.
From Verif Require Import Base BaseFacts.
From Verif Require Import MonadFacts StackProofs FrameProofs HostModel HostProofs VmSpec VmStep VmProperties ApiModel OpSpec OpProofs.

(** A stack to try things on. *)
Definition with_values (l : list value) : vm :=
  match push_all l vm_init with Ok (_, s) => s | Ub _ => vm_init end.

(** ** C19 *)

(** C19: dividing the integer [a] by any value [b] that converts to an
    integer reports an error when [b] is zero or the quotient would not fit,
    and otherwise replaces the two operands by the truncated quotient. *)
Theorem C19_divide host s st a b y :
  stack_is s (st ++ [a; b]) -> v_type a = T_INT -> as_int s b y ->
  exists s', opcode host O_DIVIDE s = Ok (tt, s') /\
    (y = 0 \/ (v_int a = - W31 /\ y = -1) -> failed s st s') /\
    (y <> 0 -> ~ (v_int a = - W31 /\ y = -1) ->
       exists q r, truncating (v_int a) y q r /\ is_s32 q /\ restacked s (st ++ [vint q]) s').
Proof.
  intros S T Y. destruct (divide_run s st a b _ y S T eq_refl Y) as (s' & E & F). exists s'. split; auto. clear E.
  destruct (Z.eqb_spec y 0) as [Y0|Y0]; cbn [orb] in F.
  - split; [auto|lia].
  - destruct (Z.eqb_spec (v_int a) (- W31)) as [A0|A0], (Z.eqb_spec y (-1)) as [Y1|Y1]; cbn [andb] in F.
    + split; [auto|tauto].
    + split; [lia|]. intros. exists (Z.quot (v_int a) y), (Z.rem (v_int a) y). sp; auto.
      * apply quot_truncating; auto.
      * apply quot_s32; auto. apply v_int_s32.
    + split; [lia|]. intros. exists (Z.quot (v_int a) y), (Z.rem (v_int a) y). sp; auto.
      * apply quot_truncating; auto.
      * apply quot_s32; auto. apply v_int_s32.
    + split; [lia|]. intros. exists (Z.quot (v_int a) y), (Z.rem (v_int a) y). sp; auto.
      * apply quot_truncating; auto.
      * apply quot_s32; auto. apply v_int_s32.
Qed.

(** C19, modulo. *)
Theorem C19_modulo host s st a b y :
  stack_is s (st ++ [a; b]) -> v_type a = T_INT -> as_int s b y ->
  exists s', opcode host O_MODULO s = Ok (tt, s') /\
    (y = 0 \/ (v_int a = - W31 /\ y = -1) -> failed s st s') /\
    (y <> 0 -> ~ (v_int a = - W31 /\ y = -1) ->
       exists q r, truncating (v_int a) y q r /\ restacked s (st ++ [vint r]) s').
Proof.
  intros S T Y. destruct (modulo_run s st a b _ y S T eq_refl Y) as (s' & E & F). exists s'. split; auto. clear E.
  destruct (Z.eqb_spec y 0) as [Y0|Y0]; cbn [orb] in F.
  - split; [auto|lia].
  - destruct (Z.eqb_spec (v_int a) (- W31)) as [A0|A0], (Z.eqb_spec y (-1)) as [Y1|Y1]; cbn [andb] in F.
    + split; [auto|tauto].
    + split; [lia|]. intros. exists (Z.quot (v_int a) y), (Z.rem (v_int a) y). sp; auto. apply quot_truncating; auto.
    + split; [lia|]. intros. exists (Z.quot (v_int a) y), (Z.rem (v_int a) y). sp; auto. apply quot_truncating; auto.
    + split; [lia|]. intros. exists (Z.quot (v_int a) y), (Z.rem (v_int a) y). sp; auto. apply quot_truncating; auto.
Qed.

(** C19: whatever the program, whatever the operands, no machine division
    traps. *)
Theorem C19_never_traps hostmark prog code s s' :
  vm_ok s -> pow2 (zlen code) -> runs hostmark (api_host hostmark prog) (load_code code s) s' ->
  has_errors s' = false -> v_gcpass s' < INVALID ->
  iterate hostmark (api_host hostmark prog) s' <> Ub UbDivTrap.
Proof.
  intros H P R E G Q. destruct (C18_any_program hostmark prog code s s' H P R) as (_ & I).
  destruct (I E G _ Q); discriminate.
Qed.
Print Assumptions C19_divide.
Print Assumptions C19_modulo.
Print Assumptions C19_never_traps.

(* hypotheses met by -7 / "2", and the machine traps really are modelled *)
Example C19_example : stack_is (with_values [vint 5; vint (-7); vint 2]) ([vint 5] ++ [vint (-7); vint 2]) /\
  as_int (with_values [vint 5; vint (-7); vint 2]) (vint 2) 2 /\
  c_div 1 0 = Ub UbDivTrap /\ c_rem (- W31) (-1) = Ub UbDivTrap.
Proof.
  sp; [eexists; split; [vm_compute; reflexivity|]|apply ai_int; reflexivity|reflexivity|reflexivity].
  split; [|reflexivity]. split; try reflexivity; [exists 2; split; [lia|reflexivity]|vm_compute; split; congruence].
Qed.
Example C19_results :
  (match op_divide (with_values [vint 5; vint (-7); vint 2]) with
   | Ok (_, s) => match znth (v_ctxs s) 0 with Some (Some c) => Some (contents (c_stack c)) | _ => None end
   | Ub _ => None end) = Some [vint 5; vint (-3)] /\
  (match op_modulo (with_values [vint 5; vint (-7); vint 2]) with
   | Ok (_, s) => match znth (v_ctxs s) 0 with Some (Some c) => Some (contents (c_stack c)) | _ => None end
   | Ub _ => None end) = Some [vint 5; vint (-1)].
Proof. split; vm_compute; reflexivity. Qed.

(** ** C53: integer arithmetic is exact *)

(** C53: +, - and * on an integer and a value that converts to one give the
    exact mathematical result when it fits in 32 bits; otherwise the C code
    overflows a signed integer. *)
Theorem C53_exact host s st a b y :
  stack_is s (st ++ [a; b]) -> v_type a = T_INT -> as_int s b y ->
  forall op f, In (op, f) [(O_ADD, Z.add); (O_SUBTRACT, Z.sub); (O_MULTIPLY, Z.mul)] ->
  (is_s32 (f (v_int a) y) -> exists s', opcode host op s = Ok (tt, s') /\ restacked s (st ++ [vint (f (v_int a) y)]) s') /\
  (~ is_s32 (f (v_int a) y) -> opcode host op s = Ub UbSignedOverflow).
Proof.
  intros S T Y op f H. destruct (two_ints s st a b _ y S T eq_refl Y) as (t & R & C & D).
  assert (opcode host op s = push_signed (f (v_int a) y) t) as E.
  { cbn [In] in H. destruct H as [H|[H|[H|[]]]]; injection H as <- <-;
    [change (opcode host O_ADD) with op_add; unfold op_add|change (opcode host O_SUBTRACT) with op_subtract; unfold op_subtract
    |change (opcode host O_MULTIPLY) with op_multiply; unfold op_multiply]; rewrite D; cbv beta zeta; rewrite T;
    change (T_INT =? T_INT) with true; cbv iota; rewrite (bind_run _ _ _ _ _ C); reflexivity. }
  rewrite E. pose proof (signed_run s st (f (v_int a) y) t R) as Q.
  destruct (in_s32 (f (v_int a) y)) eqn:I.
  - apply in_s32_spec in I. split; [auto|tauto].
  - split; [|auto]. intro N. apply in_s32_spec in N. congruence.
Qed.
Print Assumptions C53_exact.

Theorem C53_negate host s st a : stack_is s (st ++ [a]) -> v_type a = T_INT ->
  (v_int a <> - W31 -> exists s', opcode host O_NEGATE s = Ok (tt, s') /\ restacked s (st ++ [vint (- v_int a)]) s') /\
  (v_int a = - W31 -> opcode host O_NEGATE s = Ub UbSignedOverflow).
Proof.
  intros S T. change (opcode host O_NEGATE) with op_negate.
  pose proof (rs_start _ _ S) as R. destruct (pop_rs _ _ _ _ _ R) as (t & P & R1).
  assert (op_negate s = push_signed (- v_int a) t) as E.
  { unfold op_negate. rewrite (bind_run _ _ _ _ _ P). cbv zeta. rewrite T. reflexivity. }
  rewrite E. pose proof (v_int_s32 a) as B. unfold push_signed. destruct (in_s32 (- v_int a)) eqn:I.
  - apply in_s32_spec in I. unfold is_s32 in *. split; [|lia]. intros _. unfold push_int.
    destruct (push_rs _ _ (vint (- v_int a)) _ _ R1 ltac:(lia)) as (t2 & P2 & R2). rewrite P2.
    eexists. split; [reflexivity|]. eapply rs_restacked; eauto.
  - split; [|auto]. intro N. exfalso. assert (is_s32 (- v_int a)) as J by (unfold is_s32 in *; lia).
    apply in_s32_spec in J. congruence.
Qed.
Print Assumptions C53_negate.
Example C53_example : op_multiply (with_values [vint 65536; vint 65536]) = Ub UbSignedOverflow /\
  exists s, op_multiply (with_values [vint 65535; vint (-32768)]) = Ok (tt, s) /\ stack_is s [vint (-2147450880)].
Proof.
  split; [vm_compute; reflexivity|]. eexists. split; [vm_compute; reflexivity|].
  eexists. split; [vm_compute; reflexivity|]. split; [|reflexivity].
  split; try reflexivity; [exists 1; split; [lia|reflexivity]|vm_compute; split; congruence].
Qed.

(** ** C20 *)

(** C20: [!a] is 1 exactly when [a] converts to zero, and that is exactly
    when the conditional jump behind if() is taken. *)
Theorem C20_not host s st a x : stack_is s (st ++ [a]) -> as_int s a x ->
  exists s', opcode host O_NOT s = Ok (tt, s') /\
    (x = 0 -> restacked s (st ++ [vint 1]) s') /\ (x <> 0 -> restacked s (st ++ [vint 0]) s').
Proof.
  intros S X. destruct (not_run s st a x S X) as (s' & E & F). exists s'. split; auto.
  destruct (Z.eqb_spec x 0); cbn [b2z] in F; split; auto; lia.
Qed.
Theorem C20_if host s st test off x n ip :
  stack_is s (st ++ [test; off]) -> as_int s test x -> as_int s off n -> ip_is s ip ->
  exists s', opcode host O_JZ s = Ok (tt, s') /\
    (x = 0 -> moved s st (u32 (ip + n)) s') /\ (x <> 0 -> restacked s st s').
Proof.
  intros S X Y I. destruct (jz_run s st test off x n ip S X Y I) as (s' & E & F). exists s'. split; auto.
  destruct (Z.eqb_spec x 0); split; auto; lia.
Qed.
Print Assumptions C20_not.
Print Assumptions C20_if.

(** && and || keep only the lowest byte of each converted operand: what they
    compute, exactly. *)
Theorem C20_and_or_exact host s st a b x y :
  stack_is s (st ++ [a; b]) -> as_int s a x -> as_int s b y ->
  exists s1 s2, opcode host O_AND s = Ok (tt, s1) /\ opcode host O_OR s = Ok (tt, s2) /\
    (x mod 256 <> 0 /\ y mod 256 <> 0 -> restacked s (st ++ [vint 1]) s1) /\
    (x mod 256 = 0 \/ y mod 256 = 0 -> restacked s (st ++ [vint 0]) s1) /\
    (x mod 256 <> 0 \/ y mod 256 <> 0 -> restacked s (st ++ [vint 1]) s2) /\
    (x mod 256 = 0 /\ y mod 256 = 0 -> restacked s (st ++ [vint 0]) s2).
Proof.
  intros S X Y. destruct (two_truths s st a b x y andb S X Y) as (s1 & E1 & F1).
  destruct (two_truths s st a b x y orb S X Y) as (s2 & E2 & F2).
  exists s1, s2. split; [exact E1|]. split; [exact E2|]. clear E1 E2.
  pose proof (nkbool_zero x) as NX. pose proof (nkbool_zero y) as NY.
  destruct (nkbool_of x), (nkbool_of y); cbn [andb orb b2z] in *;
  repeat match goal with H : false = false <-> _ |- _ => destruct H as [H _]; specialize (H eq_refl) end;
  assert (true = false -> False) as TF by discriminate; tauto.
Qed.
Print Assumptions C20_and_or_exact.

(** So the stated property of && and || is false: 256 && 1 is 0 and
    256 || 0 is 0, although if(256) takes its branch. *)
Theorem C20_and_or_refuted : exists s s1 s2 st a b,
  stack_is s (st ++ [a; b]) /\ as_int s a 256 /\ as_int s b 1 /\
  op_and s = Ok (tt, s1) /\ stack_is s1 (st ++ [vint 0]) /\
  exists b', stack_is s2 (st ++ [a; b']) /\ as_int s2 b' 0 /\
  exists s3, op_or s2 = Ok (tt, s3) /\ stack_is s3 (st ++ [vint 0]).
Proof.
  exists (with_values [vint 256; vint 1]).
  eexists. exists (with_values [vint 256; vint 0]), [], (vint 256), (vint 1).
  assert (forall l, kwf l -> kwf l) as _ by auto.
  split. { eexists. split; [vm_compute; reflexivity|]. split; [|reflexivity]. split; try reflexivity; [exists 1; split; [lia|reflexivity]|vm_compute; split; congruence]. }
  split; [apply ai_int; reflexivity|]. split; [apply ai_int; reflexivity|].
  split; [vm_compute; reflexivity|].
  split. { eexists. split; [vm_compute; reflexivity|]. split; [|reflexivity]. split; try reflexivity; [exists 1; split; [lia|reflexivity]|vm_compute; split; congruence]. }
  exists (vint 0).
  split. { eexists. split; [vm_compute; reflexivity|]. split; [|reflexivity]. split; try reflexivity; [exists 1; split; [lia|reflexivity]|vm_compute; split; congruence]. }
  split; [apply ai_int; reflexivity|]. eexists. split; [vm_compute; reflexivity|].
  eexists. split; [vm_compute; reflexivity|]. split; [|reflexivity]. split; try reflexivity; [exists 1; split; [lia|reflexivity]|vm_compute; split; congruence].
Qed.
Print Assumptions C20_and_or_refuted.

(** The part that holds: operands that are zero or not multiples of 256. *)
Theorem C20_and_or_partial host s st a b x y :
  stack_is s (st ++ [a; b]) -> as_int s a x -> as_int s b y ->
  (x = 0 \/ x mod 256 <> 0) -> (y = 0 \/ y mod 256 <> 0) ->
  exists s1 s2, opcode host O_AND s = Ok (tt, s1) /\ opcode host O_OR s = Ok (tt, s2) /\
    (x <> 0 /\ y <> 0 -> restacked s (st ++ [vint 1]) s1) /\ (~ (x <> 0 /\ y <> 0) -> restacked s (st ++ [vint 0]) s1) /\
    (x <> 0 \/ y <> 0 -> restacked s (st ++ [vint 1]) s2) /\ (~ (x <> 0 \/ y <> 0) -> restacked s (st ++ [vint 0]) s2).
Proof.
  intros S X Y HX HY. destruct (C20_and_or_exact host s st a b x y S X Y) as (s1 & s2 & E1 & E2 & F1 & F2 & F3 & F4).
  exists s1, s2. split; auto. split; auto. clear - HX HY F1 F2 F3 F4.
  assert (x = 0 -> x mod 256 = 0) by (intros ->; reflexivity). assert (y = 0 -> y mod 256 = 0) by (intros ->; reflexivity).
  destruct (Z.eq_dec x 0), (Z.eq_dec y 0); sp; intros; tauto.
Qed.
Print Assumptions C20_and_or_partial.

(** ** C24 *)
Definition clock (s : vm) : Z := v_left s + v_gccount s.

Lemma api_host_keeps hostmark prog cb args : settles (api_host hostmark prog cb args).
Proof. apply k_run_host. Qed.

Lemma unlimited_clock hostmark host s s' : (forall cb args, settles (host cb args)) ->
  iterate hostmark host s = Ok (tt, s') -> v_left s = INVALID -> 1 <= v_gccount s <= v_gcint s -> v_gcint s < W32 ->
  v_left s' = INVALID /\ v_gcint s' = v_gcint s /\ 1 <= v_gccount s' <= v_gcint s.
Proof.
  intros Hh E L C G. unfold iterate in E.
  destruct (bind_inv _ _ _ _ _ E) as (w & s1 & E1 & E2). clear E.
  assert (settled s s1) as S1 by (eapply k_fetch; eauto).
  destruct (bind_inv _ _ _ _ _ E2) as (go & s2 & E3 & E4). clear E2.
  rewrite <- (st_gccount _ _ S1) in *. rewrite <- (st_gcint _ _ S1) in *. rewrite <- (st_left _ _ S1) in *.
  clear S1 E1. unfold tick in E3. unfold mbind at 1, modify at 1 in E3. unfold mbind at 1, self, gets in E3. vsin E3.
  assert (u32 (v_gccount s1 - 1) = v_gccount s1 - 1) as U by (apply u32_id; unfold is_u32; lia). rewrite U in E3.
  assert (go = true /\ v_left s2 = INVALID /\ v_gcint s2 = v_gcint s1 /\ 1 <= v_gccount s2 <= v_gcint s1) as (-> & Q1 & Q2 & Q3).
  { destruct (Z.eqb_spec (v_gccount s1 - 1) 0) as [Z0|Z0]; cbn [negb] in E3.
    - rewrite L, Z.eqb_refl in E3. unfold mbind at 1, ret at 1 in E3.
      destruct (bind_inv _ _ _ _ _ E3) as (u & s3 & E5 & E6). clear E3. vsin E5.
      unfold mbind, modify, ret in E6. injection E6 as <- <-. vs.
      assert (settled (set_gccount (v_gccount s1 - 1) s1) s3 \/ settled (set_gccount (v_gccount s1 - 1) s1) (set_newcount (v_newcount s1) s3)) as K.
      { revert E5. destruct (v_newcount s1 =? 0); intro E5.
        - destruct (bind_inv _ _ _ _ _ E5) as (u2 & s5 & A1 & A2). injection A2 as _ <-.
          right. pose proof (k_gc hostmark _ _ _ A1) as K. destruct K. split; auto.
        - unfold ret in E5. injection E5 as _ <-. left. apply settled_refl. }
      assert (v_left s3 = v_left s1 /\ v_gcint s3 = v_gcint s1) as (-> & ->).
      { destruct K as [K|K]; pose proof (st_left _ _ K) as K1; pose proof (st_gcint _ _ K) as K2; vsin K1; vsin K2; auto. }
      sp; auto; lia.
    - unfold ret in E3. injection E3 as <- <-. vs. sp; auto; lia. }
  destruct (bind_inv _ _ _ _ _ E4) as (u & s3 & E5 & E6).
  assert (settled s2 s') as K.
  { eapply settled_trans; [eapply k_opcode; eauto|].
    assert (settles (ip <- get_ip ;; set_ip (u32 (ip + 1)))) as K by keep. eapply K; eauto. }
  rewrite (st_left _ _ K), (st_gcint _ _ K), (st_gccount _ _ K). auto.
Qed.

Lemma clocked_ok hostmark prog s : clocked hostmark (api_host hostmark prog) s ->
  1 <= v_gccount s <= v_gcint s /\ v_gcint s < W32 /\ 0 <= v_left s <= INVALID.
Proof.
  induction 1 as [|n s s' H IH N E|n s s' H IH N E|code m s H IH|s s' H IH E NE].
  - vm_compute. intuition congruence.
  - unfold set_instruction_limit, modify in E. injection E as <-. vs. lia.
  - unfold set_gc_interval, modify in E. injection E as <-. unfold INVALID in *.
    destruct (Z.ltb_spec n (v_gccount s)); vs; unfold W32; lia.
  - vs. exact IH.
  - destruct IH as (A & B & C). destruct (Z.eq_dec (v_left s) INVALID) as [U|U].
    + destruct (unlimited_clock _ _ s s' (api_host_keeps hostmark prog) E U ltac:(lia) B) as (U' & G & K). rewrite U', G.
      unfold INVALID in *. lia.
    + destruct (iterate_clock hostmark _ (api_host_keeps hostmark prog) s s' E) as (G & [(K & D & L)|(_ & _ & K)]); [lia..| |congruence].
      rewrite G. lia.
Qed.

(** C24: from any VM set up by the host with an instruction limit, at most
    limit + interval iterations can be started before one ends in an error.
    More exactly, every iteration without an error takes one off
    [clock] = remaining limit + instructions to the next check. *)
Theorem C24_exact hostmark prog s l s' :
  clocked hostmark (api_host hostmark prog) s -> v_left s <> INVALID ->
  trace hostmark (api_host hostmark prog) s l s' -> (forall x, In x l -> has_errors x = false) -> has_errors s' = false ->
  zlen l = clock s - clock s' /\ zlen l < v_left s + v_gcint s.
Proof.
  intros K L T E E'. assert (zlen l = clock s - clock s' /\ clocked hostmark (api_host hostmark prog) s' /\ v_left s' <> INVALID /\ v_gcint s' = v_gcint s) as (A & B & C & D).
  { induction T as [s|s s1 l s' I T IH].
    - sp; auto. unfold zlen. cbn. lia.
    - pose proof (clocked_ok _ _ _ K) as (O1 & O2 & O3).
      assert (has_errors s1 = false) as E1.
      { destruct T; auto. apply E. right. left. auto. }
      destruct (iterate_clock hostmark _ (api_host_keeps hostmark prog) s s1 I) as (G & [(Q & W & V & _)|(_ & _ & Q)]); [lia..| |congruence].
      destruct IH as (A & B & C & D); auto.
      + eapply ck_run; eauto.
      + lia.
      + intros x Hx. apply E. right. auto.
      + sp; auto; [|congruence]. rewrite zlen_cons. unfold clock in *. lia. }
  pose proof (clocked_ok _ _ _ K). pose proof (clocked_ok _ _ _ B). split; auto. unfold clock in *. lia.
Qed.
Theorem C24_bound hostmark prog s l s' :
  clocked hostmark (api_host hostmark prog) s -> v_left s <> INVALID ->
  trace hostmark (api_host hostmark prog) s l s' -> (forall x, In x l -> has_errors x = false) ->
  zlen l <= v_left s + v_gcint s.
Proof.
  intros K L T E. destruct (has_errors s') eqn:E'.
  - destruct l as [|y l] using rev_ind.
    + pose proof (clocked_ok _ _ _ K). unfold zlen. cbn. lia.
    + assert (exists t, trace hostmark (api_host hostmark prog) s l t /\ t = y) as (t & T1 & ->).
      { clear - T. remember (l ++ [y]) as m eqn:M. revert l M. induction T as [s|s s1 m s' I T IH]; intros l M.
        - destruct l; discriminate.
        - destruct l as [|z l].
          + injection M as -> M. exists y. split; [constructor|auto].
          + injection M as -> M. destruct (IH l M) as (t & A & B). exists t. split; auto. econstructor; eauto. }
      destruct (C24_exact hostmark prog s l y K L T1) as (_ & B).
      * intros x Hx. apply E. apply in_or_app. auto.
      * apply E. apply in_or_app. right. left. auto.
      * rewrite zlen_app. unfold zlen at 2. cbn. lia.
  - destruct (C24_exact hostmark prog s l s' K L T E E') as (_ & B). lia.
Qed.
(** Hence every program run with a limit stops: nkiVmExecuteProgram returns
    within that many iterations. *)
Theorem C24_terminates hostmark prog s fuel r s' :
  clocked hostmark (api_host hostmark prog) s -> v_left s <> INVALID -> has_errors s = false ->
  v_left s + v_gcint s <= Z.of_nat fuel ->
  execute hostmark (api_host hostmark prog) fuel s = Ok (r, s') -> r <> None.
Proof.
  intros K L E F X Rn. subst r.
  assert (exists l, trace hostmark (api_host hostmark prog) s l s' /\ length l = fuel /\
            (forall x, In x l -> has_errors x = false) /\ has_errors s' = false) as (l & T & N & Q & Q').
  { clear K L F. revert s E X. induction fuel as [|fuel IH]; intros s E X; cbn [execute] in X.
    - destruct (bind_inv _ _ _ _ _ X) as (w & s1 & E1 & E2).
      apply fetch_inv in E1 as F1. subst s1.
      destruct (w =? OP_END); [discriminate|]. unfold ret in E2. injection E2 as <-. exists []. sp; auto; [constructor|intros x []].
    - destruct (bind_inv _ _ _ _ _ X) as (w & s1 & E1 & E2). clear X.
      apply fetch_inv in E1 as F1. subst s1.
      destruct (w =? OP_END); [discriminate|].
      destruct (bind_inv _ _ _ _ _ E2) as ([] & s2 & E3 & E4). unfold mbind, self, gets in E4.
      destruct (has_errors s2) eqn:H2; [discriminate|]. destruct (IH s2 H2 E4) as (l & T & N & Q & Q').
      exists (s :: l). sp; auto.
      + econstructor; eauto.
      + cbn. auto.
      + intros x [<-|Hx]; auto. }
  destruct (C24_exact hostmark prog s l s' K L T Q Q') as (_ & B). unfold zlen in B. lia.
Qed.
Print Assumptions C24_exact.
Print Assumptions C24_bound.
Print Assumptions C24_terminates.

(* an endless loop stops with an error after 9 instructions under limit 10, interval 3 *)
Definition ex_loop : list Z := [7; (* push *) 4294967293; 17; (* jump -3 *) 0].
Definition ex_limited : vm := set_left 10 (set_gcint 3 (set_gccount 3 (load_code ex_loop vm_init))).
Example C24_example : clocked nomark (api_host nomark ex_prog) ex_limited /\
  (exists s', run_n nomark (api_host nomark ex_prog) 11 ex_limited = Some s' /\ has_errors s' = false) /\
  exists s', execute nomark (api_host nomark ex_prog) 13 ex_limited = Ok (Some false, s').
Proof.
  split; [|split; eexists; vm_compute; auto].
  - eapply (ck_limit _ _ 10 (set_gcint 3 (set_gccount 3 (load_code ex_loop vm_init)))); [|unfold INVALID; lia|reflexivity].
    eapply (ck_interval _ _ 3 (load_code ex_loop vm_init)); [|unfold INVALID; lia|reflexivity]. apply ck_code. constructor.
Qed.
(** An interval of zero switches the limit off: with limit 0 and interval 0
    the endless loop runs on. *)
Theorem C24_zero_interval_refuted : exists s0 s1 s2 s',
  set_instruction_limit 0 (load_code ex_loop vm_init) = Ok (tt, s0) /\ set_gc_interval 0 s0 = Ok (tt, s1) /\
  run_n nomark (api_host nomark ex_prog) 200 s1 = Some s2 /\ has_errors s2 = false /\
  iterate nomark (api_host nomark ex_prog) s2 = Ok (tt, s') /\ has_errors s' = false.
Proof.
  eexists. eexists. eexists. eexists. split; [reflexivity|]. split; [reflexivity|].
  split; [vm_compute; reflexivity|]. split; [reflexivity|]. split; [vm_compute; reflexivity|]. reflexivity.
Qed.
Print Assumptions C24_zero_interval_refuted.

(** ** C25 *)

(** C25 for nkxVmIterate: the iterations it performs each start without an
    error, except possibly one that executes the end marker. *)
Theorem C25_iterate hostmark host n s s' : iterate_n hostmark host n s = Ok (tt, s') ->
  exists l, trace hostmark host s l s' /\ (length l <= n)%nat /\
    forall x, In x l -> has_errors x = false \/ at_end x.
Proof.
  revert s. induction n as [|n IH]; intros s E; cbn [iterate_n] in E.
  - unfold ret in E. injection E as <-. exists []. sp; [constructor|cbn; lia|intros x []].
  - destruct (bind_inv _ _ _ _ _ E) as (w & s1 & E1 & E2). clear E. apply fetch_inv in E1 as F. subst s1.
    destruct (Z.eqb_spec w OP_END) as [W|W].
    + subst w. exists [s]. sp; [econstructor; [exact E2|constructor]|cbn; lia|].
      intros x [<-|[]]. right. exact E1.
    + unfold mbind at 1, self, gets in E2. destruct (has_errors s) eqn:H.
      * unfold ret in E2. injection E2 as <-. exists []. sp; [constructor|cbn; lia|intros x []].
      * destruct (bind_inv _ _ _ _ _ E2) as ([] & s2 & E3 & E4). destruct (IH s2 E4) as (l & T & N & Q).
        exists (s :: l). sp; [econstructor; eauto|cbn; lia|]. intros x [<-|Hx]; auto.
Qed.
(* in particular, with an error pending it does nothing unless at the end marker *)
Theorem C25_iterate_pending hostmark host n s s' : has_errors s = true -> ~ at_end s ->
  iterate_n hostmark host n s = Ok (tt, s') -> s' = s.
Proof.
  intros H N E. destruct n as [|n]; cbn [iterate_n] in E.
  - unfold ret in E. injection E as <-. auto.
  - destruct (bind_inv _ _ _ _ _ E) as (w & s1 & E1 & E2). clear E. apply fetch_inv in E1 as F. subst s1.
    destruct (Z.eqb_spec w OP_END) as [W|W]; [subst w; destruct (N E1)|].
    unfold mbind at 1, self, gets in E2. rewrite H in E2. unfold ret in E2. injection E2 as <-. auto.
Qed.
(** C25 for nkxVmExecuteProgram, started without a pending error: every
    iteration starts without an error; it returns true exactly at the end
    marker and false exactly when an error was recorded.
    Missing: with an error already pending it still executes one
    instruction (next theorem). *)
Theorem C25_execute_partial hostmark host fuel s r s' : has_errors s = false ->
  execute hostmark host fuel s = Ok (r, s') ->
  exists l, trace hostmark host s l s' /\ (forall x, In x l -> has_errors x = false /\ ~ at_end x) /\
    (r = Some true -> at_end s' /\ has_errors s' = false) /\ (r = Some false -> has_errors s' = true).
Proof.
  revert s. induction fuel as [|fuel IH]; intros s H E; cbn [execute] in E;
  destruct (bind_inv _ _ _ _ _ E) as (w & s1 & E1 & E2); clear E; apply fetch_inv in E1 as F; subst s1;
  destruct (Z.eqb_spec w OP_END) as [W|W].
  - unfold ret in E2. injection E2 as <- <-. exists []. sp; [constructor|intros x []|intros _; subst w; auto|discriminate].
  - unfold ret in E2. injection E2 as <- <-. exists []. sp; [constructor|intros x []|discriminate|discriminate].
  - unfold ret in E2. injection E2 as <- <-. exists []. sp; [constructor|intros x []|intros _; subst w; auto|discriminate].
  - destruct (bind_inv _ _ _ _ _ E2) as ([] & s2 & E3 & E4). clear E2. unfold mbind, self, gets in E4.
    assert (~ at_end s) as NE. { intro A. unfold at_end in A. rewrite E1 in A. injection A as A. auto. }
    destruct (has_errors s2) eqn:H2.
    + unfold ret in E4. injection E4 as <- <-. exists [s]. sp; [econstructor; [exact E3|constructor]| |discriminate|auto].
      intros x [<-|[]]. auto.
    + destruct (IH s2 H2 E4) as (l & T & Q & Q1 & Q2). exists (s :: l). sp; [econstructor; eauto| |auto|auto].
      intros x [<-|Hx]; auto.
Qed.
(** nkxVmExecuteProgram does not look at the error state before its first
    instruction: with an error pending, an instruction is still executed. *)
Theorem C25_execute_pending_refuted : exists s s1 s',
  has_errors s = true /\ ~ at_end s /\ execute nomark (api_host nomark ex_prog) 5 s = Ok (Some false, s') /\
  stack_is s [] /\ stack_is s' [vint 42] /\ iterate nomark (api_host nomark ex_prog) s = Ok (tt, s1) /\ s1 = s'.
Proof.
  exists (set_errs [bs "compile error"] (load_code [7; 42; 20; 0] vm_init)). eexists. eexists.
  split; [reflexivity|]. split; [intro A; vm_compute in A; discriminate|].
  split; [vm_compute; reflexivity|].
  split. { eexists. split; [vm_compute; reflexivity|]. split; [apply stack_init_wf|reflexivity]. }
  split. { eexists. split; [vm_compute; reflexivity|]. split; [|reflexivity]. split; try reflexivity; [exists 0; split; [lia|reflexivity]|vm_compute; split; congruence]. }
  split; [vm_compute; reflexivity|reflexivity].
Qed.
Print Assumptions C25_iterate.
Print Assumptions C25_iterate_pending.
Print Assumptions C25_execute_partial.
Print Assumptions C25_execute_pending_refuted.

(* a program that divides by zero and would go on: stops right there *)
Example C25_example : exists s', execute nomark (api_host nomark ex_prog) 20 (load_code [7; 1; 7; 0; 4; 7; 99; 20] vm_init) = Ok (Some false, s') /\
  stack_is s' [] /\ zlen (v_errs s') = 1.
Proof.
  eexists. split; [vm_compute; reflexivity|]. split; [|reflexivity].
  eexists. split; [vm_compute; reflexivity|]. split; [|reflexivity]. split; try reflexivity; [exists 1; split; [lia|reflexivity]|vm_compute; split; congruence].
Qed.

(** ** C54: a running program cannot change itself or its limits *)

(** C54: whatever the program and the (API-using) host functions do, the
    instructions, the function table, the registered host functions and
    types, the table of global variables, the size of the static area, the
    configured limits and the source positions stay as they are. *)
Theorem C54_program_fixed hostmark prog s s' : runs hostmark (api_host hostmark prog) s s' ->
  v_code s' = v_code s /\ v_cmask s' = v_cmask s /\ v_funcs s' = v_funcs s /\ v_extfuncs s' = v_extfuncs s /\
  v_exttypes s' = v_exttypes s /\ v_globals s' = v_globals s /\ v_smask s' = v_smask s /\
  v_maxstack s' = v_maxstack s /\ v_maxfields s' = v_maxfields s /\ v_gcint s' = v_gcint s /\ v_newint s' = v_newint s /\
  v_files s' = v_files s /\ v_markers s' = v_markers s.
Proof.
  induction 1 as [s|s s1 s2 R IH E G I]; [sp; auto|].
  assert (v_code s2 = v_code s1 /\ v_cmask s2 = v_cmask s1 /\ v_funcs s2 = v_funcs s1 /\ v_extfuncs s2 = v_extfuncs s1 /\
  v_exttypes s2 = v_exttypes s1 /\ v_globals s2 = v_globals s1 /\ v_smask s2 = v_smask s1 /\
  v_maxstack s2 = v_maxstack s1 /\ v_maxfields s2 = v_maxfields s1 /\ v_gcint s2 = v_gcint s1 /\ v_newint s2 = v_newint s1 /\
  v_files s2 = v_files s1 /\ v_markers s2 = v_markers s1) as D; [|intuition congruence].
  destruct (iterate_frame hostmark _ (api_host_keeps hostmark prog) s1 s2 I) as (F & _).
  destruct F. sp; auto.
Qed.
Print Assumptions C54_program_fixed.

(** ** C55: errors stay *)

(** C55: running never removes or changes an error that was reported, and the
    order is kept; so the number of errors never goes down. *)
Theorem C55_errors_stay hostmark prog s s' : runs hostmark (api_host hostmark prog) s s' ->
  exists l, v_errs s' = v_errs s ++ l.
Proof.
  induction 1 as [s|s s1 s2 R [l IH] E G I]; [exists []; rewrite app_nil_r; auto|].
  destruct (iterate_frame hostmark _ (api_host_keeps hostmark prog) s1 s2 I) as (_ & l' & L).
  exists (l ++ l'). rewrite L, IH, app_assoc. auto.
Qed.
Print Assumptions C55_errors_stay.
Example C54_C55_example : exists s', runs nomark (api_host nomark ex_prog) (load_code ex_code vm_init) s' /\
  v_code s' = ex_code /\ zlen (v_errs s') = 1.
Proof.
  destruct (run_n nomark (api_host nomark ex_prog) 5 (load_code ex_code vm_init)) as [s'|] eqn:E; [|vm_compute in E; discriminate].
  exists s'. split; [eapply run_n_runs; exact E|]. vm_compute in E. injection E as <-. auto.
Qed.
