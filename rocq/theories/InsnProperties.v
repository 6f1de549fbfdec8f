(** * InsnProperties: comparisons, variables, literals and jumps,
      concatenation (C56-C59) *)
From Coq Require Import Floats.SpecFloat.
From Verif Require Import Base BaseFacts.
From Verif Require Import MonadFacts StackProofs FrameProofs StrProofs ObjsSpec ObjsProofs HostModel HostProofs VmSpec VmStep VmProperties ApiModel.
From Verif Require Import OpSpec OpProofs OpProperties CallSpec CallProofs InsnSpec InsnProofs.

Ltac zl := repeat first [rewrite zlen_app|rewrite zlen_cons]; change (zlen (@nil value)) with 0; lia.

(** ** C56 *)

(** C56: each comparison replaces its two operands by 1 if it holds and by 0
    otherwise, according to one and the same three-way order; so exactly one
    of <, == and > holds, != is the opposite of ==, and <= and >= are < or ==
    and > or ==. *)
Theorem C56_compare host s st a b c op P : stack_is s (st ++ [a; b]) -> orders s a b c -> In (op, P) comparisons ->
  exists s' v, opcode host op s = Ok (tt, s') /\ restacked s (st ++ [vint v]) s' /\ answers (P c) v.
Proof.
  intros S O H. unfold comparisons in H. cbn [In] in H.
  assert (forall f, (forall d, answers (P d) (b2z (f (c2z d)))) ->
    opcode host op = (c <- internal_compare ;; push_int (b2z (f c))) ->
    exists s' v, opcode host op s = Ok (tt, s') /\ restacked s (st ++ [vint v]) s' /\ answers (P c) v) as K.
  { intros f A E. rewrite E. destruct (compared_run s st a b c f S O) as (s' & Q & R). exists s'. eexists. eauto. }
  unfold answers in *.
  destruct H as [H|[H|[H|[H|[H|[H|[]]]]]]]; injection H as <- <-;
  [apply (K (fun c => c =? -1))|apply (K (fun c => c =? 1))|apply (K (fun c => c =? 0))
  |apply (K (fun c => (c =? 0) || (c =? -1)))|apply (K (fun c => (c =? 0) || (c =? 1)))|apply (K (fun c => negb (c =? 0)))];
  try reflexivity; intros []; cbn [c2z]; vm_compute; intuition congruence.
Qed.

(** === is 0 for operands of different types and otherwise ==. *)
Theorem C56_same_type host s st a b : stack_is s (st ++ [a; b]) ->
  (v_type a <> v_type b -> exists s', opcode host O_SAME s = Ok (tt, s') /\ restacked s (st ++ [vint 0]) s') /\
  (forall c, v_type a = v_type b -> orders s a b c ->
     exists s' v, opcode host O_SAME s = Ok (tt, s') /\ restacked s (st ++ [vint v]) s' /\ answers (c = Eq) v).
Proof.
  intros S. change (opcode host O_SAME) with op_eqsame.
  pose proof S as S0. rewrite snoc2 in S0. pose proof (rs_start _ _ S0) as R.
  destruct (rs_at _ _ _ _ R) as (k & A & W & C & N).
  pose proof (contents_len _ W) as CL. rewrite C in CL. repeat rewrite ?zlen_app, ?zlen_cons, ?zlen_nil in CL.
  pose proof (zlen_nonneg st) as Z0. pose proof (kw_size _ W) as Sz. pose proof (kwf_cap _ W) as Cp.
  assert (op_eqsame s = if v_type b =? v_type a then (c <- internal_compare ;; push_int (b2z (c =? 0))) s
                        else (pop_n 2 ;;; push_int 0) s) as E.
  { unfold op_eqsame. rewrite (bind_run _ _ _ _ _ (stack_size_ok _ _ A)).
    assert (peek (k_size k - 1) s = Ok (b, s)) as P1.
    { apply (peek_in _ _ _ _ _ A W C); [zl|].
      rewrite znth_app_r by zl.
      replace (k_size k - 1 - zlen (st ++ [a])) with 0 by zl. reflexivity. }
    assert (peek (k_size k - 2) s = Ok (a, s)) as P2.
    { apply (peek_in _ _ _ _ _ A W C); [zl|].
      rewrite <- app_assoc. rewrite znth_app_r by lia. replace (k_size k - 2 - zlen st) with 0 by lia. reflexivity. }
    rewrite (bind_run _ _ _ _ _ P1), (bind_run _ _ _ _ _ P2). destruct (v_type b =? v_type a); reflexivity. }
  rewrite E. split.
  - intro T. destruct (Z.eqb_spec (v_type b) (v_type a)); [congruence|].
    unfold mbind. rewrite (pop_n_ok s k 2 A W) by lia.
    assert (rs s st 2 (with_stack (shrunk k 2) s)) as R2.
    { destruct R as (c & k0 & HX & W0 & C0 & N0 & Es). exists c, (shrunk k 2). split; [auto|].
      split; [apply shrunk_wf; auto; lia|]. split; [|split; [cbn; lia|reflexivity]].
      destruct (contents_app_pop k st [a; b] W) as (Q & _); [rewrite C, <- app_assoc; reflexivity|]. exact Q. }
    destruct (push_rs _ _ (vint 0) _ _ R2 ltac:(lia)) as (t & P & R3). exists t. split; [exact P|]. eapply rs_restacked; eauto.
  - intros c T O. rewrite T, Z.eqb_refl. destruct (compared_run s st a b c (fun c => c =? 0) S O) as (s' & Q & Rs).
    exists s'. eexists. split; [exact Q|]. split; [exact Rs|]. unfold answers. destruct c; vm_compute; intuition congruence.
Qed.
Print Assumptions C56_compare.
Print Assumptions C56_same_type.

Example C56_example : stack_is (with_values [vint 3; vint (-4)]) ([] ++ [vint 3; vint (-4)]) /\
  orders (with_values [vint 3; vint (-4)]) (vint 3) (vint (-4)) Gt /\ orders vm_init vnil (vint 3) Gt.
Proof.
  split; [|split].
  - eexists. split; [vm_compute; reflexivity|]. split; [|reflexivity].
    split; try reflexivity; [exists 1; split; [lia|reflexivity]|vm_compute; split; congruence].
  - apply (or_int _ (vint 3) (vint (-4)) (-4)); try reflexivity; [discriminate|].
    apply (ai_int _ (vint (-4))). reflexivity.
  - apply or_nil_left; [reflexivity|discriminate].
Qed.

(** ** C57 *)

(** C57: reading the global number [i] pushes its value and changes nothing
    else; assigning stores the value in that global only and leaves it on the
    stack as the value of the assignment. *)
Theorem C57_global host s st i x : 0 <= i <= v_smask s -> v_smask s < W31 -> pow2 (v_smask s + 1) ->
  (forall y, znth (v_static s) i = Some y -> stack_is s (st ++ [vint i]) ->
     exists s', opcode host O_STATICPEEK s = Ok (tt, s') /\ restacked s (st ++ [y]) s') /\
  (zlen (v_static s) = v_smask s + 1 -> stack_is s (st ++ [x; vint i]) ->
     exists s', opcode host O_STATICPOKE s = Ok (tt, s') /\ stored s i x (st ++ [x]) s').
Proof.
  intros B Sm Pw.
  assert (v_int (vint i) = i) as Vi by (apply s32_u32; unfold is_s32, W31 in *; lia).
  assert (Z.land (u32 i) (v_smask s) = i) as La.
  { rewrite u32_id by (unfold is_u32, W31, W32 in *; lia). destruct Pw as (e & Re & Ee).
    replace (v_smask s) with (Z.ones e) by (rewrite Z.ones_equiv; lia). rewrite Z.land_ones by lia. apply Z.mod_small. lia. }
  split.
  - intros y Y S. change (opcode host O_STATICPEEK) with op_static_peek. unfold op_static_peek.
    pose proof (rs_start _ _ S) as R. rpop R. change (negb (v_type (vint i) =? T_INT)) with false. cbv iota.
    assert (v_static t = v_static s /\ v_smask t = v_smask s) as [F1 F2].
    { destruct R as (c & k & H & _ & _ & _ & ->). unfold with_stack, upd_cur. rewrite H. split; reflexivity. }
    unfold mbind at 1, self, gets. rewrite Vi, F1, F2, La. unfold mbind at 1, lift, rd. rewrite Y.
    destruct (push_rs _ _ y _ _ R ltac:(lia)) as (t2 & P & R2). exists t2. split; [exact P|]. eapply rs_restacked; eauto.
  - intros L S. change (opcode host O_STATICPOKE) with op_static_poke. unfold op_static_poke. rewrite snoc2 in S.
    pose proof (rs_start _ _ S) as R. rpop R. change (negb (v_type (vint i) =? T_INT)) with false. cbv iota.
    assert (v_static t = v_static s /\ v_smask t = v_smask s) as [F1 F2].
    { destruct R as (c & k & H & _ & _ & _ & ->). unfold with_stack, upd_cur. rewrite H. split; reflexivity. }
    destruct (rs_at _ _ _ _ R) as (k & A & W & C & N). rewrite (bind_run _ _ _ _ _ (stack_size_ok _ _ A)).
    pose proof (contents_len _ W) as CL. rewrite C in CL. pose proof (zlen_nonneg st).
    assert (peek (k_size k - 1) t = Ok (x, t)) as P1.
    { repeat rewrite ?zlen_app, ?zlen_cons, ?zlen_nil in CL.
      apply (peek_in _ _ _ _ _ A W C); [zl|].
      rewrite znth_app_r by lia. replace (k_size k - 1 - zlen st) with 0 by lia. reflexivity. }
    rewrite (bind_run _ _ _ _ _ P1). unfold mbind at 1, self, gets. rewrite Vi, F1, F2, La.
    unfold mbind at 1, lift. rewrite wr_ok by lia. unfold modify. eexists. split; [reflexivity|].
    exists (zupd (v_static s) i x). split; [apply zupd_replaced; lia|].
    destruct R as (c & k0 & HX & W0 & C0 & N0 & ->). exists c, k0. split; [exact HX|]. split; [auto|]. split; [auto|].
    rewrite (with_stack_eq _ _ _ HX). reflexivity.
Qed.

(** Likewise for the operand stack, where locals live: index [i] counts from
    the bottom if it is not negative, and from the top of what remains after
    the index itself has been popped otherwise. *)
Theorem C57_local_read host s st i j y : stack_is s (st ++ [vint i]) -> is_s32 i -> slot_of st i j -> znth st j = Some y ->
  exists s', opcode host O_STACKPEEK s = Ok (tt, s') /\ restacked s (st ++ [y]) s'.
Proof.
  intros S Is Sl Y. change (opcode host O_STACKPEEK) with op_stack_peek. unfold op_stack_peek.
  assert (v_int (vint i) = i) as Vi by (apply s32_u32; auto).
  pose proof (rs_start _ _ S) as R. rpop R. change (negb (v_type (vint i) =? T_INT)) with false. cbv iota.
  rewrite <- Vi in Sl. destruct (addr_run _ _ _ _ (vint i) _ R eq_refl Sl) as (a & E & B & U).
  rewrite (bind_run _ _ _ _ _ E). rewrite <- U in *. rewrite (bind_run _ _ _ _ _ (rs_peek _ _ _ _ _ _ R B Y)).
  destruct (push_rs _ _ y _ _ R ltac:(lia)) as (t2 & P & R2). exists t2. split; [exact P|]. eapply rs_restacked; eauto.
Qed.

Theorem C57_local_write host s st x i j : stack_is s (st ++ [x; vint i]) -> is_s32 i -> slot_of (st ++ [x]) i j ->
  exists s' st', opcode host O_STACKPOKE s = Ok (tt, s') /\ restacked s st' s' /\ replaced (st ++ [x]) j x st'.
Proof.
  intros S Is Sl. change (opcode host O_STACKPOKE) with op_stack_poke. unfold op_stack_poke. rewrite snoc2 in S.
  assert (v_int (vint i) = i) as Vi by (apply s32_u32; auto).
  pose proof (rs_start _ _ S) as R. rpop R. change (negb (v_type (vint i) =? T_INT)) with false. cbv iota.
  rewrite <- Vi in Sl. destruct (addr_run _ _ _ _ (vint i) _ R eq_refl Sl) as (a & E & B & U).
  rewrite (bind_run _ _ _ _ _ E).
  destruct (rs_at _ _ _ _ R) as (k & A & W & C & N). rewrite (bind_run _ _ _ _ _ (stack_size_ok _ _ A)).
  pose proof (contents_len _ W) as CL. rewrite C in CL. pose proof (zlen_nonneg st).
  assert (peek (k_size k - 1) t = Ok (x, t)) as P1.
  { repeat rewrite ?zlen_app, ?zlen_cons, ?zlen_nil in CL.
    apply (peek_in _ _ _ _ _ A W C); [zl|].
    rewrite znth_app_r by lia. replace (k_size k - 1 - zlen st) with 0 by lia. reflexivity. }
  rewrite (bind_run _ _ _ _ _ P1). rewrite <- U in *. rewrite (bind_run _ _ _ _ _ (rs_peek_idx _ _ _ _ _ R B)).
  destruct (rs_set _ _ _ _ (u32 a) x R B) as (t2 & E2 & R2).
  exists t2, (zupd (st ++ [x]) (u32 a) x). split; [exact E2|]. split; [eapply rs_restacked; eauto|].
  apply zupd_replaced. exact B.
Qed.

(** An index that is not an integer is reported. *)
Theorem C57_bad_index host s st v op : stack_is s (st ++ [v]) -> v_type v <> T_INT ->
  In op [O_STACKPEEK; O_STACKPOKE; O_STATICPEEK; O_STATICPOKE] ->
  exists s', opcode host op s = Ok (tt, s') /\ failed s st s'.
Proof.
  intros S T H. pose proof (rs_start _ _ S) as R.
  assert (negb (v_type v =? T_INT) = true) as Nt by (destruct (Z.eqb_spec (v_type v) T_INT); [contradiction|reflexivity]).
  assert (forall msg K, exists s', (v <- pop ;; if negb (v_type v =? T_INT) then add_error msg else K v) s = Ok (tt, s') /\ failed s st s') as Q.
  { intros msg K. rpop R. rewrite Nt. eapply rs_error; eauto. }
  cbn [In] in H. destruct H as [<-|[<-|[<-|[<-|[]]]]];
  [apply (Q _ (fun v => a <- stack_addr v ;; x <- peek a ;; push x))
  |apply (Q _ (fun v => a <- stack_addr v ;; sz <- stack_size ;; x <- peek (sz - 1) ;; j <- peek_idx a ;; set_slot j x))
  |apply (Q _ (fun v => s <- self ;; x <- lift (rd (v_static s) (Z.land (u32 (v_int v)) (v_smask s))) ;; push x))
  |apply (Q _ (fun v => sz <- stack_size ;; x <- peek (sz - 1) ;; s <- self ;;
     st <- lift (wr (v_static s) (Z.land (u32 (v_int v)) (v_smask s)) x) ;; modify (set_static st)))].
Qed.
Print Assumptions C57_global.
Print Assumptions C57_local_read.
Print Assumptions C57_local_write.
Print Assumptions C57_bad_index.

Example C57_example : slot_of [vint 7; vint 8; vint 9] (-2) 1 /\ slot_of [vint 7; vint 8; vint 9] 2 2 /\
  (exists s', opcode (fun _ _ => ret vnil) O_STACKPEEK (with_values [vint 7; vint 8; vint 9; vint (-2)]) = Ok (tt, s') /\
     stack_is s' [vint 7; vint 8; vint 9; vint 8]).
Proof.
  split; [|split].
  - split; [vm_compute; split; congruence|right; vm_compute; split; reflexivity].
  - split; [vm_compute; split; congruence|left; vm_compute; split; congruence].
  - eexists. split; [vm_compute; reflexivity|]. eexists. split; [vm_compute; reflexivity|]. split; [|reflexivity].
    split; try reflexivity; [exists 2; split; [lia|reflexivity]|vm_compute; split; congruence].
Qed.

(** ** C58 *)

(** C58: a literal instruction pushes the code word that follows it, tagged
    with the literal's type, and steps over that word. *)
Theorem C58_literal host s st ip w op t : stack_is s st -> can_push s -> ip_is s ip -> code_at s (u32 (ip + 1)) w ->
  In (op, t) [(O_LIT_INT, T_INT); (O_LIT_FLOAT, T_FLOAT); (O_LIT_STRING, T_STRING); (O_LIT_FUNC, T_FUNC)] ->
  exists s', opcode host op s = Ok (tt, s') /\ moved s (st ++ [mkV t w]) (u32 (ip + 1)) s'.
Proof.
  intros S P I C H. cbn [In] in H.
  destruct H as [H|[H|[H|[H|[]]]]]; injection H as <- <-; apply literal_run; auto.
Qed.

Theorem C58_nil host s st : stack_is s st -> can_push s ->
  exists s' v, opcode host O_NIL s = Ok (tt, s') /\ restacked s (st ++ [v]) s' /\ v_type v = T_NIL.
Proof.
  intros S P. change (opcode host O_NIL) with op_push_nil. unfold op_push_nil.
  destruct (can_push_slot _ _ S P) as (t & E & F). rewrite (bind_run _ _ _ _ _ E).
  destruct (F vnil) as (t1 & E1 & (c & k & H & W & C & Et)).
  assert (exists old, get_slot (zlen st) t = Ok (old, t)) as [old G].
  { unfold set_slot in E1. unfold mbind at 1 in E1. unfold get_slot, mbind.
    destruct (cur_ctx t) as [[c0 t0]|] eqn:Q; [|discriminate].
    assert (t0 = t) as ->.
    { unfold cur_ctx, get_ctx in Q. unfold mbind, gets in Q. destruct (znth (v_ctxs t) (v_cur t)) as [[cc|]|]; try discriminate.
      injection Q as _ <-. reflexivity. }
    unfold lift, rd in *. unfold mbind, wr in E1. destruct (znth (k_vals (c_stack c0)) (zlen st)) as [o|]; [|discriminate].
    exists o. reflexivity. }
  rewrite (bind_run _ _ _ _ _ G). destruct (F (mkV T_NIL (v_data old))) as (t2 & E2 & R2).
  exists t2. eexists. split; [exact E2|]. split; [exact R2|reflexivity].
Qed.

(** Popping one value, or [n] values. *)
Theorem C58_pop host s st x : stack_is s (st ++ [x]) ->
  exists s', opcode host O_POP s = Ok (tt, s') /\ restacked s st s'.
Proof.
  intro S. change (opcode host O_POP) with op_pop. unfold op_pop. pose proof (rs_start _ _ S) as R. rpop R.
  eexists. split; [reflexivity|]. eapply rs_restacked; eauto.
Qed.
Theorem C58_popn host s st l v : stack_is s (st ++ l ++ [v]) -> as_int s v (zlen l) ->
  exists s', opcode host O_POPN s = Ok (tt, s') /\ restacked s st s'.
Proof. intros S I. exact (popn_run s st l v _ S I eq_refl). Qed.

(** Jumps go to the address of the jump plus the offset (the step to the next
    instruction comes on top); a conditional jump is taken when its test
    value converts to zero. *)
Theorem C58_jump host s st off n ip : stack_is s (st ++ [off]) -> as_int s off n -> ip_is s ip ->
  exists s', opcode host O_JUMP s = Ok (tt, s') /\ moved s st (u32 (ip + n)) s'.
Proof.
  intros S I P. change (opcode host O_JUMP) with op_jump. unfold op_jump. pose proof (rs_start _ _ S) as R. rpop R.
  rewrite (bind_run _ _ _ _ _ (as_int_run _ _ _ _ I (rs_strs _ _ _ _ R))).
  rewrite (bind_run _ _ _ _ _ (get_ip_run _ _ _ _ _ R P)). eapply set_ip_run; eauto.
Qed.
Theorem C58_jump_if_zero host s st test off x n ip :
  stack_is s (st ++ [test; off]) -> as_int s test x -> as_int s off n -> ip_is s ip ->
  exists s', opcode host O_JZ s = Ok (tt, s') /\
    (x = 0 -> moved s st (u32 (ip + n)) s') /\ (x <> 0 -> restacked s st s').
Proof. exact (C20_if host s st test off x n ip). Qed.

(** The end of the program keeps being the next instruction; values left on
    the stack are reported. *)
Theorem C58_end host s st ip : stack_is s st -> ip_is s ip ->
  exists s', opcode host O_END s = Ok (tt, s') /\
    (st = [] -> moved s st (u32 (ip - 1)) s') /\
    (st <> [] -> exists e, moved (set_errs (v_errs s ++ [e]) s) st (u32 (ip - 1)) s').
Proof.
  intros S I. change (opcode host O_END) with op_end. unfold op_end. pose proof (rs_start _ _ S) as R.
  destruct (rs_at _ _ _ _ R) as (k & A & W & C & N). rewrite (bind_run _ _ _ _ _ (stack_size_ok _ _ A)).
  pose proof (contents_len _ W) as CL. rewrite C in CL. destruct st as [|v st].
  - rewrite <- CL. change (zlen (@nil value) =? 0) with true. cbv iota.
    unfold mbind at 1, ret at 1. rewrite (bind_run _ _ _ _ _ (get_ip_run _ _ _ _ _ R I)).
    destruct (set_ip_run _ _ _ _ (u32 (ip - 1)) R) as (s2 & E & M). exists s2. split; [exact E|]. split; [auto|congruence].
  - rewrite zlen_cons in CL. pose proof (zlen_nonneg st). destruct (Z.eqb_spec (k_size k) 0); [lia|].
    destruct (add_error_ok s (bs "Stack data remaining after end of program.")) as (e & E).
    { destruct A as (c & Hc & _). exists c. auto. }
    rewrite (bind_run _ _ _ _ _ E).
    assert (stack_is (set_errs (v_errs s ++ [e]) s) (v :: st)) as S2 by exact S.
    pose proof (rs_start _ _ S2) as R2.
    assert (ip_is (set_errs (v_errs s ++ [e]) s) ip) as I2 by exact I.
    rewrite (bind_run _ _ _ _ _ (get_ip_run _ _ _ _ _ R2 I2)).
    destruct (set_ip_run _ _ _ _ (u32 (ip - 1)) R2) as (s2 & E2 & M). exists s2. split; [exact E2|]. split; [discriminate|eauto].
Qed.
Print Assumptions C58_literal.
Print Assumptions C58_nil.
Print Assumptions C58_pop.
Print Assumptions C58_popn.
Print Assumptions C58_jump.
Print Assumptions C58_jump_if_zero.
Print Assumptions C58_end.

Example C58_example : can_push (with_values [vint 1]) /\ ip_is (with_values [vint 1]) 0 /\
  code_at (load_code [7; 42] (with_values [vint 1])) 1 42.
Proof.
  split; [|split].
  - eexists. split; [vm_compute; reflexivity|]. vm_compute. right. split; congruence.
  - eexists. split; vm_compute; reflexivity.
  - vm_compute. reflexivity.
Qed.

(** ** C59 *)

(** C59: adding any value to a string pushes the string whose text is the
    left text followed by the text of the right operand; every string that
    existed keeps its text. *)
Theorem C59_concatenate host s m st a b ta tb : obj_history s m -> string_room s ->
  stack_is s (st ++ [a; b]) -> v_type a = T_STRING -> get_str s (v_data a) = Some ta -> text_of s b tb ->
  exists s1 s' i, opcode host O_ADD s = Ok (tt, s') /\ more_strings s s1 /\ restacked s1 (st ++ [vstr i]) s' /\
    get_str s1 i = Some (ta ++ tb).
Proof.
  intros H Rm S T G X. exact (concat_run s m st a b ta tb (obj_history_inv _ _ H) S T G X Rm).
Qed.
Print Assumptions C59_concatenate.

(** "ab" + 12 in a fresh VM. *)
Definition ex_ab : vm :=
  match find_or_add_string (bs "ab") vm_init with
  | Ok (i, s) => match push_all [vstr i; vint 12] s with Ok (_, s') => s' | Ub _ => s end
  | Ub _ => vm_init
  end.
Example C59_example : exists i s', stack_is ex_ab ([] ++ [vstr i; vint 12]) /\ get_str ex_ab i = Some (bs "ab") /\
  text_of ex_ab (vint 12) (bs "12") /\ opcode (fun _ _ => ret vnil) O_ADD ex_ab = Ok (tt, s') /\
  exists j, stack_is s' [vstr j] /\ get_str s' j = Some (bs "ab12").
Proof.
  exists 0. eexists. split; [|split; [vm_compute; reflexivity|split; [|split; [vm_compute; reflexivity|]]]].
  - eexists. split; [vm_compute; reflexivity|]. split; [|reflexivity].
    split; try reflexivity; [exists 1; split; [lia|reflexivity]|vm_compute; split; congruence].
  - change (bs "12") with (i_to_str (v_int (vint 12))). apply to_dec. reflexivity.
  - exists 2. split; [|vm_compute; reflexivity]. eexists. split; [vm_compute; reflexivity|]. split; [|reflexivity].
    split; try reflexivity; [exists 1; split; [lia|reflexivity]|vm_compute; split; congruence].
Qed.

(** C23 (method calls): preparing [o->f(args)] turns the object and the
    function below the arguments into a call of the function with the object
    as first argument. *)
Theorem C23_self_call host s st o f args : stack_is s (st ++ o :: call_frame f args) ->
  exists s', opcode host O_SELFCALL s = Ok (tt, s') /\ restacked s (st ++ call_frame f (o :: args)) s'.
Proof.
  intro S. change (opcode host O_SELFCALL) with op_prepare_self_call. unfold op_prepare_self_call.
  pose proof (rs_start _ _ S) as R. rewrite (bind_run _ _ _ _ _ (rs_sized _ _ _ _ R)).
  pose proof (rs_len _ _ _ _ R) as Ln. pose proof (zlen_nonneg st). pose proof (zlen_nonneg args).
  assert (zlen (st ++ o :: call_frame f args) = zlen st + zlen args + 3) as EL.
  { unfold call_frame. repeat first [rewrite zlen_app|rewrite zlen_cons]. change (zlen (@nil value)) with 0. lia. }
  rewrite EL in *.
  assert (st ++ o :: call_frame f args = (st ++ o :: f :: args) ++ [vint (zlen args)]) as E1.
  { unfold call_frame. rewrite <- app_assoc. reflexivity. }
  assert (st ++ o :: call_frame f args = (st ++ [o]) ++ f :: args ++ [vint (zlen args)]) as E2.
  { unfold call_frame. rewrite <- app_assoc. reflexivity. }
  assert (zlen (st ++ o :: f :: args) = zlen st + zlen args + 3 - 1) as L1 by zl.
  assert (zlen (st ++ [o]) = zlen st + 1) as L2 by zl.
  pose proof R as R1. rewrite E1 in R1. destruct (slot_rs _ _ _ _ _ _ R1) as (k & A & La & _ & G1 & _).
  rewrite (bind_run _ _ _ _ _ (peek_idx_ok s k _ A)). rewrite <- L1, La, (bind_run _ _ _ _ _ G1).
  assert (to_int (vint (zlen args)) s = Ok (zlen args, s)) as TI.
  { unfold to_int. cbn [v_type vint]. change (T_INT =? T_INT) with true. cbv iota. unfold v_int, vint. cbn [v_data].
    rewrite s32_of_u32. rewrite s32_id; auto. unfold is_s32, W31 in *. lia. }
  rewrite (bind_run _ _ _ _ _ TI). cbv zeta.
  rewrite (u32_id (zlen args)) by (unfold is_u32, W31, W32 in *; lia).
  rewrite (u32_id (zlen args + 3)) by (unfold is_u32, W31, W32 in *; lia).
  rewrite (u32_id (zlen args + 2)) by (unfold is_u32, W31, W32 in *; lia).
  replace (zlen st + zlen args + 3 - (zlen args + 3)) with (zlen st) by lia.
  replace (zlen st + zlen args + 3 - (zlen args + 2)) with (zlen (st ++ [o])) by lia.
  destruct (slot_rs _ _ _ _ _ _ R) as (k2 & A2 & La2 & _ & G2 & _).
  rewrite (bind_run _ _ _ _ _ (peek_idx_ok s k2 _ A2)), La2.
  pose proof R as R2. rewrite E2 in R2. destruct (slot_rs _ _ _ _ _ _ R2) as (k3 & A3 & La3 & _ & G3 & _).
  rewrite (bind_run _ _ _ _ _ (peek_idx_ok s k3 _ A3)), La3.
  rewrite (bind_run _ _ _ _ _ G2), (bind_run _ _ _ _ _ G3).
  destruct (rs_set _ _ _ _ (zlen st) f R) as (t1 & W1 & T1); [lia|]. rewrite (bind_run _ _ _ _ _ W1).
  destruct (rs_set _ _ _ _ (zlen (st ++ [o])) o T1) as (t2 & W2 & T2); [rewrite zlen_zupd; lia|].
  rewrite (bind_run _ _ _ _ _ W2).
  destruct (rs_set _ _ _ _ (zlen (st ++ o :: f :: args)) (vint (zlen args + 1)) T2) as (t3 & W3 & T3);
    [rewrite !zlen_zupd; lia|].
  exists t3. split; [exact W3|].
  assert (forall (p : list value) x r y, zupd (p ++ x :: r) (zlen p) y = p ++ y :: r) as Up.
  { intros p x r y. unfold zupd, zlen. destruct (Z.of_nat (length p) <? 0) eqn:Q; [lia|].
    rewrite Nat2Z.id. clear. induction p; cbn; congruence. }
  rewrite Up in T3. rewrite L2 in T3.
  replace (zlen st + 1) with (zlen (st ++ [f])) in T3 by zl.
  replace (st ++ f :: call_frame f args) with ((st ++ [f]) ++ f :: args ++ [vint (zlen args)]) in T3
    by (unfold call_frame; rewrite <- app_assoc; reflexivity).
  rewrite Up in T3.
  replace (zlen (st ++ o :: f :: args)) with (zlen (st ++ [f; o] ++ args)) in T3 by zl.
  replace ((st ++ [f]) ++ o :: args ++ [vint (zlen args)]) with ((st ++ [f; o] ++ args) ++ [vint (zlen args)]) in T3
    by (rewrite <- !app_assoc; reflexivity).
  rewrite Up in T3.
  replace (st ++ call_frame f (o :: args)) with ((st ++ [f; o] ++ args) ++ [vint (zlen args + 1)]).
  - eapply rs_restacked; eauto.
  - unfold call_frame. rewrite zlen_cons, <- !app_assoc. reflexivity.
Qed.
Print Assumptions C23_self_call.

Example C23_self_example : exists s s',
  stack_is s ([vint 5] ++ vobj 3 :: call_frame (vfunc 0) [vint 8]) /\
  opcode (fun _ _ => ret vnil) O_SELFCALL s = Ok (tt, s') /\
  stack_is s' ([vint 5] ++ call_frame (vfunc 0) [vobj 3; vint 8]).
Proof.
  exists (match push_all [vint 5; vobj 3; vfunc 0; vint 8; vint 1] vm_init with Ok (_, s') => s' | Ub _ => vm_init end).
  eexists. split; [|split; [vm_compute; reflexivity|]].
  - eexists. split; [vm_compute; reflexivity|]. split; [|reflexivity].
    split; try reflexivity; [exists 3; split; [lia|reflexivity]|vm_compute; split; congruence].
  - eexists. split; [vm_compute; reflexivity|]. split; [|reflexivity].
    split; try reflexivity; [exists 3; split; [lia|reflexivity]|vm_compute; split; congruence].
Qed.
