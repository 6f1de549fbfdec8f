(** * FaultProofs: compiled code fails where the text does (used by FaultProperties) *)

From Verif Require Import Base BaseFacts State MonadFacts VmModel VmSpec VmInv OpSpec OpProofs InsnSpec InsnProofs CallSpec CallProofs CallProperties
  TableProofs TextProofs TokenModel TokenProofs CsModel ExprModel ParseSpec FoldSpec FoldProperties RunSpec CodeRel UseProofs
  RepSpec HeapProofs MachProofs ExecProofs SimProofs FaultSpec StackProofs.

(** [t] with errors, and with something on the stack. *)
Definition faulted (t t' : vm) : Prop :=
  exists es l, es <> [] /\ (restacked (set_errs es t) l t' \/ exists ip, moved (set_errs es t) l ip t').
Lemma failed_faulted t l t' : failed t l t' -> faulted t t'.
Proof. intros (e & H). exists (v_errs t ++ [e]), l. split; [destruct (v_errs t); discriminate|left; exact H]. Qed.

(** Errors that do not end an instruction. *)
Lemma rs_error_rs s l n s1 msg : rs s l n s1 ->
  exists s2 es, add_error msg s1 = Ok (tt, s2) /\ es <> [] /\ rs (set_errs es s) l n s2.
Proof.
  intros (c & k & H & W & C & N & E0).
  destruct (add_error_ok s1 msg) as (e' & E').
  { subst s1. exists (set_c_stack k c). rewrite with_stack_eq with (c := c) by auto. vs. apply znth_zupd_same. apply (znth_some_range _ _ _ H). }
  eexists _, (v_errs s ++ [e']). split; [exact E'|]. split; [destruct (v_errs s); discriminate|].
  exists c, k. vs. sp; auto. subst s1. rewrite with_stack_errs. rewrite !with_stack_eq with (c := c) by auto. reflexivity.
Qed.
Lemma rs_faulted s es l n s' : es <> [] -> rs (set_errs es s) l n s' -> faulted s s'.
Proof. intros N R. exists es, l. split; [exact N|left; eapply rs_restacked; exact R]. Qed.
Lemma rs_more s es es' l n s' : es' <> [] -> rs (set_errs es' (set_errs es s)) l n s' -> exists es2, es2 <> [] /\ rs (set_errs es2 s) l n s'.
Proof. intros N R. exists es'. split; [exact N|exact R]. Qed.

Section Ops.
Variable host : Z -> list value -> M value.

Lemma rep_type s W v x : rep s W v x -> v_type x =
  match v with VInt _ => T_INT | VFlt _ => T_FLOAT | VStr _ => T_STRING | VNil => T_NIL | VFun _ => T_FUNC | VObj _ => T_OBJ end.
Proof.
  destruct v; cbn [rep]; intro H.
  - destruct H as [-> _]. reflexivity.
  - rewrite H. reflexivity.
  - apply H.
  - exact H.
  - destruct H as [-> _]. reflexivity.
  - destruct H as (i & _ & ->). reflexivity.
Qed.

Ltac pops S := let R := fresh "R" in pose proof (rs_start _ _ S) as R.
Ltac typed := repeat match goal with |- exists s', (if ?c then _ else _) _ = _ /\ _ => let v := eval vm_compute in c in change c with v; cbv iota end.

Lemma no_int s l n s1 x : rs s l n s1 -> v_type x = T_FUNC -> exists s2 es, to_int x s1 = Ok (0, s2) /\ es <> [] /\ rs (set_errs es s) l n s2.
Proof.
  intros R T. unfold to_int. cbv zeta. rewrite T. destruct (rs_error_rs _ _ _ _ (err_convert T_FUNC) R) as (s2 & es & E & N & R2). exists s2, es.
  split; [|auto]. change ((add_error (err_convert T_FUNC) ;;; ret 0) s1 = Ok (0, s2)). rewrite (bind_run _ _ _ _ _ E). reflexivity.
Qed.
Lemma no_float s l n s1 x : rs s l n s1 -> v_type x = T_FUNC \/ v_type x = T_OBJ -> exists s2 es, to_float x s1 = Ok (0, s2) /\ es <> [] /\ rs (set_errs es s) l n s2.
Proof.
  intros R T. unfold to_float. cbv zeta. destruct (rs_error_rs _ _ _ _ (err_convert (v_type x)) R) as (s2 & es & E & N & R2). exists s2, es.
  split; [|auto]. assert ((add_error (err_convert (v_type x)) ;;; ret 0) s1 = Ok (0, s2)) as Q by (rewrite (bind_run _ _ _ _ _ E); reflexivity).
  destruct T as [T|T]; rewrite T in *; exact Q.
Qed.
(** One of the operands of && and ||. *)
Lemma tested s s0 l n s1 x z0 : rs s l n s1 -> v_strs s = v_strs s0 -> v_type x = T_FUNC \/ as_int s0 x z0 ->
  exists s2 es z, to_int x s1 = Ok (z, s2) /\ rs (set_errs es s) l n s2 /\ (es <> [] \/ es = v_errs s /\ v_type x <> T_FUNC).
Proof.
  intros R Es [T|A].
  - destruct (no_int _ _ _ _ _ R T) as (s2 & es & E & N & R2). exists s2, es, 0. auto.
  - exists s1, (v_errs s), z0. split; [apply (as_int_run s0); [exact A|rewrite (rs_strs _ _ _ _ R); exact Es]|].
    split; [|right; split; [reflexivity|inversion A; rewrite H; discriminate]]. destruct s. exact R.
Qed.

Lemma fault_bin s W l x y a b ty op : stack_is s (l ++ [x; y]) -> rep s W a x -> rep s W b y -> binop_fails ty a b ->
  (forall z, number_of b = Some z -> as_int s y z) -> (forall z, a = VInt z -> is_s32 z) ->
  plain_op ty false = Some op -> exists s', opcode host op s = Ok (tt, s') /\ faulted s s'.
Proof.
  intros S A B F Nb Sa P.
  assert (forall z ys, v_type x = T_INT -> v_int x = z -> as_int s y ys -> ys = 0 \/ (z = - W31 /\ ys = -1) ->
    (exists s', op_divide s = Ok (tt, s') /\ faulted s s') /\ (exists s', op_modulo s = Ok (tt, s') /\ faulted s s')) as Kd.
  { intros z ys T V As D. assert ((ys =? 0) || ((z =? - W31) && (ys =? -1)) = true)%bool as Q.
    { destruct D as [-> | [-> ->]]; [reflexivity|]. rewrite Z.eqb_refl. reflexivity. }
    destruct (divide_run s l x y z ys S T V As) as (s1 & E1 & F1). destruct (modulo_run s l x y z ys S T V As) as (s2 & E2 & F2). rewrite Q in F1, F2.
    split; [exists s1|exists s2]; (split; [assumption|eapply failed_faulted; eassumption]). }
  assert (exists s1, rs s l 2 s1 /\ forall B (K : value -> value -> M B), (in2 <- pop ;; in1 <- pop ;; K in2 in1) s = K y x s1) as (s1 & R1 & Kp).
  { replace (l ++ [x; y]) with ((l ++ [x]) ++ [y]) in S by (rewrite <- app_assoc; reflexivity).
    destruct (pop_rs _ _ _ _ _ (rs_start _ _ S)) as (s1 & P1 & R1). destruct (pop_rs _ _ _ _ _ R1) as (s2 & P2 & R2).
    exists s2. split; [exact R2|]. intros B0 K. rewrite (bind_run _ _ _ _ _ P1), (bind_run _ _ _ _ _ P2). reflexivity. }
  assert (forall msg, exists s', add_error msg s1 = Ok (tt, s') /\ faulted s s') as Er.
  { intro msg. destruct (rs_error _ _ _ _ msg R1) as (s2 & E & G). exists s2. split; [exact E|eapply failed_faulted; exact G]. }
  pose proof (rep_type _ _ _ _ A) as T.
  destruct F as [z b ys N D|z b ys N D|a b N1 N2|a b N1|a b N1|a b N1|a b N1|ty a b It Np|ty a b It Ta Tb Fu]; try injection P as <-.
  - destruct A as [-> Sz]. change (exists s', op_divide s = Ok (tt, s') /\ faulted s s'). refine (proj1 (Kd z ys eq_refl _ (Nb _ N) D)). apply v_int_vint. exact Sz.
  - destruct A as [-> Sz]. change (exists s', op_modulo s = Ok (tt, s') /\ faulted s s'). refine (proj2 (Kd z ys eq_refl _ (Nb _ N) D)). apply v_int_vint. exact Sz.
  - change (exists s', op_add s = Ok (tt, s') /\ faulted s s'). unfold op_add. rewrite Kp. destruct a; try discriminate N1; try (exfalso; eapply N2; reflexivity); cbv zeta; rewrite T; typed; unfold unimplemented; apply Er.
  - change (exists s', op_subtract s = Ok (tt, s') /\ faulted s s'). unfold op_subtract. rewrite Kp. destruct a; try discriminate N1; cbv zeta; rewrite T; typed; unfold unimplemented; apply Er.
  - change (exists s', op_multiply s = Ok (tt, s') /\ faulted s s'). unfold op_multiply. rewrite Kp. destruct a; try discriminate N1; cbv zeta; rewrite T; typed; unfold unimplemented; apply Er.
  - change (exists s', op_divide s = Ok (tt, s') /\ faulted s s'). unfold op_divide. rewrite Kp. destruct a; try discriminate N1; cbv zeta; rewrite T; typed; unfold unimplemented; apply Er.
  - change (exists s', op_modulo s = Ok (tt, s') /\ faulted s s'). unfold op_modulo. rewrite Kp. destruct a; try discriminate N1; cbv zeta; rewrite T; typed; unfold unimplemented; apply Er.
  - pose proof (rep_type _ _ _ _ B) as Tb.
    assert (forall es t v, es <> [] -> rs (set_errs es s) l 2 t -> exists s', push v t = Ok (tt, s') /\ faulted s s') as Pu.
    { intros es t v Ne R. destruct (push_rs _ _ v _ _ R ltac:(lia)) as (s2 & E2 & R2). exists s2. split; [exact E2|]. eapply rs_faulted; [exact Ne|exact R2]. }
    assert (forall es t msg, es <> [] -> rs (set_errs es s) l 2 t -> exists s', add_error msg t = Ok (tt, s') /\ faulted s s') as Er2.
    { intros es t msg Ne R. destruct (rs_error_rs _ _ _ _ msg R) as (s2 & es2 & E2 & N2 & R2). exists s2. split; [exact E2|]. eapply rs_faulted; [exact N2|exact R2]. }
    assert (forall (f : Z -> Z), v_type x = T_INT -> v_type y = T_FUNC -> exists s', (c <- value_compare x y false ;; push_int (f c)) s1 = Ok (tt, s') /\ faulted s s') as Ci.
    { intros f Tx Ty. destruct (no_int _ _ _ _ _ R1 Ty) as (s2 & es & E & Ne & R2).
      assert (exists c, value_compare x y false s1 = Ok (c, s2)) as (c & Ec).
      { unfold value_compare. cbv zeta. rewrite Tx, Ty. eexists. cbn [andb]. change (T_INT =? T_NIL) with false. change (T_FUNC =? T_NIL) with false. change (T_INT =? T_INT) with true. cbv iota.
        rewrite (bind_run _ _ _ _ _ E). reflexivity. }
      rewrite (bind_run _ _ _ _ _ Ec). eapply Pu; eassumption. }
    assert (forall (f : Z -> Z), v_type x = T_FLOAT -> v_type y = T_FUNC \/ v_type y = T_OBJ -> exists s', (c <- value_compare x y false ;; push_int (f c)) s1 = Ok (tt, s') /\ faulted s s') as Cf.
    { intros f Tx Ty. destruct (no_float _ _ _ _ _ R1 Ty) as (s2 & es & E & Ne & R2).
      assert (exists c, value_compare x y false s1 = Ok (c, s2)) as (c & Ec).
      { unfold value_compare. cbv zeta. rewrite Tx. eexists. cbn [andb]. change (T_FLOAT =? T_NIL) with false. change (T_FLOAT =? T_INT) with false. change (T_FLOAT =? T_FLOAT) with true.
        replace (v_type y =? T_NIL) with false by (destruct Ty as [-> | ->]; reflexivity). cbv iota.
        rewrite (bind_run _ _ _ _ _ E). reflexivity. }
      rewrite (bind_run _ _ _ _ _ Ec). eapply Pu; eassumption. }
    assert (forall (f : Z -> Z), exists s', (c <- internal_compare ;; push_int (f c)) s = Ok (tt, s') /\ faulted s s') as Cm.
    { intro f. assert ((c <- internal_compare ;; push_int (f c)) s = (c <- value_compare x y false ;; push_int (f c)) s1) as ->.
      { unfold internal_compare. unfold mbind at 1. rewrite (Kp _ (fun in2 in1 => value_compare in1 in2 false)). reflexivity. }
      destruct a, b; try discriminate Np; auto. }
    destruct a as [z|z| | | |]; try discriminate Np.
    + destruct b; try discriminate Np. pose proof A as [Ax Sz]. assert (v_int x = z) as Vx by (rewrite Ax; apply v_int_vint; exact Sz). destruct (no_int _ _ _ _ _ R1 Tb) as (s2 & es & E & Ne & R2).
      cbn [In] in It. repeat (destruct It as [<-|It]; [injection P as <-|]); [..|destruct It].
      * change (exists s', op_add s = Ok (tt, s') /\ faulted s s'). unfold op_add. rewrite Kp. cbv zeta. rewrite T. typed. rewrite (bind_run _ _ _ _ _ E), Z.add_0_r, Vx.
        unfold push_signed. rewrite (proj2 (in_s32_spec z) Sz). eapply Pu; eassumption.
      * change (exists s', op_subtract s = Ok (tt, s') /\ faulted s s'). unfold op_subtract. rewrite Kp. cbv zeta. rewrite T. typed. rewrite (bind_run _ _ _ _ _ E), Z.sub_0_r, Vx.
        unfold push_signed. rewrite (proj2 (in_s32_spec z) Sz). eapply Pu; eassumption.
      * change (exists s', op_multiply s = Ok (tt, s') /\ faulted s s'). unfold op_multiply. rewrite Kp. cbv zeta. rewrite T. typed. rewrite (bind_run _ _ _ _ _ E), Z.mul_0_r.
        eapply Pu; eassumption.
      * change (exists s', op_divide s = Ok (tt, s') /\ faulted s s'). unfold op_divide. rewrite Kp. cbv zeta. rewrite T. typed. rewrite (bind_run _ _ _ _ _ E).
        eapply Er2; eassumption.
      * change (exists s', op_modulo s = Ok (tt, s') /\ faulted s s'). unfold op_modulo. rewrite Kp. cbv zeta. rewrite T. typed. rewrite (bind_run _ _ _ _ _ E).
        eapply Er2; eassumption.
      * apply (Cm (fun c => b2z (c =? -1))).
      * apply (Cm (fun c => b2z (c =? 1))).
      * apply (Cm (fun c => b2z ((c =? 0) || (c =? -1)))).
      * apply (Cm (fun c => b2z ((c =? 0) || (c =? 1)))).
      * apply (Cm (fun c => b2z (c =? 0))).
      * apply (Cm (fun c => b2z (negb (c =? 0)))).
    + assert (v_type y = T_FUNC \/ v_type y = T_OBJ) as Ty by (destruct b; try discriminate Np; auto). destruct (no_float _ _ _ _ _ R1 Ty) as (s2 & es & E & Ne & R2).
      cbn [In] in It. repeat (destruct It as [<-|It]; [injection P as <-|]); [..|destruct It].
      * change (exists s', op_add s = Ok (tt, s') /\ faulted s s'). unfold op_add. rewrite Kp. cbv zeta. rewrite T. typed. rewrite (bind_run _ _ _ _ _ E). eapply Pu; eassumption.
      * change (exists s', op_subtract s = Ok (tt, s') /\ faulted s s'). unfold op_subtract. rewrite Kp. cbv zeta. rewrite T. typed. rewrite (bind_run _ _ _ _ _ E). eapply Pu; eassumption.
      * change (exists s', op_multiply s = Ok (tt, s') /\ faulted s s'). unfold op_multiply. rewrite Kp. cbv zeta. rewrite T. typed. rewrite (bind_run _ _ _ _ _ E). eapply Pu; eassumption.
      * change (exists s', op_divide s = Ok (tt, s') /\ faulted s s'). unfold op_divide. rewrite Kp. cbv zeta. rewrite T. typed. rewrite (bind_run _ _ _ _ _ E). eapply Pu; eassumption.
      * change (exists s', op_modulo s = Ok (tt, s') /\ faulted s s'). unfold op_modulo. rewrite Kp. cbv zeta. rewrite T. typed. unfold unimplemented. apply Er.
      * apply (Cm (fun c => b2z (c =? -1))).
      * apply (Cm (fun c => b2z (c =? 1))).
      * apply (Cm (fun c => b2z ((c =? 0) || (c =? -1)))).
      * apply (Cm (fun c => b2z ((c =? 0) || (c =? 1)))).
      * apply (Cm (fun c => b2z (c =? 0))).
      * apply (Cm (fun c => b2z (negb (c =? 0)))).
  - assert (forall v w, rep s W v w -> testable v -> (forall z, number_of v = Some z -> as_int s w z) -> exists z0, v_type w = T_FUNC \/ as_int s w z0) as Tt.
    { intros v w Rv [Fv|(z & Nz)] K; [exists 0; left; rewrite (rep_type _ _ _ _ Rv); destruct v; try discriminate Fv; reflexivity|exists z; right; auto]. }
    destruct (Tt _ _ A Ta (fun z Nz => rep_int _ _ _ _ _ A Nz)) as (za & Qa). destruct (Tt _ _ B Tb Nb) as (zb & Qb).
    replace (l ++ [x; y]) with ((l ++ [x]) ++ [y]) in S by (rewrite <- app_assoc; reflexivity).
    assert (forall (f : Z -> Z -> Z), exists s', (a <- pop ;; x <- to_int a ;; b <- pop ;; y <- to_int b ;; push_int (f x y)) s = Ok (tt, s') /\ faulted s s') as G.
    { intro f. destruct (pop_rs _ _ _ _ _ (rs_start _ _ S)) as (s2 & P1 & R2). rewrite (bind_run _ _ _ _ _ P1).
      destruct (tested s s _ _ _ y zb R2 eq_refl Qb) as (s3 & es & z3 & E3 & R3 & N3). rewrite (bind_run _ _ _ _ _ E3).
      destruct (pop_rs _ _ _ _ _ R3) as (s4 & P4 & R4). rewrite (bind_run _ _ _ _ _ P4).
      destruct (tested (set_errs es s) s _ _ _ x za R4 eq_refl Qa) as (s5 & es5 & z5 & E5 & R5 & N5). rewrite (bind_run _ _ _ _ _ E5).
      destruct (push_rs _ _ (vint (f z3 z5)) _ _ R5 ltac:(lia)) as (s6 & E6 & R6). exists s6. split; [exact E6|]. eapply (rs_faulted s es5); [|exact R6].
      destruct N5 as [N5|[N5 Tx]]; [exact N5|]. change (es5 = es) in N5. subst es5. destruct N3 as [N3|[N3 Ty]]; [exact N3|]. exfalso.
      rewrite (rep_type _ _ _ _ A) in Tx. rewrite (rep_type _ _ _ _ B) in Ty. destruct a, b; try discriminate Fu; auto. }
    destruct It as [<-|[<-|[]]]; injection P as <-.
    + exact (G (fun x y => b2z (nkbool_of x && nkbool_of y))).
    + exact (G (fun x y => b2z (nkbool_of x || nkbool_of y))).
Qed.

(** Functions as conditions. *)
Lemma fault_not s W l x a : stack_is s (l ++ [x]) -> rep s W a x -> is_fun_val a = true ->
  exists s', op_not s = Ok (tt, s') /\ faulted s s'.
Proof.
  intros S A N. destruct (pop_rs _ _ _ _ _ (rs_start _ _ S)) as (s1 & P1 & R1). unfold op_not. rewrite (bind_run _ _ _ _ _ P1).
  assert (v_type x = T_FUNC) as T by (rewrite (rep_type _ _ _ _ A); destruct a; try discriminate N; reflexivity).
  destruct (no_int _ _ _ _ _ R1 T) as (s2 & es & E & Ne & R2). rewrite (bind_run _ _ _ _ _ E).
  destruct (push_rs _ _ (vint (b2z (0 =? 0))) _ _ R2 ltac:(lia)) as (s3 & E3 & R3). exists s3. split; [exact E3|]. eapply rs_faulted; [exact Ne|exact R3].
Qed.
Lemma fault_jz s W l x y a n : stack_is s (l ++ [x; y]) -> rep s W a x -> is_fun_val a = true -> as_int s y n ->
  exists s', op_jz s = Ok (tt, s') /\ faulted s s'.
Proof.
  intros S A N Ay. replace (l ++ [x; y]) with ((l ++ [x]) ++ [y]) in S by (rewrite <- app_assoc; reflexivity).
  destruct (pop_rs _ _ _ _ _ (rs_start _ _ S)) as (s1 & P1 & R1). destruct (pop_rs _ _ _ _ _ R1) as (s2 & P2 & R2).
  unfold op_jz. rewrite (bind_run _ _ _ _ _ P1), (bind_run _ _ _ _ _ P2).
  assert (v_type x = T_FUNC) as T by (rewrite (rep_type _ _ _ _ A); destruct a; try discriminate N; reflexivity).
  destruct (no_int _ _ _ _ _ R2 T) as (s3 & es & E & Ne & R3). rewrite (bind_run _ _ _ _ _ E). change (0 =? 0) with true. cbv iota.
  rewrite (bind_run _ _ _ _ _ (as_int_run s y n s3 Ay (rs_strs _ _ _ _ R3))).
  destruct R3 as (c & k & Hc & Wk & Ck & _ & ->). rewrite with_stack_eq with (c := c) by exact Hc. pose proof (znth_some_range _ _ _ Hc) as Rg. vsin Hc. vsin Rg.
  unfold get_ip, cur_ctx. unfold mbind at 1 2 3, gets. vs. unfold get_ctx. vs. rewrite znth_zupd_same by auto. cbv beta iota. unfold ret. cs.
  unfold set_ip. rewrite (mod_cur_upd _ _) by (eexists; vs; apply znth_zupd_same; auto).
  eexists. split; [reflexivity|]. exists es, l. split; [exact Ne|]. right. eexists. exists c, k. sp; auto. unfold upd_cur. vs. rewrite znth_zupd_same by auto. vs. rewrite zupd_zupd. reflexivity.
Qed.

Lemma fault_neg s W l x a : stack_is s (l ++ [x]) -> rep s W a x -> is_number_val a = false ->
  exists s', op_negate s = Ok (tt, s') /\ faulted s s'.
Proof.
  intros S A N. destruct (pop_rs _ _ _ _ _ (rs_start _ _ S)) as (s1 & P1 & R1). unfold op_negate. rewrite (bind_run _ _ _ _ _ P1).
  cbv zeta. rewrite (rep_type _ _ _ _ A).
  assert (forall msg, exists s', add_error msg s1 = Ok (tt, s') /\ faulted s s') as Er.
  { intro msg. destruct (rs_error _ _ _ _ msg R1) as (s2 & E & G). exists s2. split; [exact E|eapply failed_faulted; exact G]. }
  destruct a; try discriminate N; typed; unfold unimplemented; apply Er.
Qed.

Lemma not_obj s W v x : rep s W v x -> is_obj_val v = false -> (v_type x =? T_OBJ) = false.
Proof. intros R N. rewrite (rep_type _ _ _ _ R). destruct v; try discriminate N; reflexivity. Qed.

Lemma fault_get s l x y p : stack_is s (l ++ [x; y]) -> (v_type x =? T_OBJ) = false ->
  exists s', op_field_get p s = Ok (tt, s') /\ faulted s s'.
Proof.
  intros S N. replace (l ++ [x; y]) with ((l ++ [x]) ++ [y]) in S by (rewrite <- app_assoc; reflexivity).
  destruct (pop_rs _ _ _ _ _ (rs_start _ _ S)) as (s1 & P1 & R1). unfold op_field_get. rewrite (bind_run _ _ _ _ _ P1).
  assert (forall t n l', rs s l' n t -> forall msg, exists s', add_error msg t = Ok (tt, s') /\ faulted s s') as Er.
  { intros t n l' R msg. destruct (rs_error _ _ _ _ msg R) as (s2 & E & G). exists s2. split; [exact E|eapply failed_faulted; exact G]. }
  destruct p.
  - destruct (pop_rs _ _ _ _ _ R1) as (s2 & P2 & R2). rewrite (bind_run _ _ _ _ _ P2), N. eapply Er; eassumption.
  - assert ((sz <- stack_size ;; peek (sz - 1)) s1 = Ok (x, s1)) as Pk.
    { rewrite (bind_run _ _ _ _ _ (rs_sized _ _ _ _ R1)). rewrite zlen_app, zlen_cons, zlen_nil. replace (zlen l + (0 + 1) - 1) with (zlen l) by lia.
      exact (peek_rs _ _ _ _ _ _ R1). }
    rewrite (bind_run _ _ _ _ _ Pk), N. eapply Er; eassumption.
Qed.

Lemma fault_set s l v x y : stack_is s (l ++ [v; x; y]) -> (v_type x =? T_OBJ) = false ->
  exists s', op_field_set s = Ok (tt, s') /\ faulted s s'.
Proof.
  intros S N. replace (l ++ [v; x; y]) with (((l ++ [v]) ++ [x]) ++ [y]) in S by (rewrite <- !app_assoc; reflexivity).
  destruct (pop_rs _ _ _ _ _ (rs_start _ _ S)) as (s1 & P1 & R1). destruct (pop_rs _ _ _ _ _ R1) as (s2 & P2 & R2). destruct (pop_rs _ _ _ _ _ R2) as (s3 & P3 & R3).
  unfold op_field_set. rewrite (bind_run _ _ _ _ _ P1), (bind_run _ _ _ _ _ P2), (bind_run _ _ _ _ _ P3), N. cbn [negb]. cbv iota.
  match goal with |- context [add_error ?m] => destruct (rs_error _ _ _ _ m R3) as (s4 & E & G) end. exists s4. split; [exact E|eapply failed_faulted; exact G].
Qed.

Lemma fault_len s l x : stack_is s (l ++ [x]) -> (v_type x =? T_OBJ) = false ->
  exists s', op_len s = Ok (tt, s') /\ faulted s s'.
Proof.
  intros S N. destruct (pop_rs _ _ _ _ _ (rs_start _ _ S)) as (s1 & P1 & R1). destruct (rs_slot _ _ _ _ R1 ltac:(lia)) as (j & s2 & P2 & R2).
  unfold op_len. rewrite (bind_run _ _ _ _ _ P1), (bind_run _ _ _ _ _ P2), N. cbn [negb]. cbv iota.
  match goal with |- context [add_error ?m] => destruct (rs_error _ _ _ _ m R2) as (s4 & E & G) end. exists s4. split; [exact E|eapply failed_faulted; exact G].
Qed.
End Ops.

(** ** Executions that end in an error *)

Section Fault.
Context {HS : Hosts}.
Variable hostmark : Z -> Z -> option Z -> list value.
Variable host : Z -> list value -> M value.
Context {LT : Lits}.
Variable C : list Z.
Variable FT : list func.
Variable lim ng mf : Z.
Hypothesis Clen : pow2 (zlen C).
Hypothesis Llim : lim <= 65536.
Hypothesis Lmf : mf < W32.
Variable t0 : vm.
Hypothesis Start : inv C FT lim ng mf t0.
Hypothesis Room : forall t, steps hostmark host t0 t -> enough t.
Variable funs : Z -> option fundef.
Notation ga := (mkAround ng funs).
Hypothesis Table : forall id fd, funs id = Some fd ->
  exists f, znth FT id = Some f /\ f_ext f = INVALID /\ f_argc f = zlen (fd_params fd) /\
    0 <= f_first f <= zlen C /\ fcode (code C) ga fd (f_first f).
Hypothesis Native : implements host t0.

Notation at_ := (MachProofs.at_ hostmark host t0).
Notation code := (code C).
Notation i_int := (MachProofs.i_int hostmark host C FT lim ng mf Clen Llim t0 Start Room).
Notation i_word := (MachProofs.i_word hostmark host C FT lim ng mf Clen Llim t0 Start Room).
Notation i_float := (MachProofs.i_float hostmark host C FT lim ng mf Clen Llim t0 Start Room).
Notation i_string := (MachProofs.i_string hostmark host C FT lim ng mf Clen Llim t0 Start Room).
Notation i_fun := (MachProofs.i_fun hostmark host C FT lim ng mf Clen Llim t0 Start Room).
Notation i_nil := (MachProofs.i_nil hostmark host C FT lim ng mf Clen Llim t0 Start Room).
Notation i_get := (MachProofs.i_get hostmark host C FT lim ng mf Clen Llim t0 Start Room).
Notation i_set := (MachProofs.i_set hostmark host C FT lim ng mf Clen Llim t0 Start Room).
Notation i_setg := (MachProofs.i_setg hostmark host C FT lim ng mf Clen Llim t0 Start Room).
Notation i_call := (MachProofs.i_call hostmark host C FT lim ng mf Clen Llim t0 Start Room).
Notation i_selfcall := (MachProofs.i_selfcall hostmark host C FT lim ng mf Clen Llim t0 Start Room).
Notation i_return := (MachProofs.i_return hostmark host C FT lim ng mf Clen t0 Start Room).
Notation i_bin := (MachProofs.i_bin hostmark host C FT lim ng mf Clen t0 Start Room).
Notation i_un := (MachProofs.i_un hostmark host C FT lim ng mf Clen t0 Start Room).
Notation i_pop := (MachProofs.i_pop hostmark host C FT lim ng mf Clen t0 Start Room).
Notation i_popn := (MachProofs.i_popn hostmark host C FT lim ng mf Clen Llim t0 Start Room).
Notation i_close := (MachProofs.i_close hostmark host C FT lim ng mf Clen Llim t0 Start Room).
Notation i_goto := (MachProofs.i_goto hostmark host C FT lim ng mf Clen Llim t0 Start Room).
Notation i_branch := (MachProofs.i_branch hostmark host C FT lim ng mf Clen Llim t0 Start Room).
Notation i_field := (MachProofs.i_field hostmark host C FT lim ng mf Clen t0 Start Room).
Notation i_field_keep := (MachProofs.i_field_keep hostmark host C FT lim ng mf Clen t0 Start Room).
Notation i_len := (MachProofs.i_len hostmark host C FT lim ng mf Clen t0 Start Room).
Notation i_object := (MachProofs.i_object hostmark host C FT lim ng mf Clen Llim t0 Start Room).
Notation i_setfield := (MachProofs.i_setfield hostmark host C FT lim ng mf Clen Lmf t0 Start Room).
Notation wapp := (MachProofs.words_app hostmark host C t0 Room).
Notation wcons := (MachProofs.words_cons hostmark host C t0 Room).

Notation frame_start := (SimProofs.frame_start hostmark host C FT ng t0 Room funs Table).
Notation kept_inside := (SimProofs.kept_inside hostmark host C FT ng t0 Room funs Table).
Notation grows_inside := (SimProofs.grows_inside hostmark host C FT ng t0 Room funs Table).
Notation sim_x := (SimProofs.sim_x hostmark host C FT lim ng mf Clen Llim t0 Start Room funs Table).
Notation sim_test := (SimProofs.sim_test hostmark host C FT lim ng mf Clen Llim t0 Start Room funs Table).
Notation sim_body := (SimProofs.sim_body hostmark host C FT lim ng mf Clen Llim t0 Start Room funs Table).
Notation sim_scoped := (SimProofs.sim_scoped hostmark host C FT lim ng mf Clen Llim t0 Start Room funs Table).
Notation sim_skips := (SimProofs.sim_skips hostmark host C FT lim ng mf Clen Llim t0 Start Room funs Table).
Notation sim_drop_p := (SimProofs.sim_drop_p hostmark host C FT lim ng mf Clen t0 Start Room funs Table).
Notation S_ev := (SimProofs.S_ev hostmark host C t0).
Notation S_evs := (SimProofs.S_evs hostmark host C t0).
Notation S_ex := (SimProofs.S_ex hostmark host C lim ng t0 funs).
Notation inside := SimProofs.inside.
Notation lcode := (SimProofs.lcode C ng funs).
Notation sims := (simulation hostmark host C FT lim ng mf Clen Llim Lmf t0 Start Room funs Table Native).

Lemma V_ev E h m n v m' : ev funs lim mf E h m n v m' -> S_ev E h m n v m'.
Proof. exact (proj1 sims E h m n v m'). Qed.
Lemma V_evs E h m n v m' : evs funs lim mf E h m n v m' -> S_evs E h m n v m'.
Proof. exact (proj1 (proj2 sims) E h m n v m'). Qed.
Lemma V_ex E b m s o m' : ex funs lim mf E b m s o m' -> SimProofs.S_ex hostmark host C ng t0 funs E b m s o m'.
Proof. exact (proj1 (proj2 (proj2 sims)) E b m s o m'). Qed.

Lemma moved_wf t l ip t' : wf true 0 t -> moved t l ip t' -> wf true 0 t'.
Proof.
  intros Wf (c & k & Hc & Wk & Ck & ->).
  match goal with |- wf _ _ (set_ctxs (zupd _ _ (Some ?d)) _) => replace (set_ctxs _ t) with (upd_cur (fun _ => d) t) by (unfold upd_cur; rewrite Hc; reflexivity) end.
  apply (wf_upd_cur true 0 t _ c Wf Hc); auto.
Qed.
Lemma errs_wf t es : wf true 0 t -> wf true 0 (set_errs es t).
Proof. intros [? ? ? ? ? ? ? ? ? ? ? ? ? ? ? ? ?]. split; auto. discriminate. Qed.

(** The execution gets to an instruction that fails, with the globals and the
    objects of [m]. *)
Definition crash (m : mem) : Prop :=
  exists t w t', steps hostmark host t0 t /\ fetch t = Ok (w, t) /\ w <> VmModel.OP_END /\ iterate hostmark host t = Ok (tt, t') /\ has_errors t' = true /\
  frame t' = set_errs (v_errs t') (frame t0) /\ wf true 0 t' /\
  exists W mm, world lit t' W mm (m_heap m) /\ globs t' W (m_global m).

Lemma one_fault L m ip op : at_ L m ip -> znth C ip = Some op -> 0 <= op < 64 -> op <> VmModel.OP_END ->
  (forall t W mm l, MachProofs.here t0 t L m ip -> world lit t W mm (m_heap m) -> Forall2 (rep t W) L l -> stack_is t l ->
     exists t', opcode host op t = Ok (tt, t') /\ faulted t t') -> crash m.
Proof.
  intros (t & S & H) W O N X. destruct (Room t S) as (Gp & _).
  destruct (tick_here hostmark C FT lim ng mf t0 Start _ _ _ _ H Gp) as (t1 & T & H1 & _).
  destruct (hr_mem _ _ _ _ _ H1) as (Wd & mm & l & D & G & R & St).
  destruct (X t1 Wd mm l H1 D R St) as (t2 & E & es & l2 & Ne & Rs).
  assert (exists t3 ip', instruction host op t1 = Ok (tt, t3) /\ moved (set_errs es t1) l2 ip' t3) as (t3 & ip' & E3 & Mv).
  { destruct Rs as [Rs|(ip1 & Mv)].
    - destruct (instruction_restacked _ _ _ (set_errs es t1) l2 ip t2 E Rs) as (t3 & E3 & Mv); [|eauto].
      destruct (hr_ip _ _ _ _ _ H1) as (c & A & B). exists c. vs. auto.
    - destruct Mv as (c & k & Hc & Wk & Ck & Et). unfold instruction. rewrite (bind_run _ _ _ _ _ E). subst t2.
      pose proof (znth_some_range _ _ _ Hc) as Rg. vsin Hc. vsin Rg.
      unfold get_ip, cur_ctx. unfold mbind at 1 2 3, gets. vs. unfold get_ctx. vs. rewrite znth_zupd_same by auto. cbv beta iota. unfold ret. cs.
      unfold set_ip. rewrite (mod_cur_upd _ _) by (eexists; vs; apply znth_zupd_same; auto).
      eexists _, _. split; [reflexivity|]. exists c, k. sp; auto. unfold upd_cur. vs. rewrite znth_zupd_same by auto. vs. rewrite zupd_zupd. reflexivity. }
  destruct Mv as (c & k & Hc & Wk & Ck & Et). pose proof (znth_some_range _ _ _ Hc) as Rg.
  exists t, op, t3. split; [exact S|]. split; [apply (fetch_at hostmark host C FT lim ng mf Clen t0 Start Room _ _ _ _ _ H W)|]. split; [exact N|].
  split; [|split].
  - unfold iterate. rewrite (bind_run _ _ _ _ _ (fetch_at hostmark host C FT lim ng mf Clen t0 Start Room _ _ _ _ _ H W)), (bind_run _ _ _ _ _ T).
    replace (Z.land op 63) with op; [exact E3|]. change 63 with (Z.ones 6). rewrite Z.land_ones by lia.
    symmetry. apply Z.mod_small. exact O.
  - rewrite Et. unfold has_errors. vs. destruct es; [contradiction|reflexivity].
  - split.
    { rewrite <- (hr_frame _ _ _ _ _ H1), Et. reflexivity. }
    assert (forall v x, rep t1 Wd v x -> rep t3 Wd v x) as Rm by (intros v x; apply rep_mono; auto; rewrite Et; auto).
    split; [exact (moved_wf _ _ _ _ (errs_wf _ _ (hr_wf _ _ _ _ _ H1)) (ex_intro _ c (ex_intro _ k (conj Hc (conj Wk (conj Ck Et))))))|].
    exists Wd, mm. split.
    + apply (world_same lit t1 t3); auto; try (rewrite Et; reflexivity).
      * rewrite Et. eexists. vs. apply znth_zupd_same. exact Rg.
      * rewrite Et. apply (wd_static _ _ _ _ _ D).
    + intros i v Gi. rewrite Et. vs. destruct (G i v Gi) as (A & x & B & Cx). split; [exact A|]. exists x. split; [exact B|]. rewrite Et in Rm. auto.
Qed.

Lemma C_u32 a : 0 <= a <= zlen C -> is_u32 a.
Proof. exact (SimProofs.C_u32 hostmark host C FT ng Clen t0 Room funs Table a). Qed.

(** ** Expressions *)

Definition F_ev (E : env) (h : Z) (m : mem) (n : ast) (m' : mem) : Prop :=
  is_null n = false /\ (forall n', optimize (expandp n false) = Ok n' -> immediate n' = false) /\
  (forall pre fr tmp hv a n' ws off', optimize (expandp n true) = Ok n' ->
  ecode (e_scopes E) (zlen fr + zlen tmp) n' ws off' -> mem_words code a ws ->
  zlen pre + zlen fr + zlen tmp = h -> frel hv (m_local m) fr -> at_ (pre ++ fr ++ tmp) m a -> crash m') /\
  forall pre fr tmp hv a n' ws off', optimize (expandp n false) = Ok n' ->
  ecode (e_scopes E) (zlen fr + zlen tmp) n' ws off' -> mem_words code a ws ->
  zlen pre + zlen fr + zlen tmp = h -> frel hv (m_local m) fr -> at_ (pre ++ fr ++ tmp) m a -> crash m'.

Definition F_evs (E : env) (h : Z) (m : mem) (n : ast) (m' : mem) : Prop :=
  forall pre fr tmp hv a n' ws off', optimize (expandp n false) = Ok n' ->
  ecode (e_scopes E) (zlen fr + zlen tmp) n' ws off' -> mem_words code a ws ->
  zlen pre + zlen fr + zlen tmp = h -> frel hv (m_local m) fr -> at_ (pre ++ fr ++ tmp) m a -> crash m'.

(** A node that is neither an increment nor folded. *)
Definition inner : list Z := TK_ASSIGNMENT :: TK_PAREN_OPEN :: TK_FSE :: TK_CALL_SELF :: two_parts.
Lemma inner_types ty : In ty inner -> is_incdec ty = false /\ (ty =? TK_INTEGER) = false /\ (ty =? TK_FLOAT) = false.
Proof. unfold inner, two_parts. cbn [In]. intros H. repeat (destruct H as [<-|H]; [repeat split; reflexivity|]). destruct H. Qed.
Lemma F_node E h m t root c0 c1 m' : In (tk_type t) inner ->
  (forall d0 d1, optimize (expandp c0 false) = Ok d0 -> optimize (expandp c1 false) = Ok d1 -> foldable (tk_type t) = true ->
     immediate d0 = true -> (is_null d1 || immediate d1)%bool = true ->
     ((d1 = ANull -> tk_type t = TK_MINUS) ->
       (forall x, is_int d0 x -> forall y, is_int d1 y -> exists v, folds (tk_type t) x (Some y) v) /\
       (forall x, is_float d0 x -> forall y, is_float d1 y -> exists v, ffolds (tk_type t) x (Some y) v)) -> False) ->
  (forall pre fr tmp hv a d0 d1 ws off', optimize (expandp c0 false) = Ok d0 -> optimize (expandp c1 false) = Ok d1 ->
    ecode (e_scopes E) (zlen fr + zlen tmp) (ANode t root d0 d1) ws off' -> mem_words code a ws ->
    zlen pre + zlen fr + zlen tmp = h -> frel hv (m_local m) fr -> at_ (pre ++ fr ++ tmp) m a -> crash m') ->
  F_ev E h m (ANode t root c0 c1) m'.
Proof.
  intros Ty Fo K. destruct (inner_types _ Ty) as (N & Ni & Nf). split; [reflexivity|]. assert (forall d, expandp (ANode t root c0 c1) d = ANode t root (expandp c0 false) (expandp c1 false)) as Ex.
  { intro d. cbn [expandp]. rewrite N. reflexivity. }
  assert (forall n', optimize (ANode t root (expandp c0 false) (expandp c1 false)) = Ok n' ->
    exists d0 d1, optimize (expandp c0 false) = Ok d0 /\ optimize (expandp c1 false) = Ok d1 /\ n' = ANode t root d0 d1) as Un.
  { intros n' O. apply opt_node in O. destruct O as (_ & d0 & d1 & O0 & O1 & [->|(I1 & I2 & I3 & I4 & Q)]); [eauto|]. exfalso.
    apply (Fo d0 d1 O0 O1 I1 I2 I3). intro Nm. destruct (Q Nm) as [Qi Qf]. split.
    - intros x Ix y Iy. destruct (proj2 (Qi x Ix) y Iy) as (v & _ & Fv). eauto.
    - intros x Ix y Iy. destruct (proj2 (Qf x Ix) y Iy) as (v & _ & _ & Fv). eauto. }
  split; [|split].
  - intros n' O. rewrite Ex in O. destruct (immediate n') eqn:I; [exfalso|reflexivity].
    apply opt_node in O. destruct O as (_ & d0 & d1 & O0 & O1 & [->|(I1 & I2 & I3 & I4 & Q)]).
    + cbn [immediate] in I. rewrite Ni, Nf in I. discriminate I.
    + apply (Fo d0 d1 O0 O1 I1 I2 I3). intro Nm. destruct (Q Nm) as [Qi Qf]. split.
      * intros x Ix y Iy. destruct (proj2 (Qi x Ix) y Iy) as (v & _ & Fv). eauto.
      * intros x Ix y Iy. destruct (proj2 (Qf x Ix) y Iy) as (v & _ & _ & Fv). eauto.
  - intros pre fr tmp hv a n' ws off' O Ec W Hh F H. rewrite Ex in O. destruct (Un _ O) as (d0 & d1 & O0 & O1 & ->). eauto 2 using K.
  - intros pre fr tmp hv a n' ws off' O Ec W Hh F H. rewrite Ex in O. destruct (Un _ O) as (d0 & d1 & O0 & O1 & ->). eauto 2 using K.
Qed.

Lemma two_inner ty : In ty two_parts -> In ty inner.
Proof. unfold inner. intro H. do 4 right. exact H. Qed.
Lemma two_not_assign ty : In ty two_parts -> (ty =? TK_ASSIGNMENT) = false.
Proof. unfold two_parts. cbn [In]. intro H. repeat (destruct H as [<-|H]; [reflexivity|]). destruct H. Qed.

Ltac nofold := intros ? ? ? ? Fo; exfalso; repeat match goal with T : tk_type _ = _ |- _ => rewrite T in Fo end; discriminate Fo.

Lemma f_left E h m t root a b m' : In (tk_type t) inner -> tk_type t <> TK_ASSIGNMENT -> F_ev E h m a m' -> F_ev E h m (ANode t root a b) m'.
Proof.
  intros Ty Na (_ & Im & _ & K). apply F_node; [exact Ty| |].
  - intros d0 d1 O0 _ _ I. rewrite (Im _ O0) in I. discriminate I.
  - intros pre fr tmp hv ad d0 d1 ws off' O0 O1 Ec W Hh F H. apply ecode_node in Ec; [|apply Z.eqb_neq; exact Na].
    destruct Ec as (w0 & o0 & w1 & o1 & w2 & E0 & E1 & Tl & ->). destruct (wapp _ _ _ W) as [W0 _]. eauto.
Qed.

Lemma f_right E h m t root a b x m1 m' : In (tk_type t) inner -> tk_type t <> TK_ASSIGNMENT ->
  ev funs lim mf E h m a x m1 -> F_ev E (h + 1) m1 b m' -> F_ev E h m (ANode t root a b) m'.
Proof.
  intros Ty Na V (Nn & Im & _ & K). apply V_ev in V. apply F_node; [exact Ty| |].
  - intros d0 d1 _ O1 _ _ I. rewrite (Im _ O1) in I. apply opt_null in O1. rewrite expand_null, Nn in O1. rewrite O1 in I. discriminate I.
  - intros pre fr tmp hv ad d0 d1 ws off' O0 O1 Ec W Hh F H. apply ecode_node in Ec; [|apply Z.eqb_neq; exact Na].
    destruct Ec as (w0 & o0 & w1 & o1 & w2 & E0 & E1 & Tl & ->). destruct (wapp _ _ _ W) as [W0 W']. destruct (wapp _ _ _ W') as [W1 _].
    destruct (V pre fr tmp hv ad d0 w0 o0 O0 E0 W0 Hh F H) as (-> & fr1 & H1 & F1 & L1). pose proof (snoc_len tmp x) as Lt.
    replace (zlen fr + zlen tmp + 1) with (zlen fr1 + zlen (tmp ++ [x])) in E1 by lia.
    exact (K pre fr1 (tmp ++ [x]) hv _ d1 w1 o1 O1 E1 W1 ltac:(lia) F1 H1).
Qed.

Lemma f_args E h m t f args x m1 m' : tk_type t = TK_PAREN_OPEN -> ev funs lim mf E h m f x m1 -> F_evs E (h + 1) m1 args m' ->
  F_ev E h m (ANode t true f args) m'.
Proof.
  intros T V K. apply V_ev in V. apply F_node; [rewrite T; unfold inner; inlist|nofold|].
  intros pre fr tmp hv ad d0 d1 ws off' O0 O1 Ec W Hh F H. apply ecode_node in Ec; [|rewrite T; reflexivity].
  destruct Ec as (w0 & o0 & w1 & o1 & w2 & E0 & E1 & Tl & ->). destruct (wapp _ _ _ W) as [W0 W']. destruct (wapp _ _ _ W') as [W1 _].
  destruct (V pre fr tmp hv ad d0 w0 o0 O0 E0 W0 Hh F H) as (-> & fr1 & H1 & F1 & L1). pose proof (snoc_len tmp x) as Lt.
  replace (zlen fr + zlen tmp + 1) with (zlen fr1 + zlen (tmp ++ [x])) in E1 by lia.
  exact (K pre fr1 (tmp ++ [x]) hv _ d1 w1 o1 O1 E1 W1 ltac:(lia) F1 H1).
Qed.

(** The end of the values, and what represents them. *)
Lemma F2_one (R : val -> value -> Prop) L v l : Forall2 R (L ++ [v]) l -> exists l1 x, l = l1 ++ [x] /\ R v x.
Proof. intro H. destruct (F2_snoc _ _ _ _ H) as (l1 & x & A & _ & B). eauto. Qed.
Lemma F2_two (R : val -> value -> Prop) L v w l : Forall2 R (L ++ [v; w]) l -> exists l1 x y, l = l1 ++ [x; y] /\ R v x /\ R w y.
Proof.
  intro H. replace (L ++ [v; w]) with ((L ++ [v]) ++ [w]) in H by (rewrite <- app_assoc; reflexivity).
  destruct (F2_snoc _ _ _ _ H) as (l1 & y & -> & H1 & B). destruct (F2_one _ _ _ _ H1) as (l2 & x & -> & A).
  exists l2, x, y. rewrite <- app_assoc. auto.
Qed.
Lemma F2_three (R : val -> value -> Prop) L u v w l : Forall2 R (L ++ [u; v; w]) l -> exists l1 z x y, l = l1 ++ [z; x; y] /\ R u z /\ R v x /\ R w y.
Proof.
  intro H. replace (L ++ [u; v; w]) with ((L ++ [u; v]) ++ [w]) in H by (rewrite <- app_assoc; reflexivity).
  destruct (F2_snoc _ _ _ _ H) as (l1 & y & -> & H1 & B). destruct (F2_two _ _ _ _ _ H1) as (l2 & z & x & -> & A).
  exists l2, z, x, y. rewrite <- app_assoc. tauto.
Qed.

Lemma f_unary E h m t root a x m1 : ev funs lim mf E h m a x m1 -> unop_fails (tk_type t) x -> F_ev E h m (ANode t root a ANull) m1.
Proof.
  intros V0 U. pose proof (V_ev _ _ _ _ _ _ V0) as V.
  assert (is_number_val x = false) as Nx by (inversion U; subst; [assumption|]; destruct x; try discriminate; reflexivity).
  assert (exists op, plain_op (tk_type t) true = Some op /\ 0 <= op < 64 /\ op <> VmModel.OP_END /\ In (tk_type t) [TK_MINUS; TK_NOT] /\
    forall s Wd l y, stack_is s (l ++ [y]) -> rep s Wd x y -> exists t', opcode host op s = Ok (tt, t') /\ faulted s t') as (op & P & Ro & No & T & Kf).
  { inversion U; subst; eexists; (split; [reflexivity|]); (split; [split; [discriminate|reflexivity]|]); (split; [discriminate|]); (split; [inlist|]); intros s Wd l y St Rx.
    - exact (fault_neg _ _ _ _ _ St Rx Nx).
    - eapply fault_not; eassumption. }
  apply F_node; [unfold inner, two_parts; cbn [In] in *; intuition| |].
  - intros d0 d1 O0 _ _ I _ _. destruct (ev_imm _ _ _ _ _ _ _ _ _ _ V0 O0 I) as (_ & J & _). destruct x; try discriminate Nx; exact J.
  - intros pre fr tmp hv ad d0 d1 ws off' O0 O1 Ec W Hh F H. injection O1 as <-. apply ecode_node in Ec; [|destruct T as [<-|[<-|[]]]; reflexivity].
    destruct Ec as (w0 & o0 & w1 & o1 & w2 & E0 & (-> & ->) & Tl & ->). rewrite app_nil_l in *. destruct (wapp _ _ _ W) as [W0 W2].
    destruct (V pre fr tmp hv ad d0 w0 o0 O0 E0 W0 Hh F H) as (-> & fr1 & H1 & F1 & L1).
    assert (w2 = [op]) as ->.
    { unfold tail_code in Tl. revert P Tl. generalize (tk_type t) T. intros ty Ty P Tl. destruct Ty as [<-|[<-|[]]]; eqbs Tl; destruct Tl as (op' & P' & -> & ->); cbn in P, P';
      rewrite P in P'; injection P' as <-; reflexivity. }
    destruct (wcons _ _ _ W2) as [Wo _].
    apply (one_fault _ _ _ _ H1 Wo Ro No). intros s Wd mm l _ _ R St.
    replace (pre ++ fr1 ++ tmp ++ [x]) with ((pre ++ fr1 ++ tmp) ++ [x]) in R by asc.
    destruct (F2_one _ _ _ _ R) as (l1 & y & -> & Rx). eapply Kf; eassumption.
Qed.

Lemma fails_types ty x y : binop_fails ty x y ->
  In ty [TK_PLUS; TK_MINUS; TK_MULTIPLY; TK_DIVIDE; TK_MODULO; TK_LT; TK_GT; TK_LE; TK_GE; TK_EQ; TK_NE; TK_AND; TK_OR].
Proof. intro H. destruct H; try inlist; cbn [In] in *; tauto. Qed.
Lemma tail_fails sc off t root c1 ws off' x y : tail_code sc off t root c1 ws off' -> binop_fails (tk_type t) x y -> is_null c1 = false ->
  exists op, plain_op (tk_type t) false = Some op /\ ws = [op] /\ 0 <= op < 64 /\ op <> VmModel.OP_END.
Proof.
  intros Tl B N. unfold tail_code in Tl. rewrite N in Tl. apply fails_types in B. revert Tl. generalize (tk_type t) B. intros ty Hin Tl.
  cbn [In] in Hin. repeat (destruct Hin as [<-|Hin]; [eqbs Tl; destruct Tl as (op & P & -> & ->); injection P as <-; eexists; split; [reflexivity|]; split; [reflexivity|];
    split; [split; [discriminate|reflexivity]|discriminate]|]). destruct Hin.
Qed.

Lemma no_fold ty x y v : folds ty x (Some y) v -> binop_fails ty (VInt x) (VInt y) -> False.
Proof.
  intros Fo B. inversion B; subst; try discriminate; inversion Fo; subst.
  match goal with X : number_of _ = Some _ |- _ => injection X as <- end.
  match goal with X : _ \/ _ |- _ => destruct X as [->|[-> ->]]; [contradiction|] end.
  assert (-1 <> 0) as N1 by discriminate. match goal with X : quotient _ _ _ |- _ => pose proof (quotient_fun _ _ _ _ X (quot_quotient (- W31) (-1) N1)) as Eq end.
  match goal with X : is_s32 v |- _ => rewrite Eq in X; vm_compute in X; destruct X as [_ X]; discriminate X end.
Qed.
Lemma no_ffold ty x y v : ffolds ty x (Some y) v -> binop_fails ty (VFlt x) (VFlt y) -> False.
Proof. intros Fo B. inversion B; subst; try discriminate; inversion Fo. Qed.

Lemma f_binary E h m t root a b x y m1 m2 : ev funs lim mf E h m a x m1 -> ev funs lim mf E (h + 1) m1 b y m2 -> binop_fails (tk_type t) x y ->
  (numeric a && numeric b = true -> same_kind x y = true)%bool -> F_ev E h m (ANode t root a b) m2.
Proof.
  intros V1 V2 U Sk. pose proof (V_ev _ _ _ _ _ _ V1) as K1. pose proof (V_ev _ _ _ _ _ _ V2) as K2. pose proof (fails_types _ _ _ U) as Ty.
  apply F_node; [unfold inner, two_parts; cbn [In] in *; tauto| |].
  - intros d0 d1 O0 O1 Fo I0 I1 Q.
    pose proof (opt_null _ _ O1) as Nn. rewrite expand_null, (ev_nonnull _ _ _ _ _ _ _ _ _ V2) in Nn. rewrite Nn in I1. cbn [orb] in I1.
    destruct (ev_imm _ _ _ _ _ _ _ _ _ _ V1 O0 I0) as (N1 & J1 & _). destruct (ev_imm _ _ _ _ _ _ _ _ _ _ V2 O1 I1) as (N2 & J2 & _).
    rewrite N1, N2 in Sk. specialize (Sk eq_refl). destruct Q as [Qi Qf]; [intros ->; discriminate Nn|].
    destruct x as [x|x| | | |]; try contradiction; destruct y as [y|y| | | |]; try contradiction; try discriminate Sk.
    + destruct (Qi _ J1 _ J2) as (v & Fv). exact (no_fold _ _ _ _ Fv U).
    + destruct (Qf _ J1 _ J2) as (v & Fv). exact (no_ffold _ _ _ _ Fv U).
  - intros pre fr tmp hv ad d0 d1 ws off' O0 O1 Ec W Hh F H.
    apply ecode_node in Ec; [|cbn [In] in Ty; repeat (destruct Ty as [<-|Ty]; [reflexivity|]); destruct Ty].
    destruct Ec as (w0 & o0 & w1 & o1 & w2 & E0 & E1 & Tl & ->).
    destruct (wapp _ _ _ W) as [W0 W']. destruct (wapp _ _ _ W') as [W1 W2]. clear W'.
    destruct (K1 pre fr tmp hv ad d0 w0 o0 O0 E0 W0 Hh F H) as (-> & fr1 & H1 & F1 & L1).
    pose proof (snoc_len tmp x) as Lt.
    replace (zlen fr + zlen tmp + 1) with (zlen fr1 + zlen (tmp ++ [x])) in E1 by lia.
    destruct (K2 pre fr1 (tmp ++ [x]) hv _ d1 w1 o1 O1 E1 W1 ltac:(lia) F1 H1) as (-> & fr2 & H2 & F2 & L2).
    pose proof (opt_null _ _ O1) as Nn. rewrite expand_null, (ev_nonnull _ _ _ _ _ _ _ _ _ V2) in Nn.
    destruct (tail_fails _ _ _ _ _ _ _ _ _ Tl U Nn) as (op & P & -> & Ro & No). destruct (wcons _ _ _ W2) as [Wo _].
    apply (one_fault _ _ _ _ H2 Wo Ro No). intros s Wd mm l Hh2 _ R St.
    replace (pre ++ fr2 ++ (tmp ++ [x]) ++ [y]) with ((pre ++ fr2 ++ tmp) ++ [x; y]) in R by asc.
    destruct (F2_two _ _ _ _ _ R) as (l1 & p & q & -> & Rx & Ry). apply (fault_bin host s Wd l1 p q x y _ op St Rx Ry U); [| |exact P].
    + intros z Nz. exact (rep_int _ _ _ _ _ Ry Nz).
    + intros z ->. apply Rx.
Qed.

(** ** Increments *)

Lemma sum_tail sc off tp r lv t ws off' : ecode sc off (ANode tp r lv (SimProofs.one t)) ws off' -> tk_type tp = TK_PLUS \/ tk_type tp = TK_MINUS ->
  exists w0 op, ecode sc off lv w0 off' /\ plain_op (tk_type tp) false = Some op /\ 0 <= op < 64 /\ op <> VmModel.OP_END /\ ws = w0 ++ [OP_LIT_INT; u32 1; op].
Proof.
  intros E Ty. apply ecode_node in E; [|destruct Ty as [-> | ->]; reflexivity].
  destruct E as (w0 & o0 & w1 & o1 & w2 & E0 & E1 & Tl & ->). destruct (one_code _ _ _ _ _ E1) as (-> & ->). unfold tail_code in Tl. cbn [is_null SimProofs.one] in Tl.
  revert Tl. generalize (tk_type tp) Ty. intros ty T Tl. exists w0. 
  destruct T as [-> | ->]; eqbs Tl; destruct Tl as (op & P & -> & ->); injection P as <-; eexists;
  (split; [lazymatch goal with |- ecode _ _ _ _ ?o => lazymatch o with context [stack_offset ?q] => let r := eval vm_compute in (stack_offset q) in change (stack_offset q) with r end end; lazymatch goal with |- ecode _ _ _ _ ?o => replace o with o0 by lia end; exact E0|]); (split; [reflexivity|]); (split; [split; [discriminate|reflexivity]|]); (split; [discriminate|reflexivity]).
Qed.
Lemma count_code sc off t lv d ws off' v : ecode sc off (expand_node t lv d) ws off' -> count_fails (tk_type t) v ->
  exists ta tp wa rest o2, tk_type ta = TK_ASSIGNMENT /\ (tk_type tp = TK_PLUS \/ tk_type tp = TK_MINUS) /\ binop_fails (tk_type tp) v (VInt 1) /\
    ecode sc off (ANode ta false lv (ANode tp false lv (SimProofs.one t))) wa o2 /\ ws = wa ++ rest.
Proof.
  intros Ec Cf. unfold expand_node in Ec. cbv zeta in Ec. fold (SimProofs.one t) in Ec.
  destruct Cf as [[[T|T] B]|[[T|T] B]]; rewrite T in Ec; eqbs Ec.
  - eexists _, _, ws, [], _. split; [|split; [|split; [|split; [exact Ec|symmetry; apply app_nil_r]]]]; [reflexivity|left; reflexivity|exact B].
  - destruct d; cbn [negb] in Ec; cbv iota in Ec.
    + eexists _, _, ws, [], _. split; [|split; [|split; [|split; [exact Ec|symmetry; apply app_nil_r]]]]; [reflexivity|left; reflexivity|exact B].
    + destruct (sum_tail _ _ _ _ _ _ _ _ Ec (or_intror eq_refl)) as (wa & op & Ea & P & _ & _ & ->).
      eexists _, _, wa, _, _. split; [|split; [|split; [|split; [exact Ea|reflexivity]]]]; [reflexivity|left; reflexivity|exact B].
  - eexists _, _, ws, [], _. split; [|split; [|split; [|split; [exact Ec|symmetry; apply app_nil_r]]]]; [reflexivity|right; reflexivity|exact B].
  - destruct d; cbn [negb] in Ec; cbv iota in Ec.
    + eexists _, _, ws, [], _. split; [|split; [|split; [|split; [exact Ec|symmetry; apply app_nil_r]]]]; [reflexivity|right; reflexivity|exact B].
    + destruct (sum_tail _ _ _ _ _ _ _ _ Ec (or_introl eq_refl)) as (wa & op & Ea & P & _ & _ & ->).
      eexists _, _, wa, _, _. split; [|split; [|split; [|split; [exact Ea|reflexivity]]]]; [reflexivity|right; reflexivity|exact B].
Qed.
Lemma count_is ty v : count_fails ty v -> is_incdec ty = true.
Proof. intros [[[-> | ->] _]|[[-> | ->] _]]; reflexivity. Qed.
Lemma any_count ty : is_incdec ty = true -> exists v, count_fails ty v.
Proof.
  intro I. exists VNil. assert (ty = TK_INCREMENT \/ ty = TK_POSTINC \/ ty = TK_DECREMENT \/ ty = TK_POSTDEC) as T.
  { unfold is_incdec in I. rewrite !Bool.orb_true_iff, !Z.eqb_eq in I. tauto. }
  destruct T as [-> |[-> |[-> | ->]]]; [left|left|right|right]; (split; [auto|]); constructor; try reflexivity; discriminate.
Qed.
Lemma f_plus L m a v ty op : at_ (L ++ [v]) m a -> zlen L + 2 <= lim -> binop_fails ty v (VInt 1) -> plain_op ty false = Some op -> 0 <= op < 64 -> op <> VmModel.OP_END ->
  mem_words code a [OP_LIT_INT; u32 1; op] -> crash m.
Proof.
  intros H B Bf P Ro No W. destruct (wapp a [OP_LIT_INT; u32 1] [op] W) as [W1 W2]. change (zlen [OP_LIT_INT; u32 1]) with 2 in W2. destruct (wcons _ _ _ W2) as [Wo _].
  pose proof (i_int _ _ _ 1 H ltac:(rewrite snoc_len; lia) W1 ltac:(unfold is_s32, W31; lia)) as H1.
  apply (one_fault _ _ _ _ H1 Wo Ro No). intros s Wd mm l _ _ R St. rewrite <- app_assoc in R. cbn [app] in R.
  destruct (F2_two _ _ _ _ _ R) as (l1 & p & q & -> & Rx & Ry). apply (fault_bin host s Wd l1 p q v (VInt 1) ty op St Rx Ry Bf); [| |exact P].
  + intros z Nz. exact (rep_int _ _ _ _ _ Ry Nz).
  + intros z ->. apply Rx.
Qed.

Lemma f_count E h m t root t1 root0 p v : tk_type t1 = TK_IDENTIFIER -> spare lim h ->
  lookup (tk_str t1) (e_scopes E) = Some p -> read p m = Some v -> count_fails (tk_type t) v ->
  F_ev E h m (ANode t root (ANode t1 root0 ANull ANull) ANull) m.
Proof.
  intros T0 Sp Lk Rd Cf. unfold spare in Sp.
  assert (forall d pre fr tmp hv a n' ws off', optimize (expandp (ANode t root (ANode t1 root0 ANull ANull) ANull) d) = Ok n' ->
    ecode (e_scopes E) (zlen fr + zlen tmp) n' ws off' -> mem_words code a ws ->
    zlen pre + zlen fr + zlen tmp = h -> frel hv (m_local m) fr -> at_ (pre ++ fr ++ tmp) m a -> crash m) as K.
  { intros d pre fr tmp hv a n' ws off' O Ec W Hh F H.
    cbn [expandp] in O. rewrite (count_is _ _ Cf) in O.
    destruct (expand_opt t t1 root0 d T0) as [Oe _]. rewrite Oe in O. injection O as <-.
    destruct (count_code _ _ _ _ _ _ _ _ Ec Cf) as (ta & tp & wa & rest & o2 & Ta & Tp & Bf & Ea & ->). destruct (wapp _ _ _ W) as [Wa _].
    destruct (proj1 (assign_code _ _ _ _ _ _ _ _ _ _ _ Ea Ta) T0) as (w1 & o1 & p' & E1 & Lk' & -> & ->). clear Ea. rewrite Lk in Lk'. injection Lk' as <-.
    destruct (sum_tail _ _ _ _ _ _ _ _ E1 Tp) as (w0 & op & E0 & P & Ro & No & ->).
    apply ecode_node in E0; [|rewrite T0; reflexivity]. destruct E0 as (w2 & o4 & w3 & o3 & w4 & (-> & ->) & (-> & ->) & Tl & ->).
    unfold tail_code in Tl. rewrite T0 in Tl. eqbs Tl. destruct Tl as (p' & Lk' & -> & ->). rewrite Lk in Lk'. injection Lk' as <-.
    rewrite ?app_nil_l in *. destruct (wapp _ _ _ Wa) as [Wl _]. destruct (wapp _ _ _ Wl) as [Wf Wo]. 
    assert (zlen (fetch_code p (zlen fr + zlen tmp)) = 3) as Lf by (destruct p; reflexivity). rewrite Lf in Wo.
    pose proof (i_get pre fr tmp a m p v hv _ H Rd F eq_refl ltac:(rewrite !zlen_app; lia) Wf) as H1.
    replace (pre ++ fr ++ tmp ++ [v]) with ((pre ++ fr ++ tmp) ++ [v]) in H1 by asc.
    exact (f_plus _ _ _ _ _ _ H1 ltac:(rewrite !zlen_app; lia) Bf P Ro No Wo). }
  split; [reflexivity|]. split; [|split; [exact (K true)|exact (K false)]].
  intros n' O. cbn [expandp] in O. rewrite (count_is _ _ Cf) in O. destruct (expand_opt t t1 root0 false T0) as [Oe Im]. rewrite Oe in O. injection O as <-. exact Im.
Qed.

Lemma f_count_at E h m t root t1 root0 a b x k m1 m2 v : tk_type t1 = TK_BRACKET_OPEN -> count_fails (tk_type t) v ->
  ev funs lim mf E h m a x m1 -> ev funs lim mf E (h + 1) m1 b k m2 ->
  (forall L ip, at_ (L ++ [x; k]) m2 ip -> mem_words code ip [OP_FIELDGET] ->
    forall tp op, binop_fails (tk_type tp) v (VInt 1) -> plain_op (tk_type tp) false = Some op -> 0 <= op < 64 -> op <> VmModel.OP_END ->
    zlen L + 2 <= lim -> mem_words code (ip + 1) [OP_LIT_INT; u32 1; op] -> crash m2) ->
  F_ev E h m (ANode t root (ANode t1 root0 a b) ANull) m2.
Proof.
  intros T0 Cf Va Vb Kf. pose proof (V_ev _ _ _ _ _ _ Va) as K1. pose proof (V_ev _ _ _ _ _ _ Vb) as K2.
  pose proof (ev_spare _ _ _ _ _ _ _ _ _ Va) as Sp. unfold spare in Sp.
  assert (forall d pre fr tmp hv ad n' ws off', optimize (expandp (ANode t root (ANode t1 root0 a b) ANull) d) = Ok n' ->
    ecode (e_scopes E) (zlen fr + zlen tmp) n' ws off' -> mem_words code ad ws ->
    zlen pre + zlen fr + zlen tmp = h -> frel hv (m_local m) fr -> at_ (pre ++ fr ++ tmp) m ad -> crash m2) as K.
  { intros d pre fr tmp hv ad n' ws off' O Ec W Hh F H.
    cbn [expandp] in O. rewrite (count_is _ _ Cf) in O.
    destruct (expand_field_opt t t1 root0 a b d n' T0 O) as (a' & b' & Oa & Ob & -> & _).
    destruct (count_code _ _ _ _ _ _ _ _ Ec Cf) as (ta & tp & wa & rest & o2 & Ta & Tp & Bf & Ea & ->). destruct (wapp _ _ _ W) as [Wa _].
    destruct (proj2 (assign_code _ _ _ _ _ _ _ _ _ _ _ Ea Ta) T0) as (w1 & o1 & w2 & o3 & w3 & o4 & E1 & E2 & E3 & -> & ->). clear Ea.
    destruct (sum_tail _ _ _ _ _ _ _ _ E1 Tp) as (w0 & op & E0 & P & Ro & No & ->).
    assert (optimize (expandp a false) = Ok a') as Oa'.
    { rewrite (proj1 (code_plain a (proj1 (ev_leafy funs lim mf) _ _ _ _ _ _ Va)) _ _ _ _ _ Oa E2). exact Oa. }
    assert (optimize (expandp b false) = Ok b') as Ob'.
    { rewrite (proj1 (code_plain b (proj1 (ev_leafy funs lim mf) _ _ _ _ _ _ Vb)) _ _ _ _ _ Ob E3). exact Ob. }
    apply ecode_node in E0; [|rewrite T0; reflexivity]. destruct E0 as (u0 & p0 & u1 & p1 & u2 & Q0 & Q1 & Tl & ->).
    unfold tail_code in Tl. rewrite T0 in Tl. eqbs Tl. destruct Tl as (op0 & P0 & -> & ->). injection P0 as <-.
    destruct (wapp _ _ _ Wa) as [Wl _]. destruct (wapp _ _ _ Wl) as [Wf Wo]. destruct (wapp _ _ _ Wf) as [W0 W']. destruct (wapp _ _ _ W') as [W1 W2].
    destruct (K1 pre fr tmp hv ad a' u0 p0 Oa' Q0 W0 Hh F H) as (-> & fr1 & H1 & F1 & L1). pose proof (snoc_len tmp x) as Lt.
    replace (zlen fr + zlen tmp + 1) with (zlen fr1 + zlen (tmp ++ [x])) in Q1 by lia.
    destruct (K2 pre fr1 (tmp ++ [x]) hv _ b' u1 p1 Ob' Q1 W1 ltac:(lia) F1 H1) as (-> & fr2 & H2 & F2 & L2).
    replace (pre ++ fr2 ++ (tmp ++ [x]) ++ [k]) with ((pre ++ fr2 ++ tmp) ++ [x; k]) in H2 by asc.
    apply (Kf _ _ H2 W2 tp op Bf P Ro No); [rewrite !zlen_app; lia|].
    replace (ad + zlen u0 + zlen u1 + 1) with (ad + zlen (u0 ++ u1 ++ [OP_FIELDGET])); [exact Wo|]. rewrite !zlen_app. change (zlen [OP_FIELDGET]) with 1. lia. }
  split; [reflexivity|]. split; [|split; [exact (K true)|exact (K false)]].
  intros n' O. cbn [expandp] in O. rewrite (count_is _ _ Cf) in O. destruct (expand_field_opt t t1 root0 a b false n' T0 O) as (a' & b' & _ & _ & _ & Im). exact Im.
Qed.

Lemma f_count_object E h m t root t1 root0 a b x k m1 m2 : tk_type t1 = TK_BRACKET_OPEN -> is_incdec (tk_type t) = true ->
  ev funs lim mf E h m a x m1 -> ev funs lim mf E (h + 1) m1 b k m2 -> is_obj_val x = false ->
  F_ev E h m (ANode t root (ANode t1 root0 a b) ANull) m2.
Proof.
  intros T0 I Va Vb Nx. destruct (any_count _ I) as (v & Cf). eapply f_count_at; try eassumption. intros L ip H W _ _ _ _ _ _ _ _.
  destruct (wcons _ _ _ W) as [Wo _]. apply (one_fault _ _ _ _ H Wo); [split; [discriminate|reflexivity]|discriminate|]. intros s Wd mm l _ _ R St.
  destruct (F2_two _ _ _ _ _ R) as (l1 & p & q & -> & Rx & Ry). eapply fault_get; [exact host|exact St|eapply not_obj; eassumption].
Qed.
Lemma f_count_field E h m t root t1 root0 a b o l k m1 m2 : tk_type t1 = TK_BRACKET_OPEN ->
  ev funs lim mf E h m a (VObj o) m1 -> ev funs lim mf E (h + 1) m1 b k m2 -> fields o m2 = Some l -> key_ok k -> count_fails (tk_type t) (oget k l) ->
  F_ev E h m (ANode t root (ANode t1 root0 a b) ANull) m2.
Proof.
  intros T0 Va Vb Fi Ko Cf. eapply f_count_at; try eassumption. intros L ip H W tp op Bf P Ro No Ll Wo.
  pose proof (i_field _ _ _ _ _ _ H Fi Ko W) as H1. exact (f_plus _ _ _ _ _ _ H1 Ll Bf P Ro No Wo).
Qed.

Lemma f_field E h m t root a b x k m1 m2 : tk_type t = TK_BRACKET_OPEN -> ev funs lim mf E h m a x m1 -> ev funs lim mf E (h + 1) m1 b k m2 -> is_obj_val x = false ->
  F_ev E h m (ANode t root a b) m2.
Proof.
  intros T V1 V2 Nx. pose proof (V_ev _ _ _ _ _ _ V1) as K1. pose proof (V_ev _ _ _ _ _ _ V2) as K2.
  apply F_node; [rewrite T; unfold inner, two_parts; inlist|nofold|].
  intros pre fr tmp hv ad d0 d1 ws off' O0 O1 Ec W Hh F H. apply ecode_node in Ec; [|rewrite T; reflexivity].
  destruct Ec as (w0 & o0 & w1 & o1 & w2 & E0 & E1 & Tl & ->).
  unfold tail_code in Tl. rewrite T in Tl. eqbs Tl. destruct Tl as (op & P & -> & ->). injection P as <-.
  destruct (wapp _ _ _ W) as [W0 W']. destruct (wapp _ _ _ W') as [W1 W2]. clear W'.
  destruct (K1 pre fr tmp hv ad d0 w0 o0 O0 E0 W0 Hh F H) as (-> & fr1 & H1 & F1 & L1).
  pose proof (snoc_len tmp x) as Lt.
  replace (zlen fr + zlen tmp + 1) with (zlen fr1 + zlen (tmp ++ [x])) in E1 by lia.
  destruct (K2 pre fr1 (tmp ++ [x]) hv _ d1 w1 o1 O1 E1 W1 ltac:(lia) F1 H1) as (-> & fr2 & H2 & F2 & L2).
  destruct (wcons _ _ _ W2) as [Wo _].
  apply (one_fault _ _ _ _ H2 Wo); [split; [discriminate|reflexivity]|discriminate|]. intros s Wd mm l Hh2 _ R St.
  replace (pre ++ fr2 ++ (tmp ++ [x]) ++ [k]) with ((pre ++ fr2 ++ tmp) ++ [x; k]) in R by asc.
  destruct (F2_two _ _ _ _ _ R) as (l1 & p & q & -> & Rx & Ry).
  eapply fault_get; [exact host|exact St|eapply not_obj; eassumption].
Qed.

Lemma f_assign E h m t root t1 root0 b m' : tk_type t = TK_ASSIGNMENT -> tk_type t1 = TK_IDENTIFIER -> F_ev E h m b m' ->
  F_ev E h m (ANode t root (ANode t1 root0 ANull ANull) b) m'.
Proof.
  intros T T0 (_ & _ & _ & K). apply F_node; [rewrite T; unfold inner; inlist|nofold|].
  intros pre fr tmp hv ad d0 d1 ws off' O0 O1 Ec W Hh F H. rewrite (leaf_opt _ _ _ _ T0 ltac:(inlist) O0) in Ec.
  destruct (proj1 (assign_code _ _ _ _ _ _ _ _ _ _ _ Ec T) T0) as (w1 & o1 & p & E1 & Lk & -> & ->). destruct (wapp _ _ _ W) as [W1 _]. eauto.
Qed.

(** len(a) *)
Lemma len_parts E off t root t1 a d1 ws off' : tk_type t = TK_FSE -> tk_type t1 = TK_PAREN_OPEN -> optimize (expandp (ANode t1 false a ANull) false) = Ok d1 ->
  ecode (e_scopes E) off (ANode t root ANull d1) ws off' ->
  exists e0 w3 w2 o3, optimize (expandp a false) = Ok e0 /\ ecode (e_scopes E) off e0 w3 o3 /\ ws = w3 ++ w2 /\ (tk_str t = bs "len" -> w2 = [OP_LEN]).
Proof.
  intros T T1 O1 Ec. cbn [expandp] in O1. rewrite T1, not_incdec in O1 by inlist.
  apply opt_node in O1. destruct O1 as (_ & e0 & e1 & P0 & P1 & [->|(I & _)]); [|rewrite T1 in I; discriminate I]. injection P1 as <-.
  apply ecode_node in Ec; [|rewrite T; reflexivity]. destruct Ec as (w0 & o0 & w1 & o1 & w2 & (-> & ->) & E1 & Tl & ->).
  apply ecode_node in E1; [|rewrite T1; reflexivity]. destruct E1 as (w3 & o3 & w4 & o4 & w5 & E3 & (-> & ->) & Tl1 & ->).
  unfold tail_code in Tl1. rewrite T1 in Tl1. eqbs Tl1. destruct Tl1 as (-> & ->).
  exists e0, w3, w2, o3. split; [exact P0|]. split; [exact E3|]. split; [rewrite ?app_nil_l, ?app_nil_r; reflexivity|]. intro Ts.
  unfold tail_code in Tl. rewrite T in Tl. eqbs Tl. rewrite Ts in Tl. destruct Tl as (_ & Tl). cbn [chain_length] in Tl.
  destruct (fse_len _ _ Tl) as (-> & _). reflexivity.
Qed.
Lemma f_len_of E h m t root t1 a m' : tk_type t = TK_FSE -> tk_type t1 = TK_PAREN_OPEN -> F_ev E h m a m' ->
  F_ev E h m (ANode t root ANull (ANode t1 false a ANull)) m'.
Proof.
  intros T T1 (_ & _ & _ & K). apply F_node; [rewrite T; unfold inner; inlist|nofold|].
  intros pre fr tmp hv ad d0 d1 ws off' O0 O1 Ec W Hh F H. injection O0 as <-.
  destruct (len_parts _ _ _ _ _ _ _ _ _ T T1 O1 Ec) as (e0 & w3 & w2 & o3 & P0 & E3 & -> & _). destruct (wapp _ _ _ W) as [W1 _]. eauto.
Qed.
Lemma f_len E h m t root t1 a x m1 : tk_type t = TK_FSE -> tk_str t = bs "len" -> tk_type t1 = TK_PAREN_OPEN -> ev funs lim mf E h m a x m1 -> is_obj_val x = false ->
  F_ev E h m (ANode t root ANull (ANode t1 false a ANull)) m1.
Proof.
  intros T Ts T1 V Nx. apply V_ev in V. apply F_node; [rewrite T; unfold inner; inlist|nofold|].
  intros pre fr tmp hv ad d0 d1 ws off' O0 O1 Ec W Hh F H. injection O0 as <-.
  destruct (len_parts _ _ _ _ _ _ _ _ _ T T1 O1 Ec) as (e0 & w3 & w2 & o3 & P0 & E3 & -> & W2). rewrite (W2 Ts) in W. clear W2. destruct (wapp _ _ _ W) as [W1 W2].
  destruct (V pre fr tmp hv ad e0 w3 o3 P0 E3 W1 Hh F H) as (-> & fr1 & H1 & F1 & L1). destruct (wcons _ _ _ W2) as [Wo _].
  apply (one_fault _ _ _ _ H1 Wo); [split; [discriminate|reflexivity]|discriminate|]. intros s Wd mm l _ _ R St.
  replace (pre ++ fr1 ++ tmp ++ [x]) with ((pre ++ fr1 ++ tmp) ++ [x]) in R by asc.
  destruct (F2_one _ _ _ _ R) as (l1 & y & -> & Rx). eapply fault_len; [exact host|exact St|eapply not_obj; eassumption].
Qed.

(** a[b] = c *)
Lemma set_parts E off t root t1 root0 a b d0 d1 ws off' : tk_type t = TK_ASSIGNMENT -> tk_type t1 = TK_BRACKET_OPEN ->
  optimize (expandp (ANode t1 root0 a b) false) = Ok d0 -> ecode (e_scopes E) off (ANode t root d0 d1) ws off' ->
  exists e0 e1 w1 o1 w2 o2 w3 o3, optimize (expandp a false) = Ok e0 /\ optimize (expandp b false) = Ok e1 /\
    ecode (e_scopes E) off d1 w1 o1 /\ ecode (e_scopes E) o1 e0 w2 o2 /\ ecode (e_scopes E) o2 e1 w3 o3 /\ ws = w1 ++ w2 ++ w3 ++ [OP_FIELDSET].
Proof.
  intros T T0 O0 Ec. cbn [expandp] in O0. rewrite T0, not_incdec in O0 by inlist.
  apply opt_node in O0. destruct O0 as (_ & e0 & e1 & P0 & P1 & [->|(I & _)]); [|rewrite T0 in I; discriminate I].
  destruct (proj2 (assign_code _ _ _ _ _ _ _ _ _ _ _ Ec T) T0) as (w1 & o1 & w2 & o2 & w3 & o3 & E1 & E2 & E3 & -> & _).
  exists e0, e1, w1, o1, w2, o2, w3, o3. auto 8.
Qed.
Lemma f_set_value E h m t root t1 root0 a b c m' : tk_type t = TK_ASSIGNMENT -> tk_type t1 = TK_BRACKET_OPEN -> F_ev E h m c m' ->
  F_ev E h m (ANode t root (ANode t1 root0 a b) c) m'.
Proof.
  intros T T0 (_ & _ & _ & K). apply F_node; [rewrite T; unfold inner; inlist|nofold|].
  intros pre fr tmp hv ad d0 d1 ws off' O0 O1 Ec W Hh F H.
  destruct (set_parts _ _ _ _ _ _ _ _ _ _ _ _ T T0 O0 Ec) as (e0 & e1 & w1 & o1 & w2 & o2 & w3 & o3 & P0 & P1 & E1 & E2 & E3 & ->).
  destruct (wapp _ _ _ W) as [W1 _]. eauto.
Qed.
Lemma f_set_object E h m t root t1 root0 a b c v m1 m' : tk_type t = TK_ASSIGNMENT -> tk_type t1 = TK_BRACKET_OPEN ->
  ev funs lim mf E h m c v m1 -> F_ev E (h + 1) m1 a m' ->
  F_ev E h m (ANode t root (ANode t1 root0 a b) c) m'.
Proof.
  intros T T0 V (_ & _ & _ & K). apply V_ev in V. apply F_node; [rewrite T; unfold inner; inlist|nofold|].
  intros pre fr tmp hv ad d0 d1 ws off' O0 O1 Ec W Hh F H.
  destruct (set_parts _ _ _ _ _ _ _ _ _ _ _ _ T T0 O0 Ec) as (e0 & e1 & w1 & o1 & w2 & o2 & w3 & o3 & P0 & P1 & E1 & E2 & E3 & ->).
  destruct (wapp _ _ _ W) as [W1 W']. destruct (wapp _ _ _ W') as [W2 _].
  destruct (V pre fr tmp hv ad d1 w1 o1 O1 E1 W1 Hh F H) as (-> & fr1 & H1 & F1 & L1). pose proof (snoc_len tmp v) as Lt.
  replace (zlen fr + zlen tmp + 1) with (zlen fr1 + zlen (tmp ++ [v])) in E2 by lia.
  exact (K pre fr1 (tmp ++ [v]) hv _ e0 w2 o2 P0 E2 W2 ltac:(lia) F1 H1).
Qed.
Lemma f_set_key E h m t root t1 root0 a b c v x m1 m2 m' : tk_type t = TK_ASSIGNMENT -> tk_type t1 = TK_BRACKET_OPEN ->
  ev funs lim mf E h m c v m1 -> ev funs lim mf E (h + 1) m1 a x m2 -> F_ev E (h + 2) m2 b m' ->
  F_ev E h m (ANode t root (ANode t1 root0 a b) c) m'.
Proof.
  intros T T0 V V2 (_ & _ & _ & K). apply V_ev in V. apply V_ev in V2. apply F_node; [rewrite T; unfold inner; inlist|nofold|].
  intros pre fr tmp hv ad d0 d1 ws off' O0 O1 Ec W Hh F H.
  destruct (set_parts _ _ _ _ _ _ _ _ _ _ _ _ T T0 O0 Ec) as (e0 & e1 & w1 & o1 & w2 & o2 & w3 & o3 & P0 & P1 & E1 & E2 & E3 & ->).
  destruct (wapp _ _ _ W) as [W1 W']. destruct (wapp _ _ _ W') as [W2 W'']. destruct (wapp _ _ _ W'') as [W3 _].
  destruct (V pre fr tmp hv ad d1 w1 o1 O1 E1 W1 Hh F H) as (-> & fr1 & H1 & F1 & L1). pose proof (snoc_len tmp v) as Lt.
  replace (zlen fr + zlen tmp + 1) with (zlen fr1 + zlen (tmp ++ [v])) in E2 by lia.
  destruct (V2 pre fr1 (tmp ++ [v]) hv _ e0 w2 o2 P0 E2 W2 ltac:(lia) F1 H1) as (-> & fr2 & H2 & F2 & L2). pose proof (snoc_len (tmp ++ [v]) x) as Lt2.
  replace (zlen fr1 + zlen (tmp ++ [v]) + 1) with (zlen fr2 + zlen ((tmp ++ [v]) ++ [x])) in E3 by lia.
  exact (K pre fr2 ((tmp ++ [v]) ++ [x]) hv _ e1 w3 o3 P1 E3 W3 ltac:(lia) F2 H2).
Qed.
Lemma f_set E h m t root t1 root0 a b c v x k m1 m2 m3 : tk_type t = TK_ASSIGNMENT -> tk_type t1 = TK_BRACKET_OPEN ->
  ev funs lim mf E h m c v m1 -> ev funs lim mf E (h + 1) m1 a x m2 -> ev funs lim mf E (h + 2) m2 b k m3 -> is_obj_val x = false ->
  F_ev E h m (ANode t root (ANode t1 root0 a b) c) m3.
Proof.
  intros T T0 V V2 V3 Nx. apply V_ev in V. apply V_ev in V2. apply V_ev in V3. apply F_node; [rewrite T; unfold inner; inlist|nofold|].
  intros pre fr tmp hv ad d0 d1 ws off' O0 O1 Ec W Hh F H.
  destruct (set_parts _ _ _ _ _ _ _ _ _ _ _ _ T T0 O0 Ec) as (e0 & e1 & w1 & o1 & w2 & o2 & w3 & o3 & P0 & P1 & E1 & E2 & E3 & ->).
  destruct (wapp _ _ _ W) as [W1 W']. destruct (wapp _ _ _ W') as [W2 W'']. destruct (wapp _ _ _ W'') as [W3 W4]. clear W' W''.
  destruct (V pre fr tmp hv ad d1 w1 o1 O1 E1 W1 Hh F H) as (-> & fr1 & H1 & F1 & L1). pose proof (snoc_len tmp v) as Lt.
  replace (zlen fr + zlen tmp + 1) with (zlen fr1 + zlen (tmp ++ [v])) in E2 by lia.
  destruct (V2 pre fr1 (tmp ++ [v]) hv _ e0 w2 o2 P0 E2 W2 ltac:(lia) F1 H1) as (-> & fr2 & H2 & F2 & L2). pose proof (snoc_len (tmp ++ [v]) x) as Lt2.
  replace (zlen fr1 + zlen (tmp ++ [v]) + 1) with (zlen fr2 + zlen ((tmp ++ [v]) ++ [x])) in E3 by lia.
  destruct (V3 pre fr2 ((tmp ++ [v]) ++ [x]) hv _ e1 w3 o3 P1 E3 W3 ltac:(lia) F2 H2) as (-> & fr3 & H3 & F3 & L3).
  destruct (wcons _ _ _ W4) as [Wo _].
  apply (one_fault _ _ _ _ H3 Wo); [split; [discriminate|reflexivity]|discriminate|]. intros s Wd mm l _ _ R St.
  replace (pre ++ fr3 ++ ((tmp ++ [v]) ++ [x]) ++ [k]) with ((pre ++ fr3 ++ tmp) ++ [v; x; k]) in R by asc.
  destruct (F2_three _ _ _ _ _ _ R) as (l1 & z & y & q & -> & _ & Rx & _). eapply fault_set; [exact St|eapply not_obj; eassumption].
Qed.

(** *** Calls *)

Lemma f_bad_call L m x vs ip : at_ (L ++ x :: vs ++ [VInt (zlen vs)]) m ip -> mem_words code ip [OP_CALL] -> not_callable funs x vs -> crash m.
Proof.
  intros H W Nc. destruct (wcons _ _ _ W) as [Wo _].
  apply (one_fault _ _ _ _ H Wo); [split; [discriminate|reflexivity]|discriminate|]. intros s Wd mm l Hs _ R St.
  destruct (F2_app _ _ _ _ R) as (l1 & l2 & -> & R1 & R2). inversion R2 as [|? y ? l3 Ry R3]; subst.
  destruct (F2_snoc _ _ _ _ R3) as (l4 & z & -> & R4 & [-> Rz]). pose proof (Forall2_zlen _ _ _ R4) as Z4. rewrite Z4 in St.
  pose proof (rep_type _ _ _ _ Ry) as Ty.
  assert (v_type y <> T_OBJ) as No by (rewrite Ty; destruct x; try discriminate; contradiction).
  assert (bad_call s y l4) as B.
  { destruct x as [ | | | |id|]; try (apply bc_type; rewrite Ty; discriminate); try contradiction.
    destruct Nc as (fd & Fn & Nv & Sm). destruct (Table _ _ Fn) as (f & Fi & _ & Fa & _). destruct Ry as [-> _]. apply (bc_count _ _ _ f).
    - split; [reflexivity|]. rewrite (i_funcs _ _ _ _ _ _ (MachProofs.here_inv C FT lim ng mf t0 Start _ _ _ _ Hs)). exact Fi.
    - unfold accepts. rewrite Fa. rewrite Z4 in Nv. unfold INVALID, W31 in *. intros [Q|Q]; lia. }
  destruct (C22_bad_call s l1 y l4 (ex_intro _ true (hr_wf _ _ _ _ _ Hs)) St No B) as (s' & E & Fd & _).
  exists s'. split; [exact (E host)|eapply failed_faulted; exact Fd].
Qed.

(** Entering a function whose body fails. *)
(** A function of the host that reports an error. *)
Lemma f_native L m id vs m' ip : at_ (L ++ VFun id :: vs ++ [VInt (zlen vs)]) m ip -> mem_words code ip [OP_CALL] -> host_fails id vs m m' -> crash m'.
Proof.
  intros (t & S & H) W Hf. destruct (wcons _ _ _ W) as [W1 _]. destruct (Room t S) as (Gp & (i & j & Bi & Bj & Ij & Gi & Gj) & (q & Bq & Gq)).
  destruct (tick_here hostmark C FT lim ng mf t0 Start _ _ _ _ H Gp) as (t1 & T & H1 & Ns & No).
  destruct (hr_mem _ _ _ _ _ H1) as (Wd & mm & l & D & G & R & St).
  destruct (F2_app _ _ _ _ R) as (l1 & l2 & -> & R1 & R2). inversion R2 as [|? y ? l3 Ry R3]; subst.
  destruct (F2_snoc _ _ _ _ R3) as (l4 & x & -> & R4 & [-> Rx]). destruct Ry as [-> Uid]. pose proof (Forall2_zlen _ _ _ R4) as Z4. rewrite Z4 in St.
  destruct (proj2 Native _ _ _ _ Hf) as (cb & X).
  assert (string_room t1) as Sr by (exists i, j; auto 10). assert (exists i, 0 <= i < W31 /\ get_obj t1 i = None) as Or by (exists q; auto).
  destruct (X t1 Wd mm l1 l4 (hr_frame _ _ _ _ _ H1) (hr_wf _ _ _ _ _ H1) Sr Or D G St R4) as (Gn & r & t' & W' & mm' & Eh & Ne & Fr & Wf' & Cx & D' & G').
  assert (v_cur t' = v_cur t1) as Cu by (pose proof (f_equal v_cur Fr) as Cu; unfold frame in Cu; vsin Cu; exact Cu).
  assert (stack_is t' (l1 ++ call_frame (mkV T_FUNC id) l4)) as St'. { destruct St as (c & A & Bc). exists c. rewrite Cx, Cu. auto. }
  assert (ip_is t' ip) as Ip'. { destruct (hr_ip _ _ _ _ _ H1) as (c & A & Bc). exists c. rewrite Cx, Cu. auto. }
  pose proof (rs_start _ _ St) as Rs.
  destruct (native_run host t1 l1 _ l4 _ _ _ cb r t' Rs Gn Eh St') as (s1 & E & Rt).
  assert (opcode host OP_CALL t1 = Ok (tt, s1)) as Eo.
  { change (opcode host OP_CALL) with (op_call host). rewrite (call_start _ _ _ _ _ _ _ Rs).
    rewrite (bind_run _ _ _ _ _ (resolve_end (Some (mkV T_FUNC id)) (mkV T_FUNC id) 10 _ _ (or_introl eq_refl) ltac:(discriminate))). exact E. }
  destruct (instruction_restacked _ _ _ _ _ _ _ Eo Rt Ip') as (t3 & E3 & M3).
  destruct M3 as (c & k & Hc & Wk & Ck & Et). pose proof (znth_some_range _ _ _ Hc) as Rg.
  exists t, OP_CALL, t3. split; [exact S|]. split; [apply (fetch_at hostmark host C FT lim ng mf Clen t0 Start Room _ _ _ _ _ H W1)|]. split; [discriminate|].
  split; [|split].
  - unfold iterate. rewrite (bind_run _ _ _ _ _ (fetch_at hostmark host C FT lim ng mf Clen t0 Start Room _ _ _ _ _ H W1)), (bind_run _ _ _ _ _ T). exact E3.
  - rewrite Et. unfold has_errors. vs. destruct (v_errs t'); [contradiction|reflexivity].
  - split.
    { rewrite <- (hr_frame _ _ _ _ _ H1). assert (frame t3 = frame t') as -> by (rewrite Et; reflexivity). rewrite Fr. assert (v_errs t3 = v_errs t') as -> by (rewrite Et; reflexivity). reflexivity. }
    assert (forall v x, rep t' W' v x -> rep t3 W' v x) as Rm by (intros v x; apply rep_mono; auto; rewrite Et; auto).
    split; [exact (moved_wf _ _ _ _ Wf' (ex_intro _ c (ex_intro _ k (conj Hc (conj Wk (conj Ck Et))))))|].
    exists W', mm'. split.
    + apply (world_same lit t' t3); auto; try (rewrite Et; reflexivity).
      * rewrite Et. eexists. vs. apply znth_zupd_same. exact Rg.
      * rewrite Et. apply (wd_static _ _ _ _ _ D').
    + intros i0 v Gv. rewrite Et. vs. destruct (G' i0 v Gv) as (A & x & B & Cv). split; [exact A|]. exists x. split; [exact B|]. rewrite Et in Rm. auto.
Qed.

Definition F_ex (E : env) (b : Z) (m : mem) (s : stmt) (m' : mem) : Prop :=
  forall pre fr hv fa lp st ip a bb E', scode code ga fa lp E s a bb E' -> 0 <= a <= zlen C ->
  e_scopes E <> [] -> zlen (m_local m) = e_used E -> zlen pre = b -> frel hv (m_local m) fr ->
  at_ (pre ++ fr) m a -> inside fa pre hv (m_local m) st ip -> lp_ok lp E -> crash m'.

Lemma f_enter L id vs m2 ip h fd m3 : at_ (L ++ VFun id :: vs ++ [VInt (zlen vs)]) m2 ip -> mem_words code ip [OP_CALL] ->
  zlen L = h -> h + zlen vs + 3 <= lim -> funs id = Some fd -> zlen (fd_params fd) = zlen vs ->
  F_ex (fun_env fd) (h + 1) (set_locals (map Some vs ++ [None; None]) m2) (fd_body fd) m3 -> crash m3.
Proof.
  intros H Wc Lst Sp Fn Np K. destruct (Table _ _ Fn) as (fn & Fi & Fx & Fa & Fr & Fc).
  pose proof (i_call L m2 id vs fn ip H Fi Fx ltac:(lia) (C_u32 _ Fr) ltac:(lia) Wc) as H4.
  assert (0 <= ip < zlen C) as Ip by (destruct (wcons _ _ _ Wc) as [Wc1 _]; apply znth_some_range in Wc1; exact Wc1).
  assert (u32 ip = ip) as Ui by (apply u32_id, C_u32; lia).
  assert (u32 ip <> INVALID) as Nip by (rewrite Ui; pose proof (C_u32 (zlen C) ltac:(lia)) as Uc; unfold is_u32, INVALID, W32 in *; lia).
  pose proof (frame_start vs ip) as Fs. set (n := zlen vs) in *.
  set (hv' := fun i => if i =? n then VInt n else VInt ip) in *.
  destruct Fc as (bb & E' & Sc & Wr). rewrite Np in Sc, Wr. set (fv := VFun id) in *.
  re H4 ((L ++ [fv]) ++ (vs ++ [VInt n; VInt ip])).
  assert (zlen (map Some vs) = n) as Lm by (unfold n, zlen; rewrite map_length; reflexivity).
  assert (zlen (map Some vs ++ [@None val; None]) = n + 2) as Lml by (rewrite zlen_app; unfold n, zlen; rewrite map_length; reflexivity).
  assert (e_used (fun_env fd) = n + 2) as Lu by (unfold fun_env; cbn [e_used]; lia).
  assert (inside (Some n) (L ++ [fv]) hv' (map Some vs ++ [None; None]) L ip) as Ins.
  { split; [eexists; reflexivity|]. unfold hv'. rewrite Z.eqb_refl. replace (n + 1 =? n) with false by (symmetry; apply Z.eqb_neq; lia).
    split; [reflexivity|]. split; [reflexivity|]. split; [exact Nip|].
    split; (rewrite znth_app_r by lia; rewrite Lm).
    + replace (n - n) with 0 by lia. reflexivity.
    + replace (n + 1 - n) with 1 by lia. reflexivity. }
  apply (K (L ++ [fv]) (vs ++ [VInt n; VInt ip]) hv' (Some n) None L ip (f_first fn) bb E' Sc Fr).
  - discriminate.
  - cbn [set_locals m_local]. lia.
  - rewrite zlen_app, zlen_cons, zlen_nil. lia.
  - exact Fs.
  - exact (at_mem _ _ _ _ _ (set_locals (map Some vs ++ [None; None]) m2) _ H4 eq_refl eq_refl).
  - exact Ins.
  - exact I.
Qed.

Lemma f_call_gen E h m t f args x vs m1 m2 m3 : tk_type t = TK_PAREN_OPEN -> ev funs lim mf E h m f x m1 -> evs funs lim mf E (h + 1) m1 args vs m2 ->
  spare lim (h + zlen vs) ->
  (forall L ip, at_ (L ++ x :: vs ++ [VInt (zlen vs)]) m2 ip -> mem_words code ip [OP_CALL] -> zlen L = h -> h + zlen vs + 3 <= lim -> crash m3) ->
  F_ev E h m (ANode t true f args) m3.
Proof.
  intros T V V2 Sp Enter. pose proof (V_ev _ _ _ _ _ _ V) as IH. pose proof (V_evs _ _ _ _ _ _ V2) as IH2.
  apply F_node; [rewrite T; unfold inner; inlist|nofold|].
  intros pre fr tmp hv ad d0 d1 ws off' O0 O1 Ec W Hh F H.
  apply ecode_node in Ec; [|rewrite T; reflexivity]. destruct Ec as (w0 & o0 & w1 & o1 & w2 & E0 & E1 & Tl & ->).
  unfold tail_code in Tl. rewrite T in Tl. eqbs Tl. destruct Tl as (-> & ->).
  destruct (wapp _ _ _ W) as [W0 W']. destruct (wapp _ _ _ W') as [W1 W2]. clear W'.
  destruct (IH pre fr tmp hv ad d0 w0 o0 O0 E0 W0 Hh F H) as (-> & fr1 & H1 & F1 & L1).
  pose proof (snoc_len tmp x) as Lt.
  replace (zlen fr + zlen tmp + 1) with (zlen fr1 + zlen (tmp ++ [x])) in E1 by lia.
  destruct (IH2 pre fr1 (tmp ++ [x]) hv _ d1 w1 o1 O1 E1 W1 ltac:(lia) F1 H1) as (-> & Cl & fr2 & H2 & F2 & L2).
  rewrite Cl in *.
  destruct (wapp _ [OP_LIT_INT; u32 (zlen vs)] [OP_CALL] W2) as [Wl Wc]. change (zlen [OP_LIT_INT; u32 (zlen vs)]) with 2 in Wc.
  unfold spare in Sp. pose proof (zlen_nonneg vs) as Nv. pose proof (zlen_nonneg pre) as Np1. pose proof (zlen_nonneg fr) as Np2. pose proof (zlen_nonneg tmp) as Np3.
  pose proof (i_int _ _ _ (zlen vs) H2 ltac:(rewrite !zlen_app; change (zlen [x]) with 1; lia) Wl ltac:(unfold is_s32, W31; lia)) as H3.
  re H3 ((pre ++ fr2 ++ tmp) ++ x :: vs ++ [VInt (zlen vs)]).
  exact (Enter _ _ H3 Wc ltac:(rewrite !zlen_app; lia) ltac:(lia)).
Qed.

(** a->n(args) *)
Lemma f_method_of E h m t ti rooti a n args m' : tk_type t = TK_CALL_SELF -> tk_type ti = TK_INDEX_NOPOP -> F_ev E h m a m' ->
  F_ev E h m (ANode t true (ANode ti rooti a n) args) m'.
Proof.
  intros T Ti (_ & _ & _ & K). apply F_node; [rewrite T; unfold inner; inlist|nofold|].
  intros pre fr tmp hv ad d0 d1 ws off' O0 O1 Ec W Hh F H.
  cbn [expandp] in O0. rewrite Ti, not_incdec in O0 by inlist.
  apply opt_node in O0. destruct O0 as (_ & e0 & e1 & P0 & P1 & [->|(I & _)]); [|rewrite Ti in I; discriminate I].
  apply ecode_node in Ec; [|rewrite T; reflexivity]. destruct Ec as (w0 & o0 & w1 & o1 & w2 & E0 & E1 & Tl & ->).
  apply ecode_node in E0; [|rewrite Ti; reflexivity]. destruct E0 as (wa & oa & wb & ob' & wc & Ea & Eb & Tl' & ->).
  destruct (wapp _ _ _ W) as [W0 _]. destruct (wapp _ _ _ W0) as [Wa _]. eauto.
Qed.

(** Up to the method: its object is [x]. *)
Lemma method_start E h m t ti rooti a tn rootn args x m1 pre fr tmp hv ad d0 d1 ws off' : tk_type t = TK_CALL_SELF ->
  tk_type ti = TK_INDEX_NOPOP -> tk_type tn = TK_STRING -> ev funs lim mf E h m a x m1 -> spare lim (h + 1) ->
  optimize (expandp (ANode ti rooti a (ANode tn rootn ANull ANull)) false) = Ok d0 -> optimize (expandp args false) = Ok d1 ->
  ecode (e_scopes E) (zlen fr + zlen tmp) (ANode t true d0 d1) ws off' -> mem_words code ad ws ->
  zlen pre + zlen fr + zlen tmp = h -> frel hv (m_local m) fr -> at_ (pre ++ fr ++ tmp) m ad ->
  exists fr1 ip w1 o1, zlen fr1 = zlen fr /\ frel hv (m_local m1) fr1 /\ at_ ((pre ++ fr1 ++ tmp) ++ [x; VStr (tk_str tn)]) m1 ip /\
    mem_words code ip [OP_FIELDGET_NOPOP] /\ ecode (e_scopes E) (zlen fr1 + zlen tmp + 2) d1 w1 o1 /\ mem_words code (ip + 1) w1 /\
    mem_words code (ip + 1 + zlen w1) [OP_LIT_INT; u32 (chain_length d1); OP_SELFCALL; OP_CALL].
Proof.
  intros T Ti Tn V Sp1 O0 O1 Ec W Hh F H. apply V_ev in V.
  cbn [expandp] in O0. rewrite Ti, not_incdec in O0 by inlist. rewrite Tn, not_incdec in O0 by inlist.
  apply opt_node in O0. destruct O0 as (_ & e0 & e1 & P0 & P1 & [->|(I & _)]); [|rewrite Ti in I; discriminate I].
  apply opt_node in P1. destruct P1 as (_ & g0 & g1 & Q0 & Q1 & [->|(I & _)]); [|rewrite Tn in I; discriminate I].
  injection Q0 as <-. injection Q1 as <-.
  apply ecode_node in Ec; [|rewrite T; reflexivity]. destruct Ec as (w0 & o0 & w1 & o1 & w2 & E0 & E1 & Tl & ->).
  unfold tail_code in Tl. rewrite T in Tl. eqbs Tl. destruct Tl as (-> & ->).
  apply ecode_node in E0; [|rewrite Ti; reflexivity]. destruct E0 as (wa & oa & wb & ob' & wc & Ea & Eb & Tl & ->).
  unfold tail_code in Tl. rewrite Ti in Tl. eqbs Tl. destruct Tl as (op & P & -> & ->). injection P as <-.
  apply ecode_node in Eb; [|rewrite Tn; reflexivity]. destruct Eb as (wx & ox & wy & oy & wz & (-> & ->) & (-> & ->) & Tl & ->).
  unfold tail_code in Tl. rewrite Tn in Tl. eqbs Tl. destruct Tl as (i & Li & -> & ->). rewrite ?app_nil_l in *.
  destruct (wapp _ _ _ W) as [W0 W']. destruct (wapp _ _ _ W') as [W1 W2]. clear W'.
  destruct (wapp _ _ _ W0) as [Wa W']. destruct (wapp _ _ _ W') as [Ws Wg]. clear W'.
  destruct (V pre fr tmp hv ad e0 wa oa P0 Ea Wa Hh F H) as (-> & fr1 & H1 & F1 & L1).
  unfold spare in *.
  re H1 ((pre ++ fr1 ++ tmp) ++ [x]).
  pose proof (i_string _ _ _ i _ H1 ltac:(rewrite !zlen_app, zlen_cons, zlen_nil; lia) Ws Li) as H1s.
  re H1s ((pre ++ fr1 ++ tmp) ++ [x; VStr (tk_str tn)]).
  change (zlen [OP_LIT_STRING; i]) with 2 in *. change (stack_offset OP_FIELDGET_NOPOP) with 0 in *.
  rewrite !zlen_app in W1, W2. change (zlen [OP_LIT_STRING; i]) with 2 in *. change (zlen [OP_FIELDGET_NOPOP]) with 1 in *.
  exists fr1, (ad + zlen wa + 2), w1, o1. split; [exact L1|]. split; [exact F1|]. split; [exact H1s|]. split; [exact Wg|].
  split; [replace (zlen fr1 + zlen tmp + 2) with (zlen fr + zlen tmp + 1 + 1 + 0) by lia; exact E1|].
  split; [replace (ad + zlen wa + 2 + 1) with (ad + (zlen wa + (2 + 1))) by lia; exact W1|].
  replace (ad + zlen wa + 2 + 1 + zlen w1) with (ad + (zlen wa + (2 + 1)) + zlen w1) by lia. exact W2.
Qed.

Lemma f_method_object E h m t ti rooti a tn rootn args x m1 : tk_type t = TK_CALL_SELF -> tk_type ti = TK_INDEX_NOPOP -> tk_type tn = TK_STRING ->
  ev funs lim mf E h m a x m1 -> spare lim (h + 1) -> is_obj_val x = false ->
  F_ev E h m (ANode t true (ANode ti rooti a (ANode tn rootn ANull ANull)) args) m1.
Proof.
  intros T Ti Tn V Sp1 Nx. apply F_node; [rewrite T; unfold inner; inlist|nofold|].
  intros pre fr tmp hv ad d0 d1 ws off' O0 O1 Ec W Hh F H.
  destruct (method_start _ _ _ _ _ _ _ _ _ _ _ _ _ _ _ _ _ _ _ _ _ T Ti Tn V Sp1 O0 O1 Ec W Hh F H) as (fr1 & ip & w1 & o1 & L1 & F1 & H1 & Wg & _).
  destruct (wcons _ _ _ Wg) as [Wo _].
  apply (one_fault _ _ _ _ H1 Wo); [split; [discriminate|reflexivity]|discriminate|]. intros s Wd mm l _ _ R St.
  destruct (F2_two _ _ _ _ _ R) as (l1 & y & q & -> & Rx & _).
  eapply fault_get; [exact host|exact St|eapply not_obj; eassumption].
Qed.

(** Up to the arguments. *)
Lemma method_found E h m t ti rooti a tn rootn args o l m1 pre fr tmp hv ad d0 d1 ws off' : tk_type t = TK_CALL_SELF ->
  tk_type ti = TK_INDEX_NOPOP -> tk_type tn = TK_STRING -> ev funs lim mf E h m a (VObj o) m1 -> spare lim (h + 1) -> fields o m1 = Some l ->
  optimize (expandp (ANode ti rooti a (ANode tn rootn ANull ANull)) false) = Ok d0 -> optimize (expandp args false) = Ok d1 ->
  ecode (e_scopes E) (zlen fr + zlen tmp) (ANode t true d0 d1) ws off' -> mem_words code ad ws ->
  zlen pre + zlen fr + zlen tmp = h -> frel hv (m_local m) fr -> at_ (pre ++ fr ++ tmp) m ad ->
  exists fr1 ip w1 o1 tmp', tmp' = tmp ++ [VObj o; oget (VStr (tk_str tn)) l] /\ zlen fr1 = zlen fr /\ zlen tmp' = zlen tmp + 2 /\
    frel hv (m_local m1) fr1 /\ at_ (pre ++ fr1 ++ tmp') m1 ip /\
    ecode (e_scopes E) (zlen fr1 + zlen tmp') d1 w1 o1 /\ mem_words code ip w1 /\
    mem_words code (ip + zlen w1) [OP_LIT_INT; u32 (chain_length d1); OP_SELFCALL; OP_CALL].
Proof.
  intros T Ti Tn V Sp1 Fi O0 O1 Ec W Hh F H.
  destruct (method_start _ _ _ _ _ _ _ _ _ _ _ _ _ _ _ _ _ _ _ _ _ T Ti Tn V Sp1 O0 O1 Ec W Hh F H) as (fr1 & ip & w1 & o1 & L1 & F1 & H1 & Wg & E1 & W1 & W2).
  pose proof (i_field_keep _ _ _ o (VStr (tk_str tn)) l H1 Fi I Wg) as H1f.
  set (tmp' := tmp ++ [VObj o; oget (VStr (tk_str tn)) l]).
  assert (zlen tmp' = zlen tmp + 2) as Lt by (unfold tmp'; rewrite zlen_app; reflexivity).
  exists fr1, (ip + 1), w1, o1, tmp'. split; [reflexivity|]. split; [exact L1|]. split; [exact Lt|]. split; [exact F1|].
  split; [unfold tmp'; here H1f; reflexivity|]. split; [rewrite Lt, Z.add_assoc; exact E1|]. auto.
Qed.

Lemma f_method_args E h m t ti rooti a tn rootn args o l m1 m' : tk_type t = TK_CALL_SELF -> tk_type ti = TK_INDEX_NOPOP -> tk_type tn = TK_STRING ->
  ev funs lim mf E h m a (VObj o) m1 -> spare lim (h + 1) -> fields o m1 = Some l -> F_evs E (h + 2) m1 args m' ->
  F_ev E h m (ANode t true (ANode ti rooti a (ANode tn rootn ANull ANull)) args) m'.
Proof.
  intros T Ti Tn V Sp1 Fi K. apply F_node; [rewrite T; unfold inner; inlist|nofold|].
  intros pre fr tmp hv ad d0 d1 ws off' O0 O1 Ec W Hh F H.
  destruct (method_found _ _ _ _ _ _ _ _ _ _ _ _ _ _ _ _ _ _ _ _ _ _ T Ti Tn V Sp1 Fi O0 O1 Ec W Hh F H) as (fr1 & ip & w1 & o1 & tmp' & _ & L1 & Lt & F1 & H1 & E1 & W1 & W2).
  exact (K pre fr1 tmp' hv _ d1 w1 o1 O1 E1 W1 ltac:(lia) F1 H1).
Qed.

Lemma f_method_gen E h m t ti rooti a tn rootn args o l vs m1 m2 m3 : tk_type t = TK_CALL_SELF -> tk_type ti = TK_INDEX_NOPOP -> tk_type tn = TK_STRING ->
  ev funs lim mf E h m a (VObj o) m1 -> spare lim (h + 1) -> fields o m1 = Some l -> evs funs lim mf E (h + 2) m1 args vs m2 -> spare lim (h + 1 + zlen vs) ->
  (forall L ip, at_ (L ++ oget (VStr (tk_str tn)) l :: (VObj o :: vs) ++ [VInt (zlen (VObj o :: vs))]) m2 ip -> mem_words code ip [OP_CALL] -> zlen L = h ->
     h + zlen (VObj o :: vs) + 3 <= lim -> crash m3) ->
  F_ev E h m (ANode t true (ANode ti rooti a (ANode tn rootn ANull ANull)) args) m3.
Proof.
  intros T Ti Tn V Sp1 Fi V2 Sp Enter. apply F_node; [rewrite T; unfold inner; inlist|nofold|].
  intros pre fr tmp hv ad d0 d1 ws off' O0 O1 Ec W Hh F H.
  destruct (method_found _ _ _ _ _ _ _ _ _ _ _ _ _ _ _ _ _ _ _ _ _ _ T Ti Tn V Sp1 Fi O0 O1 Ec W Hh F H) as (fr1 & ip & w1 & o1 & tmp' & Et & L1 & Lt & F1 & H1 & E1 & W1 & W2).
  pose proof (V_evs _ _ _ _ _ _ V2) as IH2.
  destruct (IH2 pre fr1 tmp' hv _ d1 w1 o1 O1 E1 W1 ltac:(lia) F1 H1) as (-> & Cl & fr2 & H2 & F2 & L2). rewrite Cl in W2. subst tmp'.
  set (fv := oget (VStr (tk_str tn)) l) in *.
  destruct (wapp _ [OP_LIT_INT; u32 (zlen vs)] [OP_SELFCALL; OP_CALL] W2) as [Wl Wc']. destruct (wapp _ [OP_SELFCALL] [OP_CALL] Wc') as [Wf Wc]. clear Wc'.
  change (zlen [OP_LIT_INT; u32 (zlen vs)]) with 2 in *. change (zlen [OP_SELFCALL]) with 1 in Wc.
  unfold spare in *. pose proof (zlen_nonneg vs) as Nv. pose proof (zlen_nonneg pre) as Np1. pose proof (zlen_nonneg fr) as Np2. pose proof (zlen_nonneg tmp) as Np3.
  pose proof (i_int _ _ _ (zlen vs) H2 ltac:(rewrite !zlen_app; change (zlen [VObj o; fv]) with 2; lia) Wl ltac:(unfold is_s32, W31; lia)) as H3.
  re H3 ((pre ++ fr2 ++ tmp) ++ VObj o :: fv :: vs ++ [VInt (zlen vs)]).
  pose proof (i_selfcall _ _ _ _ _ _ H3 ltac:(rewrite !zlen_app; lia) Wf) as H4.
  assert (zlen (VObj o :: vs) = zlen vs + 1) as Lv by (rewrite zlen_cons; lia).
  exact (Enter _ _ H4 Wc ltac:(rewrite !zlen_app; lia) ltac:(lia)).
Qed.

(** Arguments. *)
Lemma f_first_arg E h m t a rest m' : tk_type t = TK_PAREN_OPEN \/ tk_type t = TK_CALL_SELF -> F_ev E h m a m' -> F_evs E h m (ANode t false a rest) m'.
Proof.
  intros T K. assert (F_ev E h m (ANode t false a rest) m') as (_ & _ & _ & Q); [|exact Q].
  apply f_left; [unfold inner; destruct T as [-> | ->]; inlist|destruct T as [-> | ->]; discriminate|exact K].
Qed.
Lemma f_rest_args E h m t a rest v m1 m' : tk_type t = TK_PAREN_OPEN \/ tk_type t = TK_CALL_SELF -> ev funs lim mf E h m a v m1 -> F_evs E (h + 1) m1 rest m' ->
  F_evs E h m (ANode t false a rest) m'.
Proof.
  intros T V IH2 pre fr tmp hv ad n' ws off' O Ec W Hh F H. pose proof (V_ev _ _ _ _ _ _ V) as IH.
  cbn [expandp] in O. rewrite not_incdec in O by (destruct T as [-> | ->]; inlist).
  apply opt_node in O. destruct O as (_ & d0 & d1 & O0 & O1 & [->|(I & _)]); [|destruct T as [T|T]; rewrite T in I; discriminate I].
  apply ecode_node in Ec; [|destruct T as [-> | ->]; reflexivity]. destruct Ec as (w0 & o0 & w1 & o1 & w2 & E0 & E1 & Tl & ->).
  destruct (wapp _ _ _ W) as [W0 W']. destruct (wapp _ _ _ W') as [W1 _].
  destruct (IH pre fr tmp hv ad d0 w0 o0 O0 E0 W0 Hh F H) as (-> & fr1 & H1 & F1 & L1).
  pose proof (snoc_len tmp v) as Lt.
  replace (zlen fr + zlen tmp + 1) with (zlen fr1 + zlen (tmp ++ [v])) in E1 by lia.
  exact (IH2 pre fr1 (tmp ++ [v]) hv _ d1 w1 o1 O1 E1 W1 ltac:(lia) F1 H1).
Qed.

(** ** Statements *)

Definition F_exs (E : env) (b : Z) (m : mem) (l : stmts) (m' : mem) : Prop :=
  forall pre fr hv fa lp st ip a bb E', sscode code ga fa lp E l a bb E' -> 0 <= a <= zlen C ->
  e_scopes E <> [] -> zlen (m_local m) = e_used E -> zlen pre = b -> frel hv (m_local m) fr ->
  at_ (pre ++ fr) m a -> inside fa pre hv (m_local m) st ip -> lp_ok lp E -> crash m'.

Definition F_loops (E : env) (b : Z) (m : mem) (e : expr) (s : stmt) (i : option expr) (m' : mem) : Prop :=
  forall pre fr hv fa T u st ip a x, lcode fa (T, u) E e s i a x -> 0 <= a <= zlen C -> is_u32 x ->
  e_scopes E <> [] -> zlen (m_local m) = e_used E -> zlen pre = b -> frel hv (m_local m) fr ->
  at_ (pre ++ fr) m a -> inside fa pre hv (m_local m) st ip -> lp_ok (Some (T, u)) E -> crash m'.

Lemma f_p E b m e m' pre fr hv d a b1 u : F_ev E (b + zlen (m_local m)) m (tree e) m' -> pcode code d E e a b1 u ->
  zlen (m_local m) = e_used E -> zlen pre = b -> frel hv (m_local m) fr -> at_ (pre ++ fr) m a -> crash m'.
Proof.
  intros (_ & _ & Ed & K) (n & ws & O & Ec & W & ->) L Lp F H. pose proof F as [Lf _].
  assert (zlen fr + zlen (@nil val) = e_used E) as Z by (change (zlen (@nil val)) with 0; lia).
  rewrite <- Z in Ec. destruct d; [apply (Ed pre fr [] hv a n ws u O Ec W)|apply (K pre fr [] hv a n ws u O Ec W)].
  1, 4: change (zlen (@nil val)) with 0; lia.
  1, 3: exact F.
  all: rewrite app_nil_r; exact H.
Qed.
Lemma f_x E b m e m' pre fr hv d a b1 u : ready_for funs lim (b + zlen (m_local m)) e -> F_ev E (b + zlen (m_local m)) m (tree e) m' -> xcode code ga d E e a b1 u ->
  zlen (m_local m) = e_used E -> zlen pre = b -> frel hv (m_local m) fr -> at_ (pre ++ fr) m a -> crash m'.
Proof.
  intros [Sp Us] K (N & a1 & S & P) L Lp F H. pose proof F as [Lf _]. unfold spare in Sp.
  pose proof (sim_skips _ _ _ S (pre ++ fr) m Us ltac:(rewrite zlen_app; lia) H) as H1. exact (f_p _ _ _ _ _ _ _ _ _ _ _ _ K P L Lp F H1).
Qed.

(** Conditions that are functions. *)
Lemma f_unknown E b m e v m1 pre fr hv a b1 u x : ev funs lim mf E (b + zlen (m_local m)) m (tree e) v m1 -> spare lim (b + zlen (m_local m)) -> is_fun_val v = true ->
  xcode code ga false E e a b1 u -> zlen (m_local m) = e_used E -> zlen pre = b -> frel hv (m_local m) fr -> at_ (pre ++ fr) m a ->
  mem_words code b1 (jump_words OP_JZ b1 x) -> crash m1.
Proof.
  intros V Sp Nv X L Lp F H W. unfold spare in Sp. pose proof (ev_kept _ _ _ _ _ _ _ _ _ V) as [Kl _].
  destruct (sim_x _ _ _ _ _ _ _ _ _ _ _ _ V (V_ev _ _ _ _ _ _ V) X L Lp F H) as (Eu & fr1 & H1 & F1). pose proof F1 as [L1 _].
  unfold jump_words in W. destruct (wapp b1 [OP_LIT_INT; u32 (x - b1 - 3)] [OP_JZ] W) as [Wa Wb].
  assert (zlen (pre ++ fr1) + 2 <= lim) as B by (rewrite zlen_app; lia).
  pose proof (i_word _ _ _ _ H1 ltac:(rewrite snoc_len; lia) Wa) as H2. destruct (wcons _ _ _ Wb) as [W1 _]. change (zlen [OP_LIT_INT; u32 (x - b1 - 3)]) with 2 in W1.
  rewrite <- app_assoc in H2. cbn [app] in H2.
  apply (one_fault _ _ _ _ H2 W1); [split; [discriminate|reflexivity]|discriminate|]. intros s Wd mm l _ _ R St.
  destruct (F2_two _ _ _ _ _ R) as (l1 & p & q & -> & Rx & Ry). eapply fault_jz; [exact St|exact Rx|exact Nv|eapply rep_int; [exact Ry|reflexivity]].
Qed.

Lemma f_loop_body E b m e s i v z m1 m' : ev funs lim mf E (b + zlen (m_local m)) m (tree e) v m1 -> spare lim (b + zlen (m_local m)) ->
  number_of v = Some z -> z <> 0 -> F_ex (enter_scope E) b m1 s m' -> F_loops E b m e s i m'.
Proof.
  intros V Sp N Nz K pre fr hv fa T u st ip a x (b1 & ue & b1' & b2 & E1 & b3 & Xc & J & Sk & Us & Sc & Pw & Eb & Ji) R Ux Ne L Lp F H In Lo.
  pose proof (ev_kept _ _ _ _ _ _ _ _ _ V) as Kp. pose proof (xcode_range _ _ _ _ _ _ _ _ Xc R) as Rb1. pose proof (words_range _ _ _ J Rb1) as Rb2. change (zlen (jump_words OP_JZ b1 x)) with 3 in Rb2.
  pose proof (skips_range _ _ _ _ _ Sk Rb2) as Rb2'.
  destruct (sim_test _ _ _ _ _ _ _ _ _ _ _ _ _ _ V (V_ev _ _ _ _ _ _ V) Xc L Lp F H Sp N J Ux Kp) as (Eu & fr1 & H1 & F1).
  rewrite (used_at_same E (ue - 1) Eu) in Sc. replace (z =? 0) with false in H1 by (symmetry; apply Z.eqb_neq; exact Nz).
  pose proof F1 as [L1 _]. unfold spare in Sp. pose proof Kp as [Kl Kh].
  apply (sim_skips _ _ _ Sk (pre ++ fr1) m1 Us ltac:(rewrite zlen_app; lia)) in H1.
  apply (K pre fr1 hv fa (Some (T, u)) st ip _ _ _ Sc Rb2' (enter_ne E)); [cbn; lia|exact Lp|exact F1|exact H1| |exact Lo].
  exact (kept_inside fa pre hv m m1 st ip In Kp).
Qed.

Lemma f_loop_again E b m e s v z m1 m2 m3 : ev funs lim mf E (b + zlen (m_local m)) m (tree e) v m1 -> spare lim (b + zlen (m_local m)) ->
  number_of v = Some z -> z <> 0 -> ex funs lim mf (enter_scope E) b m1 s Next m2 ->
  F_loops E b (keep (e_used E) m2) e s None m3 -> F_loops E b m e s None m3.
Proof.
  intros V Sp N Nz X IHl pre fr hv fa T u st ip a x Lc R Ux Ne L Lp F H In Lo.
  destruct (sim_body _ _ _ _ _ None _ _ _ _ _ _ _ _ _ _ _ _ _ _ _ V (V_ev _ _ _ _ _ _ V) Sp N Nz X (V_ex _ _ _ _ _ _ X) Lc R Ux Ne L Lp F H In Lo) as (b3 & (fr1 & H1 & F1) & Rb & J).
  cbn [leave] in *. pose proof (ev_kept _ _ _ _ _ _ _ _ _ V) as Kp. pose proof Kp as [Kl Kh].
  destruct (ex_grows _ _ _ _ _ _ _ _ _ X (enter_ne E) ltac:(cbn; lia)) as [Gr _]. change (grows E m1 m2) in Gr.
  pose proof (zlen_nonneg (m_local m)). destruct (grows_keep funs mf _ _ _ Gr ltac:(lia)) as [Gr2 Z2]. unfold spare in Sp. pose proof F1 as [L1 _].
  pose proof (i_goto _ _ b3 a H1 ltac:(rewrite zlen_app; lia) J (C_u32 _ R)) as H2.
  apply (IHl pre fr1 hv fa T u st ip a x Lc R Ux Ne Z2 Lp F1 H2); [|exact Lo].
  apply (grows_inside E fa pre hv m1 (keep (e_used E) m2) st ip); [exact (kept_inside fa pre hv m m1 st ip In Kp)|lia|exact Gr2].
Qed.

Lemma f_loop_step E b m e s i v z m1 m2 m' : ev funs lim mf E (b + zlen (m_local m)) m (tree e) v m1 -> spare lim (b + zlen (m_local m)) ->
  number_of v = Some z -> z <> 0 -> ex funs lim mf (enter_scope E) b m1 s Next m2 ->
  F_ev E (b + zlen (m_local m)) (keep (e_used E) m2) (tree i) m' -> F_loops E b m e s (Some i) m'.
Proof.
  intros V Sp N Nz X K pre fr hv fa T u st ip a y Lc R Ux Ne L Lp F H In Lo.
  destruct (sim_body _ _ _ _ _ (Some i) _ _ _ _ _ _ _ _ _ _ _ _ _ _ _ V (V_ev _ _ _ _ _ _ V) Sp N Nz X (V_ex _ _ _ _ _ _ X) Lc R Ux Ne L Lp F H In Lo) as (b3 & (fr1 & H1 & F1) & Rb & (b5 & u2 & Xi & J)).
  cbn [leave] in *. pose proof (ev_kept _ _ _ _ _ _ _ _ _ V) as Kp. pose proof Kp as [Kl Kh].
  destruct (ex_grows _ _ _ _ _ _ _ _ _ X (enter_ne E) ltac:(cbn; lia)) as [Gr _]. change (grows E m1 m2) in Gr.
  pose proof (zlen_nonneg (m_local m)). destruct (grows_keep funs mf _ _ _ Gr ltac:(lia)) as [Gr2 Z2].
  replace (b + zlen (m_local m)) with (b + zlen (m_local (keep (e_used E) m2))) in K by lia.
  exact (f_p _ _ _ _ _ _ _ _ _ _ _ _ K Xi Z2 Lp F1 H1).
Qed.

Lemma f_loop_next E b m e s i v z m1 m2 x m3 m' : ev funs lim mf E (b + zlen (m_local m)) m (tree e) v m1 -> spare lim (b + zlen (m_local m)) ->
  number_of v = Some z -> z <> 0 -> ex funs lim mf (enter_scope E) b m1 s Next m2 ->
  ev funs lim mf E (b + zlen (m_local m)) (keep (e_used E) m2) (tree i) x m3 ->
  F_loops E b m3 e s (Some i) m' -> F_loops E b m e s (Some i) m'.
Proof.
  intros V Sp N Nz X V2 IHl pre fr hv fa T u st ip a y Lc R Ux Ne L Lp F H In Lo.
  destruct (sim_body _ _ _ _ _ (Some i) _ _ _ _ _ _ _ _ _ _ _ _ _ _ _ V (V_ev _ _ _ _ _ _ V) Sp N Nz X (V_ex _ _ _ _ _ _ X) Lc R Ux Ne L Lp F H In Lo) as (b3 & (fr1 & H1 & F1) & Rb & (b5 & u2 & Xi & J)).
  cbn [leave] in *. pose proof (ev_kept _ _ _ _ _ _ _ _ _ V) as Kp. pose proof Kp as [Kl Kh].
  destruct (ex_grows _ _ _ _ _ _ _ _ _ X (enter_ne E) ltac:(cbn; lia)) as [Gr _]. change (grows E m1 m2) in Gr.
  pose proof (zlen_nonneg (m_local m)). destruct (grows_keep funs mf _ _ _ Gr ltac:(lia)) as [Gr2 Z2]. unfold spare in Sp. pose proof F1 as [L1 _].
  pose proof (ev_kept _ _ _ _ _ _ _ _ _ V2) as Kp2. pose proof Kp2 as [Kl2 _].
  destruct (wapp _ [OP_POP] (jump_words OP_JUMP (b5 + 1) a) J) as [Jp Jj]. change (zlen [OP_POP]) with 1 in Jj.
  replace (b + zlen (m_local m)) with (b + zlen (m_local (keep (e_used E) m2))) in V2 by lia.
  pose proof (proj1 (simulation_all hostmark host C FT lim ng mf Clen Llim Lmf t0 Start Room funs Table Native) _ _ _ _ _ _ V2) as IH2.
  destruct (sim_drop_p E b (keep (e_used E) m2) i x m3 pre fr1 hv b3 b5 u2 V2 IH2 Xi Z2 Lp F1 H1 Jp) as (_ & fr2 & H2 & F2).
  pose proof F2 as [L2 _].
  pose proof (i_goto _ _ (b5 + 1) a H2 ltac:(rewrite zlen_app; lia) Jj (C_u32 _ R)) as H3.
  apply (IHl pre fr2 hv fa T u st ip a y Lc R Ux Ne ltac:(lia) Lp F2 H3); [|exact Lo].
  eapply kept_inside; [|exact Kp2]. apply (grows_inside E fa pre hv m1 (keep (e_used E) m2) st ip); [exact (kept_inside fa pre hv m m1 st ip In Kp)|lia|exact Gr2].
Qed.

(** ** All together *)

Theorem faults :
  (forall E h m n m', ef funs lim mf E h m n m' -> F_ev E h m n m') /\
  (forall E h m n m', efs funs lim mf E h m n m' -> F_evs E h m n m') /\
  (forall E b m s m', xf funs lim mf E b m s m' -> F_ex E b m s m') /\
  (forall E b m l m', xfs funs lim mf E b m l m' -> F_exs E b m l m') /\
  (forall E b m e s i m', lf funs lim mf E b m e s i m' -> F_loops E b m e s i m').
Proof.
  Local Ltac two := first [apply two_inner; assumption|match goal with I : In _ two_parts |- _ => apply two_not_assign in I; apply Z.eqb_neq; exact I end].
  apply fault_ind; intros.
  - eapply f_left; [two|two|eassumption].
  - eapply f_right; [two|two|eassumption|eassumption].
  - eapply f_unary; eassumption.
  - eapply f_binary; eassumption.
  - eapply f_assign; eassumption.
  - eapply f_field; eassumption.
  - eapply f_count; eassumption.
  - eapply f_count_object; eassumption.
  - eapply f_count_field; eassumption.
  - eapply f_len_of; eassumption.
  - eapply f_len; eassumption.
  - eapply f_set_value; eassumption.
  - eapply f_set_object; eassumption.
  - eapply f_set_key; eassumption.
  - eapply f_set; eassumption.
  - eapply f_left; [rewrite e; unfold inner; inlist|rewrite e; discriminate|assumption].
  - eapply f_args; eassumption.
  - eapply f_call_gen; try eassumption. intros L ip H Wc Lh B. eapply f_bad_call; eassumption.
  - eapply f_call_gen; try eassumption. intros L ip Hr Wc Lh B. exact (f_enter _ _ _ _ _ h fd m' Hr Wc Lh B ltac:(assumption) ltac:(assumption) H).
  - eapply f_call_gen; try eassumption. intros L ip Hr Wc Lh B. eapply f_native; eassumption.
  - eapply f_method_of; eassumption.
  - eapply f_method_object; eassumption.
  - eapply f_method_args; eassumption.
  - eapply f_method_gen; try eassumption. intros L ip Hr Wc Lh B. eapply f_bad_call; eassumption.
  - eapply f_method_gen; try eassumption. intros L ip Hr Wc Lh B.
    lazymatch goal with Q : oget _ _ = VFun _ |- _ => rewrite Q in Hr end.
    exact (f_enter _ id (VObj o :: vs) _ _ h fd m' Hr Wc Lh B ltac:(assumption) ltac:(rewrite zlen_cons; lia) H).
  - eapply f_method_gen; try eassumption. intros L ip Hr Wc Lh B.
    lazymatch goal with Q : oget _ _ = VFun _ |- _ => rewrite Q in Hr end. exact (f_native _ _ _ (VObj o :: vs) _ _ Hr Wc ltac:(eassumption)).
  - eapply f_first_arg; eassumption.
  - eapply f_rest_args; eassumption.
  - (* e; *)
    intros pre fr hv fa lp st ip a bb E' Sc R Ne L Lp F Hr In Lo. inversion Sc; subst. eapply f_x; eauto.
  - (* var n = e; *)
    intros pre fr hv fa lp st ip a bb E' Sc R Ne L Lp F Hr In Lo. inversion Sc; subst. eapply f_x; eauto.
  - (* return e; *)
    intros pre fr hv fa lp st ip a bb E' Sc R Ne L Lp F Hr In Lo. inversion Sc; subst. eapply f_x; eauto.
  - (* block *)
    intros pre fr hv fa lp st ip a bb E' Sc R Ne L Lp F Hr In Lo. inversion Sc; subst.
    lazymatch goal with X : sscode _ _ _ _ _ _ _ _ _ |- _ => exact (H pre fr hv fa lp st ip _ _ _ X R (enter_ne _) L eq_refl F Hr In Lo) end.
  - (* if *)
    intros pre fr hv fa lp st ip a bb E' Sc R Ne L Lp F Hr In Lo. inversion Sc; subst. eapply f_x; eauto.
  - intros pre fr hv fa lp st ip a bb E' Sc R Ne L Lp F Hr In Lo. inversion Sc; subst. pose proof (ev_kept _ _ _ _ _ _ _ _ _ e0) as Kp.
    lazymatch goal with X : xcode _ _ _ _ _ _ _ _, J : mem_words _ _ (jump_words _ _ _), Q : scode _ _ _ _ _ _ _ _ _, P : mem_words _ _ (pop_words _) |- _ =>
      pose proof (xcode_range _ _ _ _ _ _ _ _ X R) as Rb1; pose proof (words_range _ _ _ J Rb1) as Rb2; change (0 <= b1 + 3 <= zlen C) in Rb2;
      pose proof (proj1 (code_range C ga) _ _ _ _ _ _ _ Q Rb2) as Rb3; pose proof (words_range _ _ _ P Rb3) as Rb4;
      destruct (sim_test _ _ _ _ _ _ _ _ _ _ _ _ _ _ e0 (V_ev _ _ _ _ _ _ e0) X L eq_refl F Hr ltac:(eassumption) ltac:(eassumption) J (C_u32 _ Rb4) Kp) as (Eu & fr1 & H1' & F1);
      rewrite (used_at_same E _ Eu) in Q; replace (z =? 0) with false in H1' by (symmetry; apply Z.eqb_neq; assumption);
      apply (H pre fr1 hv fa lp st ip _ _ _ Q Rb2 (enter_ne _) ltac:(destruct Kp; cbn; lia) eq_refl F1 H1' (kept_inside _ _ _ _ _ _ _ In Kp) Lo) end.
  - intros pre fr hv fa lp st ip a bb E' Sc R Ne L Lp F Hr In Lo. inversion Sc; subst. eapply f_unknown; eauto.
  - (* if with else *)
    intros pre fr hv fa lp st ip a bb E' Sc R Ne L Lp F Hr In Lo. inversion Sc; subst. eapply f_x; eauto.
  - intros pre fr hv fa lp st ip a bb E' Sc R Ne L Lp F Hr In Lo. inversion Sc; subst. pose proof (ev_kept _ _ _ _ _ _ _ _ _ e0) as Kp.
    lazymatch goal with X : xcode _ _ _ _ _ _ _ _, J : mem_words _ _ (jump_words OP_JZ _ _), Q : scode _ _ _ _ _ s _ _ _, P : mem_words _ _ (pop_words (locals_of E1)),
        J2 : mem_words _ _ (jump_words OP_JUMP _ _) |- _ =>
      pose proof (xcode_range _ _ _ _ _ _ _ _ X R) as Rb1; pose proof (words_range _ _ _ J Rb1) as Rb2; change (0 <= b1 + 3 <= zlen C) in Rb2;
      pose proof (proj1 (code_range C ga) _ _ _ _ _ _ _ Q Rb2) as Rb3; pose proof (words_range _ _ _ P Rb3) as Rb4;
      pose proof (words_range _ _ _ J2 Rb4) as Rb5; change (0 <= b2 + zlen (pop_words (locals_of E1)) + 3 <= zlen C) in Rb5;
      destruct (sim_test _ _ _ _ _ _ _ _ _ _ _ _ _ _ e0 (V_ev _ _ _ _ _ _ e0) X L eq_refl F Hr ltac:(eassumption) ltac:(eassumption) J (C_u32 _ Rb5) Kp) as (Eu & fr1 & H1' & F1);
      rewrite (used_at_same E _ Eu) in Q; replace (z =? 0) with false in H1' by (symmetry; apply Z.eqb_neq; assumption);
      apply (H pre fr1 hv fa lp st ip _ _ _ Q Rb2 (enter_ne _) ltac:(destruct Kp; cbn; lia) eq_refl F1 H1' (kept_inside _ _ _ _ _ _ _ In Kp) Lo) end.
  - intros pre fr hv fa lp st ip a bb E' Sc R Ne L Lp F Hr In Lo. inversion Sc; subst. pose proof (ev_kept _ _ _ _ _ _ _ _ _ e0) as Kp.
    lazymatch goal with X : xcode _ _ _ _ _ _ _ _, J : mem_words _ _ (jump_words OP_JZ _ _), Q : scode _ _ _ _ _ s _ _ _, P : mem_words _ _ (pop_words (locals_of E1)),
        J2 : mem_words _ _ (jump_words OP_JUMP _ _), Q2 : scode _ _ _ _ _ s2 _ _ _ |- _ =>
      pose proof (xcode_range _ _ _ _ _ _ _ _ X R) as Rb1; pose proof (words_range _ _ _ J Rb1) as Rb2; change (0 <= b1 + 3 <= zlen C) in Rb2;
      pose proof (proj1 (code_range C ga) _ _ _ _ _ _ _ Q Rb2) as Rb3; pose proof (words_range _ _ _ P Rb3) as Rb4;
      pose proof (words_range _ _ _ J2 Rb4) as Rb5; change (0 <= b2 + zlen (pop_words (locals_of E1)) + 3 <= zlen C) in Rb5;
      destruct (sim_test _ _ _ _ _ _ _ _ _ _ _ _ _ _ e0 (V_ev _ _ _ _ _ _ e0) X L eq_refl F Hr ltac:(eassumption) ltac:(eassumption) J (C_u32 _ Rb5) Kp) as (Eu & fr1 & H1' & F1);
      rewrite (used_at_same E _ Eu) in Q2; cbn [Z.eqb] in H1';
      apply (H pre fr1 hv fa lp st ip _ _ _ Q2 Rb5 (enter_ne _) ltac:(destruct Kp; cbn; lia) eq_refl F1 H1' (kept_inside _ _ _ _ _ _ _ In Kp) Lo) end.
  - intros pre fr hv fa lp st ip a bb E' Sc R Ne L Lp F Hr In Lo. inversion Sc; subst. eapply f_unknown; eauto.
  - (* while *)
    intros pre fr hv fa lp st ip a bb E' Sc R Ne L Lp F Hr In Lo. inversion Sc; subst. pose proof (zlen_nonneg (m_local m)).
    lazymatch goal with X : xcode _ _ _ _ _ _ _ _, J : mem_words _ _ (jump_words OP_JZ _ _), Q : scode _ _ _ _ _ s _ _ _, P : mem_words _ _ (pop_words (locals_of E1)),
        J2 : mem_words _ _ (jump_words OP_JUMP _ _) |- _ =>
      pose proof (xcode_range _ _ _ _ _ _ _ _ X R) as Rb1; pose proof (words_range _ _ _ J Rb1) as Rb2; change (0 <= b1 + 3 <= zlen C) in Rb2;
      pose proof (proj1 (code_range C ga) _ _ _ _ _ _ _ Q Rb2) as Rb3; pose proof (words_range _ _ _ P Rb3) as Rb4;
      pose proof (words_range _ _ _ J2 Rb4) as Rb5; change (0 <= b2 + zlen (pop_words (locals_of E1)) + 3 <= zlen C) in Rb5;
      pose proof (H pre fr hv fa (b2 + zlen (pop_words (locals_of E1)) + 3) (e_used E') st ip a (b2 + zlen (pop_words (locals_of E1)) + 3)) as K end.
    lazymatch type of K with ?A -> _ => assert A as Q0 by (do 6 eexists; do 2 (split; [eassumption|]); split; [apply sk_nil|]; split; [intros ? ? []|]; do 2 (split; [eassumption|]); split; [reflexivity|]; assumption) end.
    lazymatch type of K with _ -> _ -> _ -> _ -> _ -> _ -> _ -> _ -> _ -> ?A -> _ => assert A as Q1 by (split; [exact (C_u32 _ Rb5)|cbn; lia]) end.
    exact (K Q0 R (C_u32 _ Rb5) (enter_ne _) L eq_refl F Hr In Q1).
  - (* do *)
    intros pre fr hv fa lp st ip a bb E' Sc R Ne L Lp F Hr In Lo. inversion Sc; subst. pose proof (zlen_nonneg (m_local m)).
    lazymatch goal with X : xcode _ _ _ _ _ _ _ _, Q : scode _ _ _ _ _ s _ _ _, P : mem_words _ _ (pop_words (locals_of E1)), J : mem_words _ _ (OP_NOT :: _) |- _ =>
      pose proof (proj1 (code_range C ga) _ _ _ _ _ _ _ Q R) as Rb3; pose proof (words_range _ _ _ P Rb3) as Rb4;
      pose proof (xcode_range _ _ _ _ _ _ _ _ X Rb4) as Rb1; pose proof (words_range _ _ _ J Rb1) as Rb2; change (0 <= b3 + 4 <= zlen C) in Rb2;
      apply (H pre fr hv fa _ st ip a _ _ Q R (enter_ne _) L eq_refl F Hr In) end.
    split; [apply C_u32; assumption|]. cbn. lia.
  - intros pre fr hv fa lp st ip a bb E' Sc R Ne L Lp F Hr In Lo. inversion Sc; subst. pose proof (zlen_nonneg (m_local m)).
    lazymatch goal with X : xcode _ _ _ _ _ _ _ _, Q : scode _ _ _ _ _ s _ _ _, P : mem_words _ _ (pop_words (locals_of E1)), J : mem_words _ _ (OP_NOT :: _), X0 : ex _ _ _ _ _ _ s _ _ |- _ =>
      pose proof (proj1 (code_range C ga) _ _ _ _ _ _ _ Q R) as Rb3; pose proof (words_range _ _ _ P Rb3) as Rb4;
      pose proof (xcode_range _ _ _ _ _ _ _ _ X Rb4) as Rb1; pose proof (words_range _ _ _ J Rb1) as Rb2; change (0 <= b3 + 4 <= zlen C) in Rb2;
      destruct (sim_scoped (enter_loop E') _ m s Next m1 pre fr hv fa (Some (b3 + 4, e_used E')) st ip a _ _ X0 (V_ex _ _ _ _ _ _ X0) Q P R L eq_refl F Hr In) as (fr1 & H1' & F1);
      [split; [apply C_u32; assumption|cbn; lia]|];
      cbn [leave] in *; change (e_used (enter_loop E')) with (e_used E') in *;
      destruct (ex_grows _ _ _ _ _ _ _ _ _ X0 (enter_ne _) L) as [Gr _]; change (grows E' m m1) in Gr; destruct (grows_keep funs mf _ _ _ Gr ltac:(lia)) as [Gr2 Z2];
      assert (zlen pre + zlen (m_local m) = zlen pre + zlen (m_local (keep (e_used E') m1))) as Eb by lia;
      lazymatch goal with Rf : ready_for _ _ _ _ |- _ => rewrite Eb in H, Rf; exact (f_x (enter_loop E') _ _ _ _ _ _ _ _ _ _ _ Rf H X Z2 eq_refl F1 H1') end end.
  - intros pre fr hv fa lp st ip a bb E' Sc R Ne L Lp F Hr In Lo. inversion Sc; subst. pose proof (zlen_nonneg (m_local m)).
    lazymatch goal with X : xcode _ _ _ _ _ _ _ _, Q : scode _ _ _ _ _ s _ _ _, P : mem_words _ _ (pop_words (locals_of E1)), J : mem_words _ _ (OP_NOT :: _), X0 : ex _ _ _ _ _ _ s _ _, V : ev _ _ _ _ _ _ _ _ _ |- _ =>
      pose proof (proj1 (code_range C ga) _ _ _ _ _ _ _ Q R) as Rb3; pose proof (words_range _ _ _ P Rb3) as Rb4;
      pose proof (xcode_range _ _ _ _ _ _ _ _ X Rb4) as Rb1; pose proof (words_range _ _ _ J Rb1) as Rb2; change (0 <= b3 + 4 <= zlen C) in Rb2;
      destruct (sim_scoped (enter_loop E') _ m s Next m1 pre fr hv fa (Some (b3 + 4, e_used E')) st ip a _ _ X0 (V_ex _ _ _ _ _ _ X0) Q P R L eq_refl F Hr In) as (fr1 & H1' & F1);
      [split; [apply C_u32; assumption|cbn; lia]|];
      cbn [leave] in *; change (e_used (enter_loop E')) with (e_used E') in *;
      destruct (ex_grows _ _ _ _ _ _ _ _ _ X0 (enter_ne _) L) as [Gr _]; change (grows E' m m1) in Gr; destruct (grows_keep funs mf _ _ _ Gr ltac:(lia)) as [Gr2 Z2];
      replace (zlen pre + zlen (m_local m)) with (zlen pre + zlen (m_local (keep (e_used E') m1))) in V by lia;
      destruct (sim_x (enter_loop E') _ _ _ _ _ _ _ _ _ _ _ V (V_ev _ _ _ _ _ _ V) X Z2 eq_refl F1 H1') as (Eu & fr2 & H2' & F2);
      destruct (wcons _ _ _ J) as [Wo _] end.
    apply (one_fault _ _ _ _ H2' Wo); [split; [discriminate|reflexivity]|discriminate|]. intros t Wd mm l _ _ Rl St.
    destruct (F2_one _ _ _ _ Rl) as (l1 & y & -> & Rx). eapply fault_not; eassumption.
  - intros pre fr hv fa lp st ip a bb E' Sc R Ne L Lp F Hr In Lo. pose proof Sc as Sc0. inversion Sc; subst. pose proof (zlen_nonneg (m_local m)).
    lazymatch goal with X : xcode _ _ _ _ _ _ _ _, Q : scode _ _ _ _ _ s _ _ _, P : mem_words _ _ (pop_words (locals_of E1)), J : mem_words _ _ (OP_NOT :: _), X0 : ex _ _ _ _ _ _ s _ _, V : ev _ _ _ _ _ _ _ _ _, N : number_of _ = _ |- _ =>
      pose proof (proj1 (code_range C ga) _ _ _ _ _ _ _ Q R) as Rb3; pose proof (words_range _ _ _ P Rb3) as Rb4;
      pose proof (xcode_range _ _ _ _ _ _ _ _ X Rb4) as Rb1; pose proof (words_range _ _ _ J Rb1) as Rb2; change (0 <= b3 + 4 <= zlen C) in Rb2;
      destruct (sim_scoped (enter_loop E') _ m s Next m1 pre fr hv fa (Some (b3 + 4, e_used E')) st ip a _ _ X0 (V_ex _ _ _ _ _ _ X0) Q P R L eq_refl F Hr In) as (fr1 & H1' & F1);
      [split; [apply C_u32; assumption|cbn; lia]|];
      cbn [leave] in *; change (e_used (enter_loop E')) with (e_used E') in *;
      destruct (ex_grows _ _ _ _ _ _ _ _ _ X0 (enter_ne _) L) as [Gr _]; change (grows E' m m1) in Gr; destruct (grows_keep funs mf _ _ _ Gr ltac:(lia)) as [Gr2 Z2];
      replace (zlen pre + zlen (m_local m)) with (zlen pre + zlen (m_local (keep (e_used E') m1))) in V by lia;
      destruct (sim_x (enter_loop E') _ _ _ _ _ _ _ _ _ _ _ V (V_ev _ _ _ _ _ _ V) X Z2 eq_refl F1 H1') as (Eu & fr2 & H2' & F2);
      destruct (wapp _ [OP_NOT] (jump_words OP_JZ (b3 + 1) a) J) as [Jn Jj]; change (zlen [OP_NOT]) with 1 in Jj;
      pose proof (ev_kept _ _ _ _ _ _ _ _ _ V) as Kp; pose proof (uo_not _ _ N) as Uo end.
    pose proof Kp as [Kl _]. pose proof F2 as [L2 _]. unfold spare in *.
    replace (z =? 0) with false in Uo by (symmetry; apply Z.eqb_neq; assumption).
    pose proof (i_un _ _ _ v (yes false) TK_NOT OP_NOT H2' Uo eq_refl Jn) as H3'.
    pose proof (i_branch _ _ _ a (yes false) 0 H3' eq_refl ltac:(rewrite zlen_app; lia) Jj (C_u32 _ R)) as H4'. cbn [Z.eqb] in H4'.
    apply (H pre fr2 hv fa lp st ip a _ _ Sc0 R Ne ltac:(lia) eq_refl F2 H4'); [|exact Lo].
    eapply kept_inside; [|exact Kp]. eapply grows_inside; [exact In|exact L|exact Gr2].
  - (* for *)
    intros pre fr hv fa lp st ip a bb E' Sc R Ne L Lp F Hr In Lo. inversion Sc; subst. pose proof (zlen_nonneg (m_local m)).
    lazymatch goal with Q0 : scode _ _ _ _ _ s0 _ _ _, X : xcode _ _ false _ _ _ _ _, J : mem_words _ _ (jump_words OP_JZ _ _), Q : scode _ _ _ _ _ s _ _ _, P : mem_words _ _ (pop_words (locals_of E2)),
        Sk : skips _ _ _ _ _, X2 : pcode _ true _ _ _ _ _, J2 : mem_words _ _ (OP_POP :: _), P2 : mem_words _ _ (pop_words (locals_of E1)) |- _ =>
      pose proof (proj1 (code_range C ga) _ _ _ _ _ _ _ Q0 R) as Rb0; pose proof (xcode_range _ _ _ _ _ _ _ _ X Rb0) as Rb1;
      pose proof (words_range _ _ _ J Rb1) as Rb2; change (0 <= b2 + 3 <= zlen C) in Rb2; pose proof (skips_range _ _ _ _ _ Sk Rb2) as Rb2';
      pose proof (proj1 (code_range C ga) _ _ _ _ _ _ _ Q Rb2') as Rb3; pose proof (words_range _ _ _ P Rb3) as Rb4;
      pose proof (pcode_range _ _ _ _ _ _ _ X2 Rb4) as Rb5; pose proof (words_range _ _ _ J2 Rb5) as Rb6; change (0 <= b5 + 4 <= zlen C) in Rb6;
      pose proof (words_range _ _ _ P2 Rb6) as Rb7;
      apply (H pre fr hv fa _ st ip a _ _ Q0 R (enter_ne _) L eq_refl F Hr In) end.
    split; [apply C_u32; assumption|cbn; lia].
  - intros pre fr hv fa lp st ip a bb E' Sc R Ne L Lp F Hr In Lo. inversion Sc; subst. pose proof (zlen_nonneg (m_local m)).
    lazymatch goal with Q0 : scode _ _ _ _ _ s0 _ _ _, X : xcode _ _ false _ _ _ _ _, J : mem_words _ _ (jump_words OP_JZ _ _), Q : scode _ _ _ _ _ s _ _ _, P : mem_words _ _ (pop_words (locals_of E2)),
        Sk : skips _ _ _ _ _, X2 : pcode _ true _ _ _ _ _, J2 : mem_words _ _ (OP_POP :: _), P2 : mem_words _ _ (pop_words (locals_of E1)), X0 : ex _ _ _ _ _ _ s0 _ _ |- _ =>
      pose proof (proj1 (code_range C ga) _ _ _ _ _ _ _ Q0 R) as Rb0; pose proof (xcode_range _ _ _ _ _ _ _ _ X Rb0) as Rb1;
      pose proof (words_range _ _ _ J Rb1) as Rb2; change (0 <= b2 + 3 <= zlen C) in Rb2; pose proof (skips_range _ _ _ _ _ Sk Rb2) as Rb2';
      pose proof (proj1 (code_range C ga) _ _ _ _ _ _ _ Q Rb2') as Rb3; pose proof (words_range _ _ _ P Rb3) as Rb4;
      pose proof (pcode_range _ _ _ _ _ _ _ X2 Rb4) as Rb5; pose proof (words_range _ _ _ J2 Rb5) as Rb6; change (0 <= b5 + 4 <= zlen C) in Rb6;
      pose proof (words_range _ _ _ P2 Rb6) as Rb7; rename P2 into PP; rename X0 into Xi;
      destruct (V_ex _ _ _ _ _ _ Xi pre fr hv fa _ st ip a _ _ Q0 R (enter_ne _) L eq_refl F Hr In) as [En (fr1 & H1' & F1)];
      [split; [apply C_u32; assumption|cbn; lia]|] end.
    specialize (En eq_refl). subst E1. destruct (ex_grows _ _ _ _ _ _ _ _ _ Xi (enter_ne _) L) as [Gr Z]. specialize (Z eq_refl).
    pose proof (after_used s0 (enter_loop E') (enter_ne _)) as Au. change (e_used (enter_loop E')) with (e_used E') in Au.
    lazymatch type of PP with mem_words _ ?x6 (pop_words ?lo) =>
      pose proof (H pre fr1 hv fa (x6 + zlen (pop_words lo)) (e_used E') st ip b1 x6) as K end.
    lazymatch type of K with ?A -> _ => assert A as Q0 by (do 6 eexists; do 6 (split; [eassumption|]); split; [reflexivity|]; do 2 eexists; split; eassumption) end.
    lazymatch type of K with _ -> _ -> _ -> _ -> _ -> _ -> _ -> _ -> _ -> ?A -> _ => assert A as Q1 by (split; [exact (C_u32 _ Rb7)|lia]) end.
    assert (inside fa pre hv (m_local m1) st ip) as In1 by (eapply grows_inside; [exact In| |exact Gr]; exact L).
    exact (K Q0 Rb0 (C_u32 _ Rb6) (after_scopes _ _ (enter_ne _)) Z eq_refl F1 H1' In1 Q1).
  - (* s l *)
    intros pre fr hv fa lp st ip a bb E' Sc R Ne L Lp F Hr In Lo. inversion Sc; subst. eauto.
  - intros pre fr hv fa lp st ip a bb E' Sc R Ne L Lp F Hr In Lo. inversion Sc; subst.
    lazymatch goal with Q : scode _ _ _ _ _ s _ _ _, X0 : ex _ _ _ _ _ _ s _ _ |- _ => pose proof (proj1 (code_range C ga) _ _ _ _ _ _ _ Q R) as Rb;
      destruct (V_ex _ _ _ _ _ _ X0 pre fr hv fa lp st ip _ _ _ Q R Ne L eq_refl F Hr In Lo) as [En (fr1 & H1' & F1)];
      specialize (En eq_refl); subst E1; destruct (ex_grows _ _ _ _ _ _ _ _ _ X0 Ne L) as [Gr Z]; specialize (Z eq_refl) end.
    pose proof (after_used s E Ne) as Au.
    lazymatch goal with Q : sscode _ _ _ _ _ l _ _ _ |- _ => apply (H pre fr1 hv fa lp st ip _ _ _ Q Rb (after_scopes _ _ Ne) Z eq_refl F1 H1') end.
    { eapply grows_inside; [exact In|exact L|exact Gr]. }
    { destruct lp as [[T u]|]; [|exact I]. destruct Lo. split; [assumption|lia]. }
  - (* loops *)
    intros pre fr hv fa T u st ip a x Lc R Ux Ne L Lp F Hr In Lo. destruct Lc as (b1 & ue & b1' & b2 & E1 & b3 & Xc & _). eapply f_x; eauto.
  - intros pre fr hv fa T u st ip a x Lc R Ux Ne L Lp F Hr In Lo. destruct Lc as (b1 & ue & b1' & b2 & E1 & b3 & Xc & J & _). eapply f_unknown; eauto.
  - eapply f_loop_body; eassumption.
  - eapply f_loop_again; eassumption.
  - eapply f_loop_step; eassumption.
  - eapply f_loop_next; eassumption.
Qed.
End Fault.
