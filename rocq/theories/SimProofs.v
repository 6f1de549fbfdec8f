(** * SimProofs: compiled code does what the text means (used by RunProperties) *)

From Verif Require Import Base BaseFacts State MonadFacts VmModel OpSpec InsnSpec CallSpec
  TableProofs TextProofs TokenModel TokenProofs CsModel ExprModel ParseSpec FoldSpec FoldProperties RunSpec CodeRel UseProofs
  RepSpec HeapProofs MachProofs ExecProofs.

(** Regrouping the values on the operand stack. *)
Ltac asc := rewrite <- ?app_assoc; cbn [app]; rewrite <- ?app_assoc; cbn [app]; rewrite <- ?app_assoc; reflexivity.
Ltac re H L := lazymatch type of H with @MachProofs.at_ _ _ _ _ ?l _ _ => replace l with L in H by asc end.
Ltac here H := lazymatch type of H with @MachProofs.at_ _ _ _ _ ?l _ ?a =>
  lazymatch goal with |- @MachProofs.at_ _ _ _ _ ?l' _ ?a' => replace l' with l by asc; replace a' with a; [exact H|] end end.

Section Sim.
Context {HS : Hosts}.
Variable hostmark : Z -> Z -> option Z -> list value.
Variable host : Z -> list value -> M value.
Context {LT : Lits}.
Variable C : list Z.
Variable FT : list func.
Variable lim ng mf : Z.
Hypothesis Clen : pow2 (zlen C).
Hypothesis Llim : lim <= 65536.
Hypothesis Lmf : mf < W32.
Variable t0 : vm.
Hypothesis Start : inv C FT lim ng mf t0.
Hypothesis Room : forall t, steps hostmark host t0 t -> enough t.
Variable funs : Z -> option fundef.
Notation ga := (mkAround ng funs).
Hypothesis Table : forall id fd, funs id = Some fd ->
  exists f, znth FT id = Some f /\ f_ext f = INVALID /\ f_argc f = zlen (fd_params fd) /\
    0 <= f_first f <= zlen C /\ fcode (code C) ga fd (f_first f).
Hypothesis Native : implements host t0.

Notation at_ := (MachProofs.at_ hostmark host t0).
Notation code := (code C).
Notation i_int := (MachProofs.i_int hostmark host C FT lim ng mf Clen Llim t0 Start Room).
Notation i_word := (MachProofs.i_word hostmark host C FT lim ng mf Clen Llim t0 Start Room).
Notation i_float := (MachProofs.i_float hostmark host C FT lim ng mf Clen Llim t0 Start Room).
Notation i_string := (MachProofs.i_string hostmark host C FT lim ng mf Clen Llim t0 Start Room).
Notation i_fun := (MachProofs.i_fun hostmark host C FT lim ng mf Clen Llim t0 Start Room).
Notation i_nil := (MachProofs.i_nil hostmark host C FT lim ng mf Clen Llim t0 Start Room).
Notation i_get := (MachProofs.i_get hostmark host C FT lim ng mf Clen Llim t0 Start Room).
Notation i_set := (MachProofs.i_set hostmark host C FT lim ng mf Clen Llim t0 Start Room).
Notation i_setg := (MachProofs.i_setg hostmark host C FT lim ng mf Clen Llim t0 Start Room).
Notation i_call := (MachProofs.i_call hostmark host C FT lim ng mf Clen Llim t0 Start Room).
Notation i_selfcall := (MachProofs.i_selfcall hostmark host C FT lim ng mf Clen Llim t0 Start Room).
Notation i_return := (MachProofs.i_return hostmark host C FT lim ng mf Clen t0 Start Room).
Notation i_bin := (MachProofs.i_bin hostmark host C FT lim ng mf Clen t0 Start Room).
Notation i_un := (MachProofs.i_un hostmark host C FT lim ng mf Clen t0 Start Room).
Notation i_pop := (MachProofs.i_pop hostmark host C FT lim ng mf Clen t0 Start Room).
Notation i_popn := (MachProofs.i_popn hostmark host C FT lim ng mf Clen Llim t0 Start Room).
Notation i_close := (MachProofs.i_close hostmark host C FT lim ng mf Clen Llim t0 Start Room).
Notation i_goto := (MachProofs.i_goto hostmark host C FT lim ng mf Clen Llim t0 Start Room).
Notation i_branch := (MachProofs.i_branch hostmark host C FT lim ng mf Clen Llim t0 Start Room).
Notation i_field := (MachProofs.i_field hostmark host C FT lim ng mf Clen t0 Start Room).
Notation i_field_keep := (MachProofs.i_field_keep hostmark host C FT lim ng mf Clen t0 Start Room).
Notation i_len := (MachProofs.i_len hostmark host C FT lim ng mf Clen t0 Start Room).
Notation i_object := (MachProofs.i_object hostmark host C FT lim ng mf Clen Llim t0 Start Room).
Notation i_setfield := (MachProofs.i_setfield hostmark host C FT lim ng mf Clen Lmf t0 Start Room).
Notation wapp := (MachProofs.words_app hostmark host C t0 Room).
Notation wcons := (MachProofs.words_cons hostmark host C t0 Room).

Lemma C_u32 a : 0 <= a <= zlen C -> is_u32 a.
Proof. intro H. destruct Clen as (e & Re & Ee). pose proof (Z.pow_le_mono_r 2 e 31 ltac:(lia) ltac:(lia)). unfold is_u32, W32. change (2^31) with 2147483648 in *. lia. Qed.

Lemma at_mem L m m' ip : at_ L m ip -> m_global m' = m_global m -> m_heap m' = m_heap m -> at_ L m' ip.
Proof. intros H E1 E2. exact (MachProofs.at_mem _ _ _ _ _ _ _ E1 E2 H). Qed.

Lemma at_s32 L m ip z : at_ L m ip -> In (VInt z) L -> is_s32 z.
Proof.
  intros (t & _ & H) I. destruct (hr_mem _ _ _ _ _ H) as (W & mm & l & _ & _ & R & _). apply In_znth in I. destruct I as (i & I).
  destruct (F2_znth hostmark host t0 Room _ _ _ _ _ R I) as (x & _ & Q). apply Q.
Qed.

(** ** Expressions *)

Definition S_ev (E : env) (h : Z) (m : mem) (n : ast) (v : val) (m' : mem) : Prop :=
  forall pre fr tmp hv a n' ws off', optimize (expandp n false) = Ok n' ->
  ecode (e_scopes E) (zlen fr + zlen tmp) n' ws off' -> mem_words code a ws ->
  zlen pre + zlen fr + zlen tmp = h -> frel hv (m_local m) fr -> at_ (pre ++ fr ++ tmp) m a ->
  off' = zlen fr + zlen tmp + 1 /\
  exists fr', at_ (pre ++ fr' ++ tmp ++ [v]) m' (a + zlen ws) /\ frel hv (m_local m') fr' /\ zlen fr' = zlen fr.

Definition S_evs (E : env) (h : Z) (m : mem) (n : ast) (vs : list val) (m' : mem) : Prop :=
  forall pre fr tmp hv a n' ws off', optimize (expandp n false) = Ok n' ->
  ecode (e_scopes E) (zlen fr + zlen tmp) n' ws off' -> mem_words code a ws ->
  zlen pre + zlen fr + zlen tmp = h -> frel hv (m_local m) fr -> at_ (pre ++ fr ++ tmp) m a ->
  off' = zlen fr + zlen tmp + zlen vs /\ chain_length n' = zlen vs /\
  exists fr', at_ (pre ++ fr' ++ tmp ++ vs) m' (a + zlen ws) /\ frel hv (m_local m') fr' /\ zlen fr' = zlen fr.

Lemma sim_lit pre fr tmp m a n' ws off' v sc : is_number n' v -> ecode sc (zlen fr + zlen tmp) n' ws off' -> mem_words code a ws ->
  at_ (pre ++ fr ++ tmp) m a -> zlen pre + zlen fr + zlen tmp + 1 <= lim ->
  off' = zlen fr + zlen tmp + 1 /\ at_ (pre ++ fr ++ tmp ++ [v]) m (a + zlen ws).
Proof.
  intros N E W H B. destruct v as [z|z| | | |]; try contradiction; destruct N as (t1 & r0 & -> & T & ->);
    cbn [ecode] in E; rewrite T in E; eqbs E;
    destruct E as (w0 & off0 & w1 & off1 & w2 & (-> & ->) & (-> & ->) & Tl & ->); unfold tail_code in Tl; rewrite T in Tl; eqbs Tl;
    destruct Tl as (-> & ->); (split; [reflexivity|]); cbn [app] in *.
  - pose proof (i_int (pre ++ fr ++ tmp) m a _ H ltac:(rewrite !zlen_app; lia) W (atol_s32 _)) as H'. here H'. reflexivity.
  - pose proof (i_float (pre ++ fr ++ tmp) m a _ H ltac:(rewrite !zlen_app; lia) W) as H'. here H'. reflexivity.
Qed.

Lemma tail_bin sc off t root c1 ws off' x y v : tail_code sc off t root c1 ws off' -> binop (tk_type t) x y v -> is_null c1 = false ->
  exists op, plain_op (tk_type t) false = Some op /\ ws = [op] /\ off' = off - 1.
Proof.
  intros Tl B N. unfold tail_code in Tl. rewrite N in Tl. apply binop_types in B. revert Tl. generalize (tk_type t) B. intros ty Hin Tl.
  cbn [In] in Hin. repeat (destruct Hin as [<-|Hin]; [eqbs Tl; destruct Tl as (op & P & -> & ->); injection P as <-; eexists; split; [reflexivity|]; split; [reflexivity|];
    match goal with |- ?o + stack_offset ?p = _ => let d := eval vm_compute in (stack_offset p) in change (stack_offset p) with d; lia end|]). destruct Hin.
Qed.
Lemma tail_un sc off t root ws off' x v : tail_code sc off t root ANull ws off' -> unop (tk_type t) x v ->
  exists op, plain_op (tk_type t) true = Some op /\ ws = [op] /\ off' = off.
Proof.
  intros Tl B. unfold tail_code in Tl. cbn [is_null] in Tl. apply unop_types in B. revert Tl. generalize (tk_type t) B. intros ty Hin Tl.
  destruct Hin as [-> | ->]; (eqbs Tl; destruct Tl as (op & P & -> & ->); injection P as <-; eexists; split; [reflexivity|]; split; [reflexivity|];
    match goal with |- ?o + stack_offset ?p = _ => let d := eval vm_compute in (stack_offset p) in change (stack_offset p) with d; lia end).
Qed.

Lemma ecode_node sc off t root c0 c1 ws off' : (tk_type t =? TK_ASSIGNMENT) = false -> ecode sc off (ANode t root c0 c1) ws off' ->
  exists w0 off0 w1 off1 w2, ecode sc off c0 w0 off0 /\ ecode sc off0 c1 w1 off1 /\
        tail_code sc off1 t root c1 w2 off' /\ ws = w0 ++ w1 ++ w2.
Proof. intros N E. cbn [ecode] in E. rewrite N in E. exact E. Qed.

Lemma leaf_opt ty t root n' : tk_type t = ty -> In ty [TK_NIL; TK_INTEGER; TK_FLOAT; TK_STRING; TK_FUNCTION; TK_IDENTIFIER; TK_FSE] ->
  optimize (expandp (ANode t root ANull ANull) false) = Ok n' -> n' = ANode t root ANull ANull.
Proof.
  intros T I O. cbn [expandp] in O. rewrite T, not_incdec in O by (cbn [In] in *; tauto). cbn [expandp optimize bind] in O. rewrite T in O.
  cbn [In] in I. repeat (destruct I as [<-|I]; [cbv zeta in O; cbn in O; injection O as <-; reflexivity|]). destruct I.
Qed.

Lemma sim_nil E h m t root : tk_type t = TK_NIL -> spare lim h -> S_ev E h m (ANode t root ANull ANull) VNil m.
Proof.
  intros T Sp pre fr tmp hv a n' ws off' O Ec W Hh F H. rewrite (leaf_opt _ _ _ _ T ltac:(inlist) O) in Ec.
  apply ecode_node in Ec; [|rewrite T; reflexivity]. destruct Ec as (w0 & o0 & w1 & o1 & w2 & (-> & ->) & (-> & ->) & Tl & ->).
  unfold tail_code in Tl. rewrite T in Tl. eqbs Tl. destruct Tl as (op & P & -> & ->). injection P as <-.
  change (stack_offset OP_NIL) with 1. split; [reflexivity|]. rewrite !app_nil_l in *. unfold spare in Sp.
  pose proof (i_nil (pre ++ fr ++ tmp) m a H ltac:(rewrite !zlen_app; lia) W) as H'.
  exists fr. split; [here H'; reflexivity|auto].
Qed.

Lemma sim_int E h m t root : tk_type t = TK_INTEGER -> spare lim h -> S_ev E h m (ANode t root ANull ANull) (VInt (c_atol (tk_str t))) m.
Proof.
  intros T Sp pre fr tmp hv a n' ws off' O Ec W Hh F H. rewrite (leaf_opt _ _ _ _ T ltac:(inlist) O) in Ec. unfold spare in Sp.
  destruct (sim_lit pre fr tmp m a _ ws off' (VInt (c_atol (tk_str t))) _ ltac:(eexists _, _; split; [reflexivity|]; split; [exact T|reflexivity]) Ec W H ltac:(lia)) as (-> & H').
  split; [reflexivity|]. exists fr. auto.
Qed.

Lemma sim_float E h m t root : tk_type t = TK_FLOAT -> spare lim h -> S_ev E h m (ANode t root ANull ANull) (VFlt (c_atof (tk_str t))) m.
Proof.
  intros T Sp pre fr tmp hv a n' ws off' O Ec W Hh F H. rewrite (leaf_opt _ _ _ _ T ltac:(inlist) O) in Ec. unfold spare in Sp.
  destruct (sim_lit pre fr tmp m a _ ws off' (VFlt (c_atof (tk_str t))) _ ltac:(eexists _, _; split; [reflexivity|]; split; [exact T|reflexivity]) Ec W H ltac:(lia)) as (-> & H').
  split; [reflexivity|]. exists fr. auto.
Qed.

Lemma sim_string E h m t root : tk_type t = TK_STRING -> spare lim h -> S_ev E h m (ANode t root ANull ANull) (VStr (tk_str t)) m.
Proof.
  intros T Sp pre fr tmp hv a n' ws off' O Ec W Hh F H. rewrite (leaf_opt _ _ _ _ T ltac:(inlist) O) in Ec.
  apply ecode_node in Ec; [|rewrite T; reflexivity]. destruct Ec as (w0 & o0 & w1 & o1 & w2 & (-> & ->) & (-> & ->) & Tl & ->).
  unfold tail_code in Tl. rewrite T in Tl. eqbs Tl. destruct Tl as (i & Li & -> & ->).
  split; [reflexivity|]. rewrite !app_nil_l in *. unfold spare in Sp.
  pose proof (i_string (pre ++ fr ++ tmp) m a i _ H ltac:(rewrite !zlen_app; lia) W Li) as H'.
  exists fr. split; [here H'; reflexivity|auto].
Qed.

Lemma sim_function E h m t root : tk_type t = TK_FUNCTION -> spare lim h -> S_ev E h m (ANode t root ANull ANull) (VFun (number t)) m.
Proof.
  intros T Sp pre fr tmp hv a n' ws off' O Ec W Hh F H. rewrite (leaf_opt _ _ _ _ T ltac:(inlist) O) in Ec.
  apply ecode_node in Ec; [|rewrite T; reflexivity]. destruct Ec as (w0 & o0 & w1 & o1 & w2 & (-> & ->) & (-> & ->) & Tl & ->).
  unfold tail_code in Tl. rewrite T in Tl. eqbs Tl. destruct Tl as (-> & ->).
  split; [reflexivity|]. rewrite !app_nil_l in *. unfold spare in Sp.
  assert (is_u32 (number t)) as U by (unfold number, is_u32, u32; apply Z.mod_pos_bound; reflexivity).
  pose proof (i_fun (pre ++ fr ++ tmp) m a (number t) H ltac:(rewrite !zlen_app; lia)) as H'. rewrite (u32_id _ U) in H'. specialize (H' W U).
  exists fr. split; [here H'; reflexivity|auto].
Qed.

Lemma sim_name E h m t root p v : tk_type t = TK_IDENTIFIER -> spare lim h -> lookup (tk_str t) (e_scopes E) = Some p -> read p m = Some v ->
  S_ev E h m (ANode t root ANull ANull) v m.
Proof.
  intros T Sp Lk Rd pre fr tmp hv a n' ws off' O Ec W Hh F H. rewrite (leaf_opt _ _ _ _ T ltac:(inlist) O) in Ec.
  apply ecode_node in Ec; [|rewrite T; reflexivity]. destruct Ec as (w0 & o0 & w1 & o1 & w2 & (-> & ->) & (-> & ->) & Tl & ->).
  unfold tail_code in Tl. rewrite T in Tl. eqbs Tl. destruct Tl as (p' & Lk' & -> & ->). rewrite Lk in Lk'. injection Lk' as <-.
  split; [reflexivity|]. rewrite !app_nil_l in *. unfold spare in Sp.
  pose proof (i_get pre fr tmp a m p v hv _ H Rd F eq_refl ltac:(rewrite !zlen_app; lia) W) as H'.
  exists fr. split; [destruct p; exact H'|auto].
Qed.

(** A node that folding turned into a number. *)
Lemma sim_folded E h m n v m' : ev funs lim mf E h m n v m' ->
  forall pre fr tmp hv a n' ws off', immediate n' = true -> optimize (expandp n false) = Ok n' ->
  ecode (e_scopes E) (zlen fr + zlen tmp) n' ws off' -> mem_words code a ws ->
  zlen pre + zlen fr + zlen tmp = h -> frel hv (m_local m) fr -> at_ (pre ++ fr ++ tmp) m a ->
  off' = zlen fr + zlen tmp + 1 /\
  exists fr', at_ (pre ++ fr' ++ tmp ++ [v]) m' (a + zlen ws) /\ frel hv (m_local m') fr' /\ zlen fr' = zlen fr.
Proof.
  intros V pre fr tmp hv a n' ws off' I O Ec W Hh F H.
  destruct (ev_imm _ _ _ _ _ _ _ _ _ _ V O I) as (_ & J & ->). pose proof (ev_spare _ _ _ _ _ _ _ _ _ V) as Sp. unfold spare in Sp.
  destruct (sim_lit pre fr tmp m a _ ws off' _ _ J Ec W H ltac:(lia)) as (-> & H').
  split; [reflexivity|]. exists fr. auto.
Qed.

Lemma sim_unary E h m t root a x v m1 : ev funs lim mf E h m a x m1 -> S_ev E h m a x m1 -> unop (tk_type t) x v ->
  (numeric a = true -> in_decimal v) -> S_ev E h m (ANode t root a ANull) v m1.
Proof.
  intros V IH U Nd pre fr tmp hv ad n' ws off' O Ec W Hh F H.
  destruct (immediate n') eqn:I; [eapply sim_folded; eauto; econstructor; eauto|].
  pose proof (unop_types _ _ _ U) as Ty. cbn [expandp] in O. rewrite not_incdec in O by (destruct Ty as [-> | ->]; inlist).
  apply opt_node in O. destruct O as (_ & d0 & d1 & O0 & O1 & [->|(_ & _ & _ & I' & _)]); [|congruence]. injection O1 as <-.
  apply ecode_node in Ec; [|destruct Ty as [-> | ->]; reflexivity]. destruct Ec as (w0 & o0 & w1 & o1 & w2 & E0 & (-> & ->) & Tl & ->).
  rewrite app_nil_l in *. destruct (wapp _ _ _ W) as [W0 W2].
  destruct (IH pre fr tmp hv ad d0 w0 o0 O0 E0 W0 Hh F H) as (-> & fr1 & H1 & F1 & L1).
  destruct (tail_un _ _ _ _ _ _ _ _ Tl U) as (op & P & -> & ->). split; [reflexivity|].
  re H1 ((pre ++ fr1 ++ tmp) ++ [x]). pose proof (i_un _ _ _ x v _ op H1 U P W2) as H2.
  exists fr1. split; [here H2; rewrite zlen_app; change (zlen [op]) with 1; lia|auto].
Qed.

Lemma snoc_len {A} (l : list A) x : zlen (l ++ [x]) = zlen l + 1.
Proof. rewrite zlen_app. reflexivity. Qed.

Lemma sim_binary E h m t root a b x y v m1 m2 : ev funs lim mf E h m a x m1 -> S_ev E h m a x m1 ->
  ev funs lim mf E (h + 1) m1 b y m2 -> S_ev E (h + 1) m1 b y m2 -> binop (tk_type t) x y v ->
  (numeric a && numeric b = true -> same_kind x y = true /\ in_decimal v)%bool ->
  S_ev E h m (ANode t root a b) v m2.
Proof.
  intros V IH V2 IH2 U Nd pre fr tmp hv ad n' ws off' O Ec W Hh F H.
  destruct (immediate n') eqn:I; [eapply sim_folded; eauto; econstructor; eauto|].
  pose proof (binop_types _ _ _ _ U) as Ty. cbn [expandp] in O. rewrite not_incdec in O by (cbn [In] in *; tauto).
  apply opt_node in O. destruct O as (_ & d0 & d1 & O0 & O1 & [->|(_ & _ & _ & I' & _)]); [|congruence].
  apply ecode_node in Ec; [|cbn [In] in Ty; repeat (destruct Ty as [<-|Ty]; [reflexivity|]); destruct Ty].
  destruct Ec as (w0 & o0 & w1 & o1 & w2 & E0 & E1 & Tl & ->).
  destruct (wapp _ _ _ W) as [W0 W']. destruct (wapp _ _ _ W') as [W1 W2]. clear W'.
  destruct (IH pre fr tmp hv ad d0 w0 o0 O0 E0 W0 Hh F H) as (-> & fr1 & H1 & F1 & L1).
  pose proof (snoc_len tmp x) as Lt.
  replace (zlen fr + zlen tmp + 1) with (zlen fr1 + zlen (tmp ++ [x])) in E1 by lia.
  destruct (IH2 pre fr1 (tmp ++ [x]) hv _ d1 w1 o1 O1 E1 W1 ltac:(lia) F1 H1) as (-> & fr2 & H2 & F2 & L2).
  pose proof (opt_null _ _ O1) as Nn. rewrite expand_null, (ev_nonnull _ _ _ _ _ _ _ _ _ V2) in Nn.
  destruct (tail_bin _ _ _ _ _ _ _ _ _ _ Tl U Nn) as (op & P & -> & ->). split; [lia|].
  re H2 ((pre ++ fr2 ++ tmp) ++ [x; y]). pose proof (i_bin _ _ _ x y v _ op H2 U P W2) as H3.
  exists fr2. split; [here H3; rewrite !zlen_app; change (zlen [op]) with 1; lia|split; [exact F2|lia]].
Qed.

Lemma sim_assign E h m t root t1 root0 b p v v0 m1 : tk_type t = TK_ASSIGNMENT -> tk_type t1 = TK_IDENTIFIER ->
  S_ev E h m b v m1 -> spare lim h -> lookup (tk_str t1) (e_scopes E) = Some p -> read p m1 = Some v0 ->
  S_ev E h m (ANode t root (ANode t1 root0 ANull ANull) b) v (write p v m1).
Proof.
  intros T T0 IH Sp Lk Rd pre fr tmp hv ad n' ws off' O Ec W Hh F H.
  cbn [expandp] in O. rewrite T, not_incdec in O by inlist. rewrite T0, not_incdec in O by inlist.
  apply opt_node in O. destruct O as (_ & d0 & d1 & O0 & O1 & [->|(I & _)]); [|rewrite T in I; discriminate I].
  cbn [optimize bind] in O0. rewrite T0 in O0. change (negb (foldable TK_IDENTIFIER)) with true in O0. cbv iota zeta in O0. injection O0 as <-.
  cbn [ecode] in Ec. rewrite T in Ec. change (TK_ASSIGNMENT =? TK_ASSIGNMENT) with true in Ec. cbv iota in Ec.
  rewrite T0 in Ec. change (TK_IDENTIFIER =? TK_IDENTIFIER) with true in Ec. cbv iota in Ec.
  destruct Ec as (w1 & o1 & E1 & p' & Lk' & -> & ->). rewrite Lk in Lk'. injection Lk' as <-.
  destruct (wapp _ _ _ W) as [W1 W2].
  destruct (IH pre fr tmp hv ad d1 w1 o1 O1 E1 W1 Hh F H) as (-> & fr1 & H1 & F1 & L1).
  split; [reflexivity|]. unfold spare in Sp.
  destruct (i_set pre fr1 tmp _ m1 p v v0 hv _ H1 Rd F1 ltac:(instantiate (1 := zlen fr + zlen tmp + 1); lia) ltac:(rewrite !zlen_app; lia) W2) as (fr2 & H2 & F2).
  exists fr2. split; [here H2; rewrite zlen_app; destruct p; change (zlen (store_code _ _)) with 3; lia|]. split; [exact F2|].
  destruct F2 as [Q2 _], F1 as [Q1 _]. rewrite write_len in Q2. congruence.
Qed.

Lemma sim_evs_nil E h m : S_evs E h m ANull [] m.
Proof.
  intros pre fr tmp hv ad n' ws off' O Ec W Hh F H. injection O as <-. destruct Ec as (-> & ->).
  change (@zlen val []) with 0. split; [lia|]. split; [reflexivity|]. exists fr. rewrite app_nil_r. change (@zlen Z []) with 0. rewrite Z.add_0_r. auto.
Qed.

Lemma sim_evs_cons E h m t a rest v vs m1 m2 : tk_type t = TK_PAREN_OPEN \/ tk_type t = TK_CALL_SELF -> S_ev E h m a v m1 -> S_evs E (h + 1) m1 rest vs m2 ->
  S_evs E h m (ANode t false a rest) (v :: vs) m2.
Proof.
  intros T IH IH2 pre fr tmp hv ad n' ws off' O Ec W Hh F H.
  cbn [expandp] in O. rewrite not_incdec in O by (destruct T as [-> | ->]; inlist).
  apply opt_node in O. destruct O as (_ & d0 & d1 & O0 & O1 & [->|(I & _)]); [|destruct T as [T|T]; rewrite T in I; discriminate I].
  apply ecode_node in Ec; [|destruct T as [-> | ->]; reflexivity]. destruct Ec as (w0 & o0 & w1 & o1 & w2 & E0 & E1 & Tl & ->).
  assert (w2 = [] /\ off' = o1) as (-> & ->) by (unfold tail_code in Tl; destruct T as [T|T]; rewrite T in Tl; eqbs Tl; exact Tl). rewrite app_nil_r in *.
  destruct (wapp _ _ _ W) as [W0 W1].
  destruct (IH pre fr tmp hv ad d0 w0 o0 O0 E0 W0 Hh F H) as (-> & fr1 & H1 & F1 & L1).
  pose proof (snoc_len tmp v) as Lt.
  replace (zlen fr + zlen tmp + 1) with (zlen fr1 + zlen (tmp ++ [v])) in E1 by lia.
  destruct (IH2 pre fr1 (tmp ++ [v]) hv _ d1 w1 o1 O1 E1 W1 ltac:(lia) F1 H1) as (-> & Cl & fr2 & H2 & F2 & L2).
  rewrite zlen_cons. split; [lia|]. split; [cbn [chain_length]; lia|]. exists fr2.
  split; [here H2; rewrite zlen_app; lia|]. split; [exact F2|lia].
Qed.

(** *** Objects *)

Lemma fse_object ws d : fse_code (bs "object") 0 ws d -> ws = [OP_NEWOBJ] /\ d = 1.
Proof.
  unfold fse_code. intros [(Q & _)|[(Q & _)|[(Q & _)|[(Q & _)|[(Q & _)|[(Q & _)|[(_ & _ & Q)|[(Q & _)|(Q & _)]]]]]]]]; try (vm_compute in Q; discriminate Q); auto. contradiction.
Qed.
Lemma fse_len ws d : fse_code (bs "len") 1 ws d -> ws = [OP_LEN] /\ d = 0.
Proof.
  unfold fse_code. intros [(Q & _)|[(Q & _)|[(Q & _)|[(Q & _)|[(Q & _)|[(Q & _)|[(Q & _)|[(_ & _ & Q)|(_ & Q & _)]]]]]]]]; try (vm_compute in Q; discriminate Q); auto. contradiction.
Qed.

Lemma sim_object E h m t root : tk_type t = TK_FSE -> tk_str t = bs "object" -> spare lim h ->
  S_ev E h m (ANode t root ANull ANull) (VObj (zlen (m_heap m))) (set_heap (m_heap m ++ [[]]) m).
Proof.
  intros T Ts Sp pre fr tmp hv a n' ws off' O Ec W Hh F H. rewrite (leaf_opt _ _ _ _ T ltac:(inlist) O) in Ec.
  apply ecode_node in Ec; [|rewrite T; reflexivity]. destruct Ec as (w0 & o0 & w1 & o1 & w2 & (-> & ->) & (-> & ->) & Tl & ->).
  unfold tail_code in Tl. rewrite T in Tl. eqbs Tl. rewrite Ts in Tl. destruct Tl as (_ & Tl).
  destruct (fse_object _ _ Tl) as (-> & D). split; [lia|]. rewrite !app_nil_l in *. unfold spare in Sp.
  pose proof (i_object (pre ++ fr ++ tmp) m a H ltac:(rewrite !zlen_app; lia) W) as H'.
  exists fr. split; [here H'; reflexivity|auto].
Qed.

Lemma sim_len E h m t root t1 a o l m1 : tk_type t = TK_FSE -> tk_str t = bs "len" -> tk_type t1 = TK_PAREN_OPEN ->
  S_ev E h m a (VObj o) m1 -> fields o m1 = Some l -> is_s32 (zlen l) ->
  S_ev E h m (ANode t root ANull (ANode t1 false a ANull)) (VInt (zlen l)) m1.
Proof.
  intros T Ts T1 IH Fi Z pre fr tmp hv ad n' ws off' O Ec W Hh F H.
  cbn [expandp] in O. rewrite T, not_incdec in O by inlist. rewrite T1, not_incdec in O by inlist.
  apply opt_node in O. destruct O as (_ & d0 & d1 & O0 & O1 & [->|(I & _)]); [|rewrite T in I; discriminate I]. injection O0 as <-.
  apply opt_node in O1. destruct O1 as (_ & e0 & e1 & P0 & P1 & [->|(I & _)]); [|rewrite T1 in I; discriminate I]. injection P1 as <-.
  apply ecode_node in Ec; [|rewrite T; reflexivity]. destruct Ec as (w0 & o0 & w1 & o1 & w2 & (-> & ->) & E1 & Tl & ->).
  apply ecode_node in E1; [|rewrite T1; reflexivity]. destruct E1 as (w3 & o3 & w4 & o4 & w5 & E3 & (-> & ->) & Tl1 & ->).
  unfold tail_code in Tl. rewrite T in Tl. eqbs Tl. rewrite Ts in Tl. destruct Tl as (_ & Tl). cbn [chain_length] in Tl.
  destruct (fse_len _ _ Tl) as (-> & D). unfold tail_code in Tl1. rewrite T1 in Tl1. eqbs Tl1. destruct Tl1 as (-> & ->).
  rewrite ?app_nil_l, ?app_nil_r in *. destruct (wapp _ _ _ W) as [W0 W2].
  destruct (IH pre fr tmp hv ad e0 w3 o3 P0 E3 W0 Hh F H) as (-> & fr1 & H1 & F1 & L1). split; [lia|].
  re H1 ((pre ++ fr1 ++ tmp) ++ [VObj o]). pose proof (i_len _ _ _ o l H1 Fi Z W2) as H2.
  exists fr1. split; [here H2; rewrite zlen_app; change (zlen [OP_LEN]) with 1; lia|auto].
Qed.

Lemma sim_field E h m t root a b o l k m1 m2 : tk_type t = TK_BRACKET_OPEN ->
  S_ev E h m a (VObj o) m1 -> S_ev E (h + 1) m1 b k m2 -> fields o m2 = Some l -> key_ok k ->
  S_ev E h m (ANode t root a b) (oget k l) m2.
Proof.
  intros T IH IH2 Fi K pre fr tmp hv ad n' ws off' O Ec W Hh F H.
  cbn [expandp] in O. rewrite T, not_incdec in O by inlist.
  apply opt_node in O. destruct O as (_ & d0 & d1 & O0 & O1 & [->|(I & _)]); [|rewrite T in I; discriminate I].
  apply ecode_node in Ec; [|rewrite T; reflexivity]. destruct Ec as (w0 & o0 & w1 & o1 & w2 & E0 & E1 & Tl & ->).
  unfold tail_code in Tl. rewrite T in Tl. eqbs Tl. destruct Tl as (op & P & -> & ->). injection P as <-.
  destruct (wapp _ _ _ W) as [W0 W']. destruct (wapp _ _ _ W') as [W1 W2]. clear W'.
  destruct (IH pre fr tmp hv ad d0 w0 o0 O0 E0 W0 Hh F H) as (-> & fr1 & H1 & F1 & L1).
  pose proof (snoc_len tmp (VObj o)) as Lt.
  replace (zlen fr + zlen tmp + 1) with (zlen fr1 + zlen (tmp ++ [VObj o])) in E1 by lia.
  destruct (IH2 pre fr1 (tmp ++ [VObj o]) hv _ d1 w1 o1 O1 E1 W1 ltac:(lia) F1 H1) as (-> & fr2 & H2 & F2 & L2).
  change (stack_offset OP_FIELDGET) with (-1). split; [lia|].
  re H2 ((pre ++ fr2 ++ tmp) ++ [VObj o; k]). pose proof (i_field _ _ _ o k l H2 Fi K W2) as H3.
  exists fr2. split; [here H3; rewrite !zlen_app; change (zlen [OP_FIELDGET]) with 1; lia|split; [exact F2|lia]].
Qed.

(** Storing to a field, with the value on the stack. *)
Lemma sim_store E h m a b v o k l m1 m2 pre fr tmp hv ad d0 d1 w0 o0 w1 o1 :
  S_ev E (h + 1) m a (VObj o) m1 -> S_ev E (h + 2) m1 b k m2 -> fields o m2 = Some l -> key_ok k -> fits mf k v l ->
  optimize (expandp a false) = Ok d0 -> optimize (expandp b false) = Ok d1 ->
  ecode (e_scopes E) (zlen fr + zlen tmp + 1) d0 w0 o0 -> ecode (e_scopes E) o0 d1 w1 o1 -> mem_words code ad (w0 ++ w1 ++ [OP_FIELDSET]) ->
  zlen pre + zlen fr + zlen tmp = h -> frel hv (m_local m) fr -> at_ (pre ++ fr ++ tmp ++ [v]) m ad ->
  o1 = zlen fr + zlen tmp + 3 /\
  exists fr', at_ (pre ++ fr' ++ tmp ++ [v]) (set_field o k v l m2) (ad + zlen w0 + zlen w1 + 1) /\ frel hv (m_local m2) fr' /\ zlen fr' = zlen fr.
Proof.
  intros IH IH2 Fi K Ft O0 O1 E0 E1 W Hh F H.
  destruct (wapp _ _ _ W) as [W0 W']. destruct (wapp _ _ _ W') as [W1 W2]. clear W'. pose proof (snoc_len tmp v) as Lt.
  replace (zlen fr + zlen tmp + 1) with (zlen fr + zlen (tmp ++ [v])) in E0 by lia.
  destruct (IH pre fr (tmp ++ [v]) hv ad d0 w0 o0 O0 E0 W0 ltac:(lia) F H) as (-> & fr1 & H1 & F1 & L1).
  pose proof (snoc_len (tmp ++ [v]) (VObj o)) as Lt2.
  replace (zlen fr + zlen (tmp ++ [v]) + 1) with (zlen fr1 + zlen ((tmp ++ [v]) ++ [VObj o])) in E1 by lia.
  destruct (IH2 pre fr1 ((tmp ++ [v]) ++ [VObj o]) hv _ d1 w1 o1 O1 E1 W1 ltac:(lia) F1 H1) as (-> & fr2 & H2 & F2 & L2).
  split; [lia|]. re H2 ((pre ++ fr2 ++ tmp) ++ [v; VObj o; k]). pose proof (i_setfield _ _ _ o k v l H2 Fi K Ft W2) as H3.
  exists fr2. split; [here H3; reflexivity|split; [exact F2|lia]].
Qed.

Lemma sim_setfield E h m t root t1 root0 a b c v o k l m1 m2 m3 : tk_type t = TK_ASSIGNMENT -> tk_type t1 = TK_BRACKET_OPEN ->
  S_ev E h m c v m1 -> S_ev E (h + 1) m1 a (VObj o) m2 -> S_ev E (h + 2) m2 b k m3 ->
  fields o m3 = Some l -> key_ok k -> fits mf k v l ->
  S_ev E h m (ANode t root (ANode t1 root0 a b) c) v (set_field o k v l m3).
Proof.
  intros T T0 IH IH2 IH3 Fi K Ft pre fr tmp hv ad n' ws off' O Ec W Hh F H.
  cbn [expandp] in O. rewrite T, not_incdec in O by inlist. rewrite T0, not_incdec in O by inlist.
  apply opt_node in O. destruct O as (_ & d0 & d1 & O0 & O1 & [->|(I & _)]); [|rewrite T in I; discriminate I].
  apply opt_node in O0. destruct O0 as (_ & e0 & e1 & P0 & P1 & [->|(I & _)]); [|rewrite T0 in I; discriminate I].
  cbn [ecode] in Ec. rewrite T in Ec. change (TK_ASSIGNMENT =? TK_ASSIGNMENT) with true in Ec. cbv iota in Ec.
  rewrite T0 in Ec. change (TK_BRACKET_OPEN =? TK_IDENTIFIER) with false in Ec. cbv iota in Ec.
  destruct Ec as (w1 & o1 & E1 & _ & w2 & o2 & w3 & o3 & E2 & E3 & -> & ->).
  destruct (wapp _ _ _ W) as [W1 W2].
  destruct (IH pre fr tmp hv ad d1 w1 o1 O1 E1 W1 Hh F H) as (-> & fr1 & H1 & F1 & L1).
  rewrite <- L1 in E2. destruct (sim_store E h m1 a b v o k l m2 m3 pre fr1 tmp hv _ _ _ _ _ _ _ IH2 IH3 Fi K Ft P0 P1 E2 E3 W2 ltac:(lia) F1 H1) as (-> & fr2 & H2 & F2 & L2).
  split; [lia|]. exists fr2. split; [here H2; rewrite !zlen_app; change (zlen [OP_FIELDSET]) with 1; lia|]. split; [exact F2|lia].
Qed.

(** *** Increments and decrements *)

Lemma read_s32 pre fr tmp m a p z hv : at_ (pre ++ fr ++ tmp) m a -> frel hv (m_local m) fr -> read p m = Some (VInt z) -> is_s32 z.
Proof.
  intros H F R. destruct p as [i|i]; cbn [read] in R.
  - destruct H as (t & _ & H). destruct (hr_mem _ _ _ _ _ H) as (W & mm & l & _ & G & _). destruct (G _ _ R) as (_ & x & _ & Q). apply Q.
  - destruct (znth (m_local m) i) as [o|] eqn:Ei; [|discriminate]. subst o. destruct F as [_ F]. destruct (F _ _ Ei) as (x & X & ->).
    apply (at_s32 _ _ _ _ H). rewrite !in_app_iff. right. left. apply In_znth. eauto.
Qed.

(** The word after a value: one more, or one less. *)
Lemma sim_plus L m a z z' ty op : at_ (L ++ [z]) m a -> zlen L + 2 <= lim -> binop ty z (VInt 1) z' -> plain_op ty false = Some op ->
  mem_words code a [OP_LIT_INT; u32 1; op] -> at_ (L ++ [z']) m (a + 3).
Proof.
  intros H B Bo P W. destruct (wapp a [OP_LIT_INT; u32 1] [op] W) as [W1 W2].
  pose proof (i_int _ _ _ 1 H ltac:(rewrite snoc_len; lia) W1 ltac:(unfold is_s32, W31; lia)) as H1. re H1 (L ++ [z; VInt 1]).
  pose proof (i_bin _ _ _ _ _ _ _ op H1 Bo P W2) as H2. here H2. lia.
Qed.

Definition one (t : token) : ast := ANode (made TK_INTEGER (bs "1") (tk_line t)) false ANull ANull.
Lemma one_code sc off t ws off' : ecode sc off (one t) ws off' -> ws = [OP_LIT_INT; u32 1] /\ off' = off + 1.
Proof.
  intro E. apply ecode_node in E; [|reflexivity]. destruct E as (w0 & o0 & w1 & o1 & w2 & (-> & ->) & (-> & ->) & Tl & ->).
  unfold tail_code in Tl. cbn [made tk_type] in Tl. eqbs Tl. destruct Tl as (-> & ->). auto.
Qed.
Lemma sum_code sc off tp r lv t ws off' x v : ecode sc off (ANode tp r lv (one t)) ws off' -> binop (tk_type tp) x (VInt 1) v ->
  exists w0 op, ecode sc off lv w0 off' /\ plain_op (tk_type tp) false = Some op /\ ws = w0 ++ [OP_LIT_INT; u32 1; op].
Proof.
  intros E Bo. pose proof (binop_types _ _ _ _ Bo) as Ty.
  apply ecode_node in E; [|cbn [In] in Ty; repeat (destruct Ty as [<-|Ty]; [reflexivity|]); destruct Ty].
  destruct E as (w0 & o0 & w1 & o1 & w2 & E0 & E1 & Tl & ->). destruct (one_code _ _ _ _ _ E1) as (-> & ->).
  destruct (tail_bin _ _ _ _ _ _ _ _ _ _ Tl Bo eq_refl) as (op & P & -> & ->). exists w0, op.
  split; [replace (o0 + 1 - 1) with o0 by lia; exact E0|auto].
Qed.

Lemma assign_code sc off ta r t1 r1 a b e ws off' : ecode sc off (ANode ta r (ANode t1 r1 a b) e) ws off' -> tk_type ta = TK_ASSIGNMENT ->
  (tk_type t1 = TK_IDENTIFIER -> exists w1 off1 p, ecode sc off e w1 off1 /\ lookup (tk_str t1) sc = Some p /\ ws = w1 ++ store_code p off1 /\ off' = off1) /\
  (tk_type t1 = TK_BRACKET_OPEN -> exists w1 off1 w2 off2 w3 off3, ecode sc off e w1 off1 /\ ecode sc off1 a w2 off2 /\ ecode sc off2 b w3 off3 /\
     ws = w1 ++ w2 ++ w3 ++ [OP_FIELDSET] /\ off' = off3 - 2).
Proof.
  intros Ea Ta. cbn [ecode] in Ea. rewrite Ta in Ea. change (TK_ASSIGNMENT =? TK_ASSIGNMENT) with true in Ea. cbv iota in Ea.
  destruct Ea as (w1 & o1 & E1 & K). split; intro T; rewrite T in K.
  - change (TK_IDENTIFIER =? TK_IDENTIFIER) with true in K. cbv iota in K. destruct K as (p & Lk & -> & ->). eauto 8.
  - change (TK_BRACKET_OPEN =? TK_IDENTIFIER) with false in K. cbv iota in K. change (TK_BRACKET_OPEN =? TK_BRACKET_OPEN) with true in K. cbv iota in K.
    destruct K as (_ & w2 & o2 & w3 & o3 & E2 & E3 & -> & ->). eauto 12.
Qed.

(** What an increment is expanded to: an assignment, and for the old value the
    opposite of the change. *)
Lemma expand_code sc off t lv d ws off' z z' r : ecode sc off (expand_node t lv d) ws off' -> incdec (tk_type t) z z' r ->
  exists ta tp wa, tk_type ta = TK_ASSIGNMENT /\ binop (tk_type tp) z (VInt 1) z' /\
    ecode sc off (ANode ta false lv (ANode tp false lv (one t))) wa off' /\
    (ws = wa /\ (d = false -> r = z') \/
     exists op ty, ws = wa ++ [OP_LIT_INT; u32 1; op] /\ binop ty z' (VInt 1) r /\ plain_op ty false = Some op).
Proof.
  intros Ec Inc. unfold expand_node in Ec. cbv zeta in Ec. fold (one t) in Ec.
  destruct Inc as [(T & B & ->)|[(T & B & ->)|[(T & B & B1)|(T & B & B1)]]]; rewrite T in Ec; eqbs Ec.
  - eexists _, _, ws. split; [|split; [|split; [exact Ec|]]]; [reflexivity|exact B|auto].
  - eexists _, _, ws. split; [|split; [|split; [exact Ec|]]]; [reflexivity|exact B|auto].
  - destruct d; cbn [negb] in Ec; cbv iota in Ec.
    + eexists _, _, ws. split; [|split; [|split; [exact Ec|]]]; [reflexivity|exact B|]. left. split; [reflexivity|discriminate].
    + destruct (sum_code _ _ _ _ _ _ _ _ _ _ Ec B1) as (wa & op & Ea & P & ->).
      eexists _, _, wa. split; [|split; [|split; [exact Ea|]]]; [reflexivity|exact B|]. right. exists op, TK_MINUS. auto.
  - destruct d; cbn [negb] in Ec; cbv iota in Ec.
    + eexists _, _, ws. split; [|split; [|split; [exact Ec|]]]; [reflexivity|exact B|]. left. split; [reflexivity|discriminate].
    + destruct (sum_code _ _ _ _ _ _ _ _ _ _ Ec B1) as (wa & op & Ea & P & ->).
      eexists _, _, wa. split; [|split; [|split; [exact Ea|]]]; [reflexivity|exact B|]. right. exists op, TK_PLUS. auto.
Qed.

Lemma after_expand L m a ws wa z' r d : zlen L + 2 <= lim ->
  (ws = wa /\ (d = false -> r = z') \/
     exists op ty, ws = wa ++ [OP_LIT_INT; u32 1; op] /\ binop ty z' (VInt 1) r /\ plain_op ty false = Some op) ->
  mem_words code a ws -> at_ (L ++ [z']) m (a + zlen wa) ->
  exists v, (d = false -> v = r) /\ at_ (L ++ [v]) m (a + zlen ws).
Proof.
  intros B [(-> & Q)|(op & ty & -> & Bo & P)] W H.
  - exists z'. split; [intro D; rewrite (Q D); reflexivity|exact H].
  - destruct (wapp _ _ _ W) as [_ W2]. exists r. split; [reflexivity|].
    pose proof (sim_plus _ _ _ _ _ _ _ H B Bo P W2) as H2. here H2. rewrite zlen_app. change (zlen [OP_LIT_INT; u32 1; op]) with 3. lia.
Qed.

(** An increment or decrement, in both of its forms. *)
Definition S_incdec (E : env) (h : Z) (m : mem) (n : ast) (r : val) (m' : mem) : Prop :=
  forall d pre fr tmp hv a n' ws off', optimize (expandp n d) = Ok n' ->
  ecode (e_scopes E) (zlen fr + zlen tmp) n' ws off' -> mem_words code a ws ->
  zlen pre + zlen fr + zlen tmp = h -> frel hv (m_local m) fr -> at_ (pre ++ fr ++ tmp) m a ->
  off' = zlen fr + zlen tmp + 1 /\
  exists fr' v, (d = false -> v = r) /\ at_ (pre ++ fr' ++ tmp ++ [v]) m' (a + zlen ws) /\ frel hv (m_local m') fr' /\ zlen fr' = zlen fr.

Lemma sim_incdec E h m t root t1 root0 p z z' r : tk_type t1 = TK_IDENTIFIER -> spare lim h ->
  lookup (tk_str t1) (e_scopes E) = Some p -> read p m = Some z -> incdec (tk_type t) z z' r ->
  S_incdec E h m (ANode t root (ANode t1 root0 ANull ANull) ANull) r (write p z' m).
Proof.
  intros T0 Sp Lk Rd Inc d pre fr tmp hv a n' ws off' O Ec W Hh F H.
  unfold spare in Sp.
  cbn [expandp] in O. rewrite (incdec_is _ _ _ _ Inc) in O.
  destruct (expand_opt t t1 root0 d T0) as [Oe _]. rewrite Oe in O. injection O as <-.
  destruct (expand_code _ _ _ _ _ _ _ _ _ _ Ec Inc) as (ta & tp & wa & Ta & Bo & Ea & K).
  destruct (proj1 (assign_code _ _ _ _ _ _ _ _ _ _ _ Ea Ta) T0) as (w1 & o1 & p' & E1 & Lk' & -> & ->). clear Ea. rewrite Lk in Lk'. injection Lk' as <-.
  apply (sum_code _ _ _ _ (ANode t1 root0 ANull ANull) t _ _ z z') in E1; [|exact Bo]. destruct E1 as (w0 & op & E0 & P & ->).
  apply ecode_node in E0; [|rewrite T0; reflexivity]. destruct E0 as (w2 & o2 & w3 & o3 & w4 & (-> & ->) & (-> & ->) & Tl & ->).
  unfold tail_code in Tl. rewrite T0 in Tl. eqbs Tl. destruct Tl as (p' & Lk' & -> & ->). rewrite Lk in Lk'. injection Lk' as <-.
  split; [reflexivity|]. rewrite ?app_nil_l in *.
  assert (mem_words code a (((fetch_code p (zlen fr + zlen tmp)) ++ [OP_LIT_INT; u32 1; op]) ++ store_code p (zlen fr + zlen tmp + 1))) as Wa
    by (destruct K as [(-> & _)|(op2 & ty & -> & _)]; [exact W|apply (wapp _ _ _ W)]).
  destruct (wapp _ _ _ Wa) as [Wl Ws]. destruct (wapp _ _ _ Wl) as [Wf Wo]. clear Wl.
  assert (zlen (fetch_code p (zlen fr + zlen tmp)) = 3) as Lf by (destruct p; reflexivity). assert (forall o, zlen (store_code p o) = 3) as Ls by (intro; destruct p; reflexivity).
  rewrite Lf in Wo. rewrite zlen_app, Lf in Ws. change (zlen [OP_LIT_INT; u32 1; op]) with 3 in Ws.
  pose proof (i_get pre fr tmp a m p z hv _ H Rd F eq_refl ltac:(rewrite !zlen_app; lia) Wf) as H1. re H1 ((pre ++ fr ++ tmp) ++ [z]).
  pose proof (sim_plus _ _ _ _ _ _ _ H1 ltac:(rewrite !zlen_app; lia) Bo P Wo) as H2. re H2 (pre ++ fr ++ tmp ++ [z']).
  replace (a + (3 + 3)) with (a + 3 + 3) in Ws by lia.
  destruct (i_set pre fr tmp _ m p z' _ hv _ H2 Rd F ltac:(instantiate (1 := zlen fr + zlen tmp + 1); reflexivity) ltac:(rewrite !zlen_app; lia) Ws) as (fr4 & H4 & F4).
  re H4 ((pre ++ fr4 ++ tmp) ++ [z']). pose proof F4 as [L4 _]. pose proof F as [L _]. rewrite write_len in L4.
  destruct (after_expand (pre ++ fr4 ++ tmp) (write p z' m) a ws _ z' r d ltac:(rewrite !zlen_app; lia) K W) as (v & Ev & H5).
  - here H4. rewrite !zlen_app, Lf, Ls. change (zlen [OP_LIT_INT; u32 1; op]) with 3. lia.
  - exists fr4, v. split; [exact Ev|]. split; [here H5; reflexivity|]. split; [exact F4|lia].
Qed.

Lemma sim_incdec_field E h m t root t1 root0 a b o k l m1 m2 z z' r o' k' l' m3 m4 : tk_type t1 = TK_BRACKET_OPEN ->
  ev funs lim mf E h m a (VObj o) m1 -> S_ev E h m a (VObj o) m1 -> ev funs lim mf E (h + 1) m1 b k m2 -> S_ev E (h + 1) m1 b k m2 -> fields o m2 = Some l -> key_ok k -> oget k l = z ->
  incdec (tk_type t) z z' r ->
  S_ev E (h + 1) m2 a (VObj o') m3 -> S_ev E (h + 2) m3 b k' m4 -> fields o' m4 = Some l' -> key_ok k' ->
  fits mf k' z' l' ->
  S_incdec E h m (ANode t root (ANode t1 root0 a b) ANull) r (set_field o' k' z' l' m4).
Proof.
  intros T0 Va IHa Vb IHb Fi Ko Og Inc IHa2 IHb2 Fi2 Ko2 Ft d pre fr tmp hv ad n' ws off' O Ec W Hh F H.
  pose proof (ev_spare _ _ _ _ _ _ _ _ _ Va) as Sp. unfold spare in Sp.
  cbn [expandp] in O. rewrite (incdec_is _ _ _ _ Inc) in O.
  destruct (expand_field_opt t t1 root0 a b d n' T0 O) as (a' & b' & Oa & Ob & -> & _).
  destruct (expand_code _ _ _ _ _ _ _ _ _ _ Ec Inc) as (ta & tp & wa & Ta & Bo & Ea & K).
  destruct (proj2 (assign_code _ _ _ _ _ _ _ _ _ _ _ Ea Ta) T0) as (w1 & o1 & w2 & o2 & w3 & o3 & E1 & E2 & E3 & -> & ->). clear Ea.
  apply (sum_code _ _ _ _ (ANode t1 root0 a' b') t _ _ z z') in E1; [|exact Bo]. destruct E1 as (w0 & op & E0 & P & ->).
  assert (optimize (expandp a false) = Ok a') as Oa'.
  { rewrite (proj1 (code_plain a (proj1 (ev_leafy funs lim mf) _ _ _ _ _ _ Va)) _ _ _ _ _ Oa E2). exact Oa. }
  assert (optimize (expandp b false) = Ok b') as Ob'.
  { rewrite (proj1 (code_plain b (proj1 (ev_leafy funs lim mf) _ _ _ _ _ _ Vb)) _ _ _ _ _ Ob E3). exact Ob. }
  assert (optimize (expandp (ANode t1 root0 a b) false) = Ok (ANode t1 root0 a' b')) as Og'.
  { cbn [expandp]. rewrite T0, not_incdec by inlist. cbn [optimize bind]. rewrite Oa', Ob'. cbn [bind]. cbv zeta. rewrite T0. reflexivity. }
  assert (mem_words code ad ((w0 ++ [OP_LIT_INT; u32 1; op]) ++ w2 ++ w3 ++ [OP_FIELDSET])) as Wa
    by (destruct K as [(-> & _)|(op2 & ty & -> & _)]; [exact W|apply (wapp _ _ _ W)]).
  destruct (wapp _ _ _ Wa) as [Wl Ws]. destruct (wapp _ _ _ Wl) as [Wf Wo]. clear Wl.
  destruct (sim_field E h m t1 root0 a b o l k m1 m2 T0 IHa IHb Fi Ko pre fr tmp hv ad _ w0 o1 Og' E0 Wf Hh F H) as (-> & fr1 & H1 & F1 & L1).
  rewrite Og in H1. re H1 ((pre ++ fr1 ++ tmp) ++ [z]).
  pose proof (sim_plus _ _ _ _ _ _ _ H1 ltac:(rewrite !zlen_app; lia) Bo P Wo) as H2. re H2 (pre ++ fr1 ++ tmp ++ [z']).
  rewrite zlen_app in Ws. change (zlen [OP_LIT_INT; u32 1; op]) with 3 in Ws. rewrite Z.add_assoc in Ws. rewrite <- L1 in E2.
  destruct (sim_store E h m2 a b z' o' k' l' m3 m4 pre fr1 tmp hv _ _ _ _ _ _ _ IHa2 IHb2 Fi2 Ko2 Ft Oa' Ob' E2 E3 Ws ltac:(lia) F1 H2) as (-> & fr2 & H3 & F2 & L2).
  split; [lia|]. re H3 ((pre ++ fr2 ++ tmp) ++ [z']).
  destruct (after_expand (pre ++ fr2 ++ tmp) (set_field o' k' z' l' m4) ad ws _ z' r d ltac:(rewrite !zlen_app; lia) K W) as (v & Ev & H5).
  - here H3. rewrite !zlen_app. change (zlen [OP_LIT_INT; u32 1; op]) with 3. change (zlen [OP_FIELDSET]) with 1. lia.
  - exists fr2, v. split; [exact Ev|]. split; [here H5; reflexivity|]. split; [exact F2|lia].
Qed.

Lemma incdec_ev E h m n r m' : S_incdec E h m n r m' -> S_ev E h m n r m'.
Proof.
  intros S pre fr tmp hv a n' ws off' O Ec W Hh F H. destruct (S false pre fr tmp hv a n' ws off' O Ec W Hh F H) as (-> & fr' & v & Ev & K).
  rewrite (Ev eq_refl) in K. eauto.
Qed.

(** ** Statements *)

(** Inside a function with [n] parameters, called from [ip] when the operands
    below were [st]. *)
Definition inside (fa : option Z) (pre : list val) (hv : Z -> val) (ml : list (option val)) (st : list val) (ip : Z) : Prop :=
  match fa with
  | None => True
  | Some n => (exists fv, pre = st ++ [fv]) /\ hv n = VInt n /\ hv (n + 1) = VInt ip /\ u32 ip <> INVALID /\
      znth ml n = Some None /\ znth ml (n + 1) = Some None
  end.

Definition ends (lp : option (Z * Z)) (pre : list val) (hv : Z -> val) (st : list val) (ip bb : Z) (o : out) (m' : mem) : Prop :=
  match o with
  | Next => exists fr', at_ (pre ++ fr') m' bb /\ frel hv (m_local m') fr'
  | Broke => match lp with
             | None => False
             | Some (T, u) => exists fr', at_ (pre ++ fr') m' T /\ frel hv (firstn (Z.to_nat u) (m_local m')) fr'
             end
  | Returned v => at_ (st ++ [v]) m' (u32 ip + 1)
  end.

Definition lp_ok (lp : option (Z * Z)) (E : env) : Prop :=
  match lp with None => True | Some (T, u) => is_u32 T /\ 0 <= u <= e_used E end.

Definition S_ex (E : env) (b : Z) (m : mem) (s : stmt) (o : out) (m' : mem) : Prop :=
  forall pre fr hv fa lp st ip a bb E', scode code ga fa lp E s a bb E' -> 0 <= a <= zlen C ->
  e_scopes E <> [] -> zlen (m_local m) = e_used E -> zlen pre = b -> frel hv (m_local m) fr ->
  at_ (pre ++ fr) m a -> inside fa pre hv (m_local m) st ip -> lp_ok lp E ->
  (o = Next -> E' = after s E) /\ ends lp pre hv st ip bb o m'.

Definition S_exs (E : env) (b : Z) (m : mem) (l : stmts) (o : out) (m' : mem) : Prop :=
  forall pre fr hv fa lp st ip a bb E', sscode code ga fa lp E l a bb E' -> 0 <= a <= zlen C ->
  e_scopes E <> [] -> zlen (m_local m) = e_used E -> zlen pre = b -> frel hv (m_local m) fr ->
  at_ (pre ++ fr) m a -> inside fa pre hv (m_local m) st ip -> lp_ok lp E ->
  (o = Next -> zlen (m_local m') = e_used E' /\ base E' = base E /\ spare lim (b + zlen (m_local m'))) /\
  ends lp pre hv st ip bb o m'.

Definition olits (i : option expr) : list (list token * token) := match i with None => [] | Some i => lits i end.
(** The code of a loop from its condition at [a]; [x]: where it goes when the
    condition fails. *)
Definition lcode (fa : option Z) (brk : Z * Z) (E : env) (e : expr) (s : stmt) (i : option expr) (a x : Z) : Prop :=
  exists b1 u b1' b2 E1 b3, xcode code ga false E e a b1 u /\ mem_words code b1 (jump_words OP_JZ b1 x) /\
    skips code ga (olits i) (b1 + 3) b1' /\ (forall ts t, In (ts, t) (olits i) -> usable funs (number t)) /\
    scode code ga fa (Some brk) (enter_scope (used_at E (u - 1))) s b1' b2 E1 /\
    mem_words code b2 (pop_words (locals_of E1)) /\ b3 = b2 + zlen (pop_words (locals_of E1)) /\
    match i with
    | None => mem_words code b3 (jump_words OP_JUMP b3 a)
    | Some i => exists b5 u2, pcode code true (used_at E (u - 1)) i b3 b5 u2 /\ mem_words code b5 (OP_POP :: jump_words OP_JUMP (b5 + 1) a)
    end.

Definition S_loops (E : env) (b : Z) (m : mem) (e : expr) (s : stmt) (i : option expr) (o : out) (m' : mem) : Prop :=
  forall pre fr hv fa T u st ip a x, lcode fa (T, u) E e s i a x -> 0 <= a <= zlen C -> is_u32 x ->
  e_scopes E <> [] -> zlen (m_local m) = e_used E -> zlen pre = b -> frel hv (m_local m) fr ->
  at_ (pre ++ fr) m a -> inside fa pre hv (m_local m) st ip -> lp_ok (Some (T, u)) E ->
  match o with
  | Next => (exists fr', at_ (pre ++ fr') m' x /\ frel hv (m_local m') fr' /\ zlen (m_local m') = e_used E /\ spare lim (b + zlen (m_local m'))) \/
            (exists fr', at_ (pre ++ fr') m' T /\ frel hv (firstn (Z.to_nat u) (m_local m')) fr')
  | Broke => False
  | Returned v => at_ (st ++ [v]) m' (u32 ip + 1)
  end.

Lemma inside_grows fa pre hv ml ml' st ip k : inside fa pre hv ml st ip -> zlen ml <= k -> hidden k ml ml' -> inside fa pre hv ml' st ip.
Proof.
  destruct fa as [n|]; [|auto]. intros (A & B & D & F & G & H) L K. pose proof (znth_some_range _ _ _ G). pose proof (znth_some_range _ _ _ H).
  do 4 (split; [assumption|]). split; apply K; auto; lia.
Qed.

Lemma used_at_same E u : u = e_used E -> used_at E u = E.
Proof. intros ->. destruct E; reflexivity. Qed.

Lemma frel_first hv ml fr n : frel hv ml fr -> 0 <= n <= zlen ml -> frel hv (firstn (Z.to_nat n) ml) (firstn (Z.to_nat n) fr).
Proof.
  intros [L F] N. split; [rewrite !zlen_first by lia; reflexivity|]. intros i o E.
  destruct (znth_first_inv _ _ _ _ (proj1 N) E) as [Li E']. destruct (F _ _ E') as (x & X & R). exists x. rewrite znth_first by lia. auto.
Qed.

Lemma split_at {A} (l : list A) n : 0 <= n <= zlen l -> exists d, l = firstn (Z.to_nat n) l ++ d /\ zlen d = zlen l - n.
Proof. intro H. exists (skipn (Z.to_nat n) l). rewrite firstn_skipn. split; [reflexivity|]. unfold zlen in *. rewrite skipn_length. lia. Qed.

(** Dropping values, for any code that does it. *)
Lemma sim_close m pre fr hv ml b k d : at_ (pre ++ fr) m b -> frel hv ml fr -> 0 <= k <= zlen ml -> d = zlen ml - k ->
  (d <> 0 -> zlen pre + zlen ml + 1 <= lim) -> mem_words code b (pop_words d) ->
  exists fr', at_ (pre ++ fr') m (b + zlen (pop_words d)) /\ frel hv (firstn (Z.to_nat k) ml) fr'.
Proof.
  intros H F K Ed B W. pose proof F as [L _]. destruct (split_at fr k ltac:(lia)) as (dr & Ef & Ld).
  assert (zlen dr = d) as Zd by lia. rewrite <- Zd in W. rewrite Ef, app_assoc in H.
  exists (firstn (Z.to_nat k) fr). rewrite <- Zd. split; [|apply frel_first; assumption].
  apply (i_close (pre ++ firstn (Z.to_nat k) fr) m b dr H); [|exact W].
  intro N. rewrite <- app_assoc, <- Ef, zlen_app. lia.
Qed.

Lemma sim_p E b m e v m1 pre fr hv a b1 u : S_ev E (b + zlen (m_local m)) m (tree e) v m1 -> pcode code false E e a b1 u ->
  zlen (m_local m) = e_used E -> zlen pre = b -> frel hv (m_local m) fr -> at_ (pre ++ fr) m a ->
  u - 1 = e_used E /\ exists fr', at_ ((pre ++ fr') ++ [v]) m1 b1 /\ frel hv (m_local m1) fr'.
Proof.
  intros IH (n & ws & O & Ec & W & ->) L Lp F H. pose proof F as [Lf _].
  assert (zlen fr + zlen (@nil val) = e_used E) as Z by (change (zlen (@nil val)) with 0; lia).
  rewrite <- Z in Ec. destruct (IH pre fr [] hv a n ws u O Ec W) as (-> & fr' & H' & F' & L').
  - change (zlen (@nil val)) with 0. lia.
  - exact F.
  - rewrite app_nil_r. exact H.
  - split; [lia|]. exists fr'. split; [here H'; reflexivity|exact F'].
Qed.

(** Jumping over the bodies of functions written in an expression. *)
Lemma sim_skips l a c : skips code ga l a c -> forall L m, (forall ts t, In (ts, t) l -> usable funs (number t)) -> zlen L + 1 <= lim ->
  at_ L m a -> at_ L m c.
Proof.
  induction 1 as [a|ts t l a b b1 c fd Hf W B Hw Hd _ IH]; intros L m U Rm H; [exact H|].
  destruct (U ts t (or_introl eq_refl)) as (fd' & Hf' & D). cbn [g_funs] in Hf. rewrite Hf' in Hf. injection Hf as ->. specialize (Hd D). subst b1.
  apply IH; [intros; eapply U; right; eassumption|exact Rm|]. apply (i_goto _ _ _ _ H Rm W).
  destruct Hw as [w Hw]. apply znth_some_range in Hw. apply C_u32. lia.
Qed.
Lemma sim_start E b m e v m1 pre fr hv d a b1 u : ev funs lim mf E (b + zlen (m_local m)) m (tree e) v m1 -> xcode code ga d E e a b1 u ->
  zlen pre = b -> frel hv (m_local m) fr -> at_ (pre ++ fr) m a -> exists a1, pcode code d E e a1 b1 u /\ at_ (pre ++ fr) m a1.
Proof.
  intros V (N & a1 & S & P) Lp [Lf _] H. exists a1. split; [exact P|].
  pose proof (ev_spare _ _ _ _ _ _ _ _ _ V) as Sp. unfold spare in Sp.
  apply (sim_skips _ _ _ S); [|rewrite zlen_app; lia|exact H].
  intros ts t I. exact (proj1 (ev_flits funs lim mf) _ _ _ _ _ _ V _ (proj1 lits_flits _ N _ _ I)).
Qed.
Lemma sim_x E b m e v m1 pre fr hv a b1 u : ev funs lim mf E (b + zlen (m_local m)) m (tree e) v m1 ->
  S_ev E (b + zlen (m_local m)) m (tree e) v m1 -> xcode code ga false E e a b1 u ->
  zlen (m_local m) = e_used E -> zlen pre = b -> frel hv (m_local m) fr -> at_ (pre ++ fr) m a ->
  u - 1 = e_used E /\ exists fr', at_ ((pre ++ fr') ++ [v]) m1 b1 /\ frel hv (m_local m1) fr'.
Proof.
  intros V IH X L Lp F H. destruct (sim_start _ _ _ _ _ _ _ _ _ _ _ _ _ V X Lp F H) as (a1 & P & H1). eapply sim_p; eauto.
Qed.

(** An expression whose value is dropped. *)
Lemma sim_drop_p E b m e v m1 pre fr hv a b1 u : ev funs lim mf E (b + zlen (m_local m)) m (tree e) v m1 ->
  S_ev E (b + zlen (m_local m)) m (tree e) v m1 /\
    (forall t r c0 c1, tree e = ANode t r c0 c1 -> is_incdec (tk_type t) = true -> S_incdec E (b + zlen (m_local m)) m (tree e) v m1) ->
  pcode code true E e a b1 u ->
  zlen (m_local m) = e_used E -> zlen pre = b -> frel hv (m_local m) fr -> at_ (pre ++ fr) m a ->
  mem_words code b1 [OP_POP] ->
  u - 1 = e_used E /\ exists fr', at_ (pre ++ fr') m1 (b1 + 1) /\ frel hv (m_local m1) fr'.
Proof.
  intros V [IH IHi] X L Lp F H P. pose proof F as [Lf _].
  assert (u - 1 = e_used E /\ exists fr' v', at_ ((pre ++ fr') ++ [v']) m1 b1 /\ frel hv (m_local m1) fr') as (Eu & fr1 & v1 & H1 & F1).
  { destruct (tree e) as [|tk root c0 c1] eqn:Et; [inversion V|]. destruct (is_incdec (tk_type tk)) eqn:Inc.
    - destruct X as (n & ws & O & Ec & W & ->). rewrite Et in O. specialize (IHi _ _ _ _ eq_refl Inc).
      assert (zlen fr + zlen (@nil val) = e_used E) as Z by (change (zlen (@nil val)) with 0; lia). rewrite <- Z in Ec.
      destruct (IHi true pre fr [] hv a n ws u O Ec W) as (-> & fr' & v' & _ & H' & F' & L').
      + change (zlen (@nil val)) with 0. lia.
      + exact F.
      + rewrite app_nil_r. exact H.
      + split; [lia|]. exists fr', v'. split; [here H'; reflexivity|exact F'].
    - rewrite <- Et in IH. assert (pcode code false E e a b1 u) as X'.
      { destruct X as (n & ws & O & K). exists n, ws. split; [|exact K]. rewrite Et in O |- *. cbn [expandp] in O |- *. rewrite Inc in O |- *. exact O. }
      destruct (sim_p _ _ _ _ _ _ _ _ _ _ _ _ IH X' L Lp F H) as (Eu & fr' & K). split; [exact Eu|]. exists fr', v. exact K. }
  split; [exact Eu|]. exists fr1. split; [exact (i_pop _ _ _ _ H1 P)|exact F1].
Qed.
Lemma sim_drop E b m e v m1 pre fr hv a b1 u : ev funs lim mf E (b + zlen (m_local m)) m (tree e) v m1 ->
  S_ev E (b + zlen (m_local m)) m (tree e) v m1 /\
    (forall t r c0 c1, tree e = ANode t r c0 c1 -> is_incdec (tk_type t) = true -> S_incdec E (b + zlen (m_local m)) m (tree e) v m1) ->
  xcode code ga true E e a b1 u ->
  zlen (m_local m) = e_used E -> zlen pre = b -> frel hv (m_local m) fr -> at_ (pre ++ fr) m a ->
  mem_words code b1 [OP_POP] ->
  u - 1 = e_used E /\ exists fr', at_ (pre ++ fr') m1 (b1 + 1) /\ frel hv (m_local m1) fr'.
Proof.
  intros V IH X L Lp F H P. destruct (sim_start _ _ _ _ _ _ _ _ _ _ _ _ _ V X Lp F H) as (a1 & Pc & H1). eapply sim_drop_p; eauto.
Qed.

(** A value becomes a variable. *)
Lemma sim_decl E m v pre fr hv a : at_ ((pre ++ fr) ++ [v]) m a -> frel hv (m_local m) fr ->
  e_scopes E <> [] -> decl_ok ga E -> zlen pre + zlen fr + 2 <= lim -> mem_words code a (decl_words E) ->
  exists fr', at_ (pre ++ fr') (decl E v m) (a + zlen (decl_words E)) /\ frel hv (m_local (decl E v m)) fr'.
Proof.
  intros H F Ne Ok B W. unfold decl_words, decl_ok, decl in *. destruct (e_scopes E) as [|g [|g' r]]; [contradiction| |].
  - cbn [g_n] in Ok. destruct (wapp a [OP_LIT_INT; u32 (e_globals E); OP_STATICPOKE] [OP_POP] W) as [W1 W2].
    pose proof (i_setg _ _ a v (e_globals E) H) as H1. pose proof (i_ng C FT lim ng mf t0 Start) as Ng.
    specialize (H1 ltac:(lia) ltac:(rewrite !zlen_app, zlen_cons, zlen_nil; lia) W1).
    change (zlen [OP_LIT_INT; u32 (e_globals E); OP_STATICPOKE]) with 3 in W2.
    pose proof (i_pop _ _ _ _ H1 W2) as H2. exists fr. split; [|exact F]. here H2. rewrite !zlen_cons, zlen_nil. lia.
  - exists (fr ++ [v]). change (zlen (@nil Z)) with 0. rewrite Z.add_0_r.
    split; [apply (at_mem _ m); [here H; reflexivity|reflexivity|reflexivity]|].
    destruct F as [L F]. cbn [push_local m_local]. split; [rewrite !zlen_app, L; reflexivity|]. intros i o Ei.
    destruct (Z.lt_ge_cases i (zlen (m_local m))) as [Lt|Ge].
    + rewrite znth_app_l in Ei by exact Lt. destruct (F _ _ Ei) as (y & Y & P). exists y. rewrite znth_app_l by lia. auto.
    + rewrite znth_app_r in Ei by exact Ge. pose proof (znth_some_range _ _ _ Ei) as Rg. change (zlen [Some v]) with 1 in Rg.
      replace (i - zlen (m_local m)) with 0 in Ei by lia. injection Ei as <-. exists v. split; [|reflexivity].
      rewrite znth_app_r by lia. replace (i - zlen fr) with 0 by lia. reflexivity.
Qed.

Lemma split_pair {A} (l : list A) n x y : znth l n = Some x -> znth l (n + 1) = Some y -> exists a b, l = a ++ x :: y :: b /\ zlen a = n.
Proof.
  intros X Y. pose proof (znth_some_range _ _ _ X). pose proof (znth_some_range _ _ _ Y).
  destruct (split_at l n ltac:(lia)) as (d & El & Ld). pose proof (zlen_first l n ltac:(lia)) as Lf.
  rewrite El in X, Y. rewrite znth_app_r in X, Y by lia. rewrite Lf in X, Y.
  replace (n - n) with 0 in X by lia. replace (n + 1 - n) with 1 in Y by lia.
  destruct d as [|x' [|y' b]]; [discriminate|discriminate|]. change (Some x' = Some x) in X. rewrite znth_def in Y. change (Some y' = Some y) in Y. injection X as ->. injection Y as ->.
  exists (firstn (Z.to_nat n) l), b. auto.
Qed.

Lemma sim_return n m pre fr v a hv ml st ip : at_ ((pre ++ fr) ++ [v]) m a -> inside (Some n) pre hv ml st ip -> frel hv ml fr ->
  zlen pre + zlen fr + 2 <= lim -> mem_words code a [OP_LIT_INT; u32 (zlen ml + 1 - n - 3); OP_RETURN] ->
  at_ (st ++ [v]) m (u32 ip + 1).
Proof.
  intros H ((fv & ->) & Hn & Hi & Ip & Z1 & Z2) [L F] B W.
  destruct (F _ _ Z1) as (y1 & Y1 & Q1). destruct (F _ _ Z2) as (y2 & Y2 & Q2). cbn in Q1, Q2. rewrite Hn in Q1. rewrite Hi in Q2. subst y1 y2.
  destruct (split_pair _ _ _ _ Y1 Y2) as (args & locals & -> & La).
  destruct (wapp a [OP_LIT_INT; u32 (zlen ml + 1 - n - 3)] [OP_RETURN] W) as [W1 W2].
  pose proof (zlen_nonneg st) as Ns. pose proof (zlen_nonneg locals) as Nl.
  assert (zlen locals = zlen ml + 1 - n - 3) as Ll by (rewrite <- L, zlen_app, !zlen_cons; lia).
  pose proof (i_int _ m a (zlen ml + 1 - n - 3) H) as H1.
  specialize (H1 ltac:(rewrite !zlen_app, !zlen_cons, !zlen_nil; rewrite !zlen_app, !zlen_cons, !zlen_nil in B; lia) W1).
  assert (is_s32 (zlen ml + 1 - n - 3)) as S.
  { rewrite !zlen_app, !zlen_cons, !zlen_nil in B. unfold is_s32, W31. pose proof (zlen_nonneg args). lia. }
  specialize (H1 S). rewrite <- Ll in H1.
  change (zlen [OP_LIT_INT; u32 (zlen ml + 1 - n - 3)]) with 2 in W2. rewrite <- La in H1.
  re H1 (st ++ fv :: args ++ [VInt (zlen args); VInt ip] ++ locals ++ [v; VInt (zlen locals)]).
  exact (i_return st m fv args ip locals v (a + 2) H1 Ip W2).
Qed.

Lemma ex_room E b m s m' : ex funs lim mf E b m s Next m' -> declares s = true -> e_scopes E <> [] ->
  zlen (m_local m') <= zlen (m_local m) + 1 /\ spare lim (b + zlen (m_local m)).
Proof.
  intros X D Ne. destruct s; try discriminate D; inversion X; subst.
  - split; [|assumption]. rewrite decl_len by exact Ne. destruct (e_scopes E) as [|? [|? ?]]; lia.
  - split; [|assumption]. rewrite decl_len by exact Ne.
    match goal with V : ev _ _ _ _ _ _ _ _ _ |- _ => apply (proj1 (frames funs lim mf)) in V; destruct V as [V _]; rewrite V end.
    destruct (e_scopes E) as [|? [|? ?]]; lia.
  - split; [|assumption]. rewrite decl_len by exact Ne. destruct (e_scopes E) as [|? [|? ?]]; lia.
Qed.

(** A statement in a scope of its own. *)
Lemma sim_scoped E b m s o m' pre fr hv fa lp st ip a b2 E1 : ex funs lim mf (enter_scope E) b m s o m' -> S_ex (enter_scope E) b m s o m' ->
  scode code ga fa lp (enter_scope E) s a b2 E1 -> mem_words code b2 (pop_words (locals_of E1)) -> 0 <= a <= zlen C ->
  zlen (m_local m) = e_used E -> zlen pre = b -> frel hv (m_local m) fr ->
  at_ (pre ++ fr) m a -> inside fa pre hv (m_local m) st ip -> lp_ok lp E ->
  ends lp pre hv st ip (b2 + zlen (pop_words (locals_of E1))) o (leave E o m').
Proof.
  intros X IH Sc Pw R L Lp F H In Lo.
  destruct (IH pre fr hv fa lp st ip a b2 E1 Sc R (enter_ne E) L Lp F H In Lo) as [En K].
  destruct o as [| |v]; cbn [leave]; [|exact K|exact K].
  specialize (En eq_refl). subst E1. destruct K as (fr1 & H1 & F1).
  destruct (proj1 (proj2 (proj2 (frames funs lim mf))) _ _ _ _ _ _ X (enter_ne E) L) as [[Gl Gh] Z]. specialize (Z eq_refl).
  pose proof (after_base s (enter_scope E) (enter_ne E)) as Bs. rewrite base_enter in Bs. unfold base in Bs.
  change (e_used (enter_scope E)) with (e_used E) in *. pose proof (zlen_nonneg (m_local m)).
  destruct (sim_close m' pre fr1 hv (m_local m') b2 (e_used E) (locals_of (after s (enter_scope E))) H1 F1) as (fr2 & H2 & F2).
  - lia.
  - lia.
  - intro N. assert (declares s = true) as D.
    { destruct (declares s) eqn:D; [reflexivity|]. rewrite (after_plain s _ D) in N. contradiction N. reflexivity. }
    destruct (ex_room _ _ _ _ _ X D (enter_ne E)) as [Q1 Q2]. unfold spare in Q2. lia.
  - exact Pw.
  - exists fr2. split; [exact (at_mem _ _ (keep (e_used E) m') _ H2 eq_refl eq_refl)|exact F2].
Qed.

(** ** Calls *)

Lemma frame_start vs ip :
  frel (fun i => if i =? zlen vs then VInt (zlen vs) else VInt ip) (map Some vs ++ [None; None]) (vs ++ [VInt (zlen vs); VInt ip]).
Proof.
  assert (zlen (map Some vs) = zlen vs) as Lm by (unfold zlen; rewrite map_length; reflexivity).
  split; [rewrite !zlen_app, Lm; reflexivity|]. intros i o Ei.
  pose proof (znth_some_range _ _ _ Ei) as Rg. rewrite zlen_app, Lm in Rg. change (zlen [None; None]) with 2 in Rg.
  destruct (Z.lt_ge_cases i (zlen vs)) as [Lt|Ge].
  - rewrite znth_app_l in Ei by lia. rewrite znth_app_l by lia. setoid_rewrite znth_def. rewrite znth_def in Ei. destruct (i <? 0); [discriminate|].
    rewrite nth_error_map in Ei. destruct (nth_error vs (Z.to_nat i)) as [x|]; [|discriminate]. injection Ei as <-. exists x. auto.
  - rewrite znth_app_r in Ei by lia. rewrite znth_app_r by lia. rewrite Lm in Ei. assert (i = zlen vs \/ i = zlen vs + 1) as [-> | ->] by lia.
    + replace (zlen vs - zlen vs) with 0 in * by lia. injection Ei as <-. exists (VInt (zlen vs)). split; [reflexivity|]. rewrite Z.eqb_refl. reflexivity.
    + replace (zlen vs + 1 - zlen vs) with 1 in * by lia. change (Some (@None val) = Some o) in Ei. injection Ei as <-. exists (VInt ip). split; [reflexivity|].
      replace (zlen vs + 1 =? zlen vs) with false by (symmetry; apply Z.eqb_neq; lia). reflexivity.
Qed.

(** From the beginning of a function to the instruction after the call. *)
Lemma sim_inside L id vs m2 ip h fd fn o m3 v : at_ (L ++ VFun id :: vs ++ [VInt (zlen vs); VInt ip]) m2 (f_first fn) -> u32 ip <> INVALID ->
  znth FT id = Some fn ->
  zlen L = h -> h + zlen vs + 3 <= lim -> funs id = Some fd -> zlen (fd_params fd) = zlen vs ->
  ex funs lim mf (fun_env fd) (h + 1) (set_locals (map Some vs ++ [None; None]) m2) (fd_body fd) o m3 ->
  S_ex (fun_env fd) (h + 1) (set_locals (map Some vs ++ [None; None]) m2) (fd_body fd) o m3 ->
  (o = Next /\ v = VInt 0 /\ spare lim (h + 1 + zlen (m_local m3)) \/ o = Returned v) ->
  at_ (L ++ [v]) m3 (u32 ip + 1).
Proof.
  intros H4 Ip Fi0 Lst Sp Fn Np X IHx Out. set (n := zlen vs) in *.
  destruct (Table _ _ Fn) as (fn' & Fi & Fx & Fa & Fr & Fc). rewrite Fi0 in Fi. injection Fi as <-.
  pose proof (frame_start vs ip) as Fs. fold n in Fs.
  set (hv' := fun i => if i =? n then VInt n else VInt ip) in *.
  destruct Fc as (bb & E' & Sc & Wr). rewrite Np in Sc, Wr. set (fv := VFun id) in *.
  re H4 ((L ++ [fv]) ++ (vs ++ [VInt n; VInt ip])).
  assert (zlen (map Some vs) = n) as Lm by (unfold n, zlen; rewrite map_length; reflexivity).
  assert (zlen (map Some vs ++ [@None val; None]) = n + 2) as Lml by (rewrite zlen_app; unfold n, zlen; rewrite map_length; reflexivity).
  assert (e_used (fun_env fd) = n + 2) as Lu by (unfold fun_env; cbn [e_used]; lia).
  assert (inside (Some n) (L ++ [fv]) hv' (map Some vs ++ [None; None]) L ip) as Ins.
  { split; [eexists; reflexivity|]. unfold hv'. rewrite Z.eqb_refl. replace (n + 1 =? n) with false by (symmetry; apply Z.eqb_neq; lia).
    split; [reflexivity|]. split; [reflexivity|]. split; [exact Ip|].
    split; (rewrite znth_app_r by lia; rewrite Lm).
    + replace (n - n) with 0 by lia. reflexivity.
    + replace (n + 1 - n) with 1 by lia. reflexivity. }
  destruct (IHx (L ++ [fv]) (vs ++ [VInt n; VInt ip]) hv' (Some n) None L ip (f_first fn) bb E' Sc Fr) as [En K].
  - discriminate.
  - cbn [set_locals m_local]. lia.
  - rewrite zlen_app, zlen_cons, zlen_nil. lia.
  - exact Fs.
  - exact (at_mem _ _ (set_locals (map Some vs ++ [None; None]) m2) _ H4 eq_refl eq_refl).
  - exact Ins.
  - exact I.
  - destruct Out as [(-> & -> & Sp3)| ->]; [|exact K].
    specialize (En eq_refl). subst E'. destruct K as (frb & Hb & Fb).
    destruct (proj1 (proj2 (proj2 (frames funs lim mf))) _ _ _ _ _ _ X ltac:(discriminate)) as [Gr Z]; [cbn [set_locals m_local]; lia|]. specialize (Z eq_refl).
    unfold spare in Sp3. pose proof Fb as [Lb _].
    destruct (wapp _ [OP_LIT_INT; u32 0] [OP_LIT_INT; u32 (e_used (after (fd_body fd) (fun_env fd)) + 1 - n - 3); OP_RETURN] Wr) as [Wz Wq].
    pose proof (i_int _ _ _ 0 Hb ltac:(rewrite !zlen_app; change (zlen [fv]) with 1; lia) Wz ltac:(unfold is_s32, W31; lia)) as H7.
    change (zlen [OP_LIT_INT; u32 0]) with 2 in Wq. rewrite <- Z in Wq.
    apply (sim_return n m3 (L ++ [fv]) frb (VInt 0) (bb + 2) hv' (m_local m3) L ip H7).
    + eapply inside_grows; [exact Ins|instantiate (1 := n + 2); lia|]. destruct Gr as [_ Gr]. rewrite Lu in Gr. exact Gr.
    + exact Fb.
    + rewrite zlen_app. change (zlen [fv]) with 1. lia.
    + exact Wq.
Qed.

(** From the call instruction to the instruction after it. *)
Lemma sim_enter L id vs m2 ip h fd o m3 v : at_ (L ++ VFun id :: vs ++ [VInt (zlen vs)]) m2 ip -> mem_words code ip [OP_CALL] ->
  zlen L = h -> h + zlen vs + 3 <= lim -> funs id = Some fd -> zlen (fd_params fd) = zlen vs ->
  ex funs lim mf (fun_env fd) (h + 1) (set_locals (map Some vs ++ [None; None]) m2) (fd_body fd) o m3 ->
  S_ex (fun_env fd) (h + 1) (set_locals (map Some vs ++ [None; None]) m2) (fd_body fd) o m3 ->
  (o = Next /\ v = VInt 0 /\ spare lim (h + 1 + zlen (m_local m3)) \/ o = Returned v) ->
  at_ (L ++ [v]) m3 (ip + 1).
Proof.
  intros H Wc Lst Sp Fn Np X IHx Out. destruct (Table _ _ Fn) as (fn & Fi & Fx & Fa & Fr & _).
  pose proof (i_call L m2 id vs fn ip H Fi Fx ltac:(lia) (C_u32 _ Fr) ltac:(lia) Wc) as H4.
  assert (0 <= ip < zlen C) as Ip by (destruct (wcons _ _ _ Wc) as [Wc1 _]; apply znth_some_range in Wc1; exact Wc1).
  assert (u32 ip = ip) as Ui by (apply u32_id, C_u32; lia).
  replace (ip + 1) with (u32 ip + 1) by lia. eapply sim_inside; eauto. rewrite Ui. pose proof (C_u32 (zlen C) ltac:(lia)) as Uc. unfold is_u32, INVALID, W32 in *. lia.
Qed.

(** A call, given what entering the function leads to. *)
Lemma sim_call_gen E h m t f args id vs m1 m2 m3 v : tk_type t = TK_PAREN_OPEN -> S_ev E h m f (VFun id) m1 -> S_evs E (h + 1) m1 args vs m2 ->
  spare lim (h + zlen vs) ->
  (forall L ip, at_ (L ++ VFun id :: vs ++ [VInt (zlen vs)]) m2 ip -> mem_words code ip [OP_CALL] -> zlen L = h -> h + zlen vs + 3 <= lim -> at_ (L ++ [v]) m3 (ip + 1)) ->
  S_ev E h m (ANode t true f args) v (set_locals (m_local m2) m3).
Proof.
  intros T IH IH2 Sp Enter pre fr tmp hv ad n' ws off' O Ec W Hh F H.
  cbn [expandp] in O. rewrite T, not_incdec in O by inlist.
  apply opt_node in O. destruct O as (_ & d0 & d1 & O0 & O1 & [->|(I & _)]); [|rewrite T in I; discriminate I].
  apply ecode_node in Ec; [|rewrite T; reflexivity]. destruct Ec as (w0 & o0 & w1 & o1 & w2 & E0 & E1 & Tl & ->).
  unfold tail_code in Tl. rewrite T in Tl. eqbs Tl. destruct Tl as (-> & ->).
  destruct (wapp _ _ _ W) as [W0 W']. destruct (wapp _ _ _ W') as [W1 W2]. clear W'.
  destruct (IH pre fr tmp hv ad d0 w0 o0 O0 E0 W0 Hh F H) as (-> & fr1 & H1 & F1 & L1).
  pose proof (snoc_len tmp (VFun id)) as Lt.
  replace (zlen fr + zlen tmp + 1) with (zlen fr1 + zlen (tmp ++ [VFun id])) in E1 by lia.
  destruct (IH2 pre fr1 (tmp ++ [VFun id]) hv _ d1 w1 o1 O1 E1 W1 ltac:(lia) F1 H1) as (-> & Cl & fr2 & H2 & F2 & L2).
  rewrite Cl in *. split; [lia|].
  destruct (wapp _ [OP_LIT_INT; u32 (zlen vs)] [OP_CALL] W2) as [Wl Wc]. change (zlen [OP_LIT_INT; u32 (zlen vs)]) with 2 in Wc.
  unfold spare in Sp. pose proof (zlen_nonneg vs) as Nv. pose proof (zlen_nonneg pre) as Np1. pose proof (zlen_nonneg fr) as Np2. pose proof (zlen_nonneg tmp) as Np3.
  pose proof (i_int _ _ _ (zlen vs) H2 ltac:(rewrite !zlen_app; change (zlen [VFun id]) with 1; lia) Wl ltac:(unfold is_s32, W31; lia)) as H3.
  re H3 ((pre ++ fr2 ++ tmp) ++ VFun id :: vs ++ [VInt (zlen vs)]).
  pose proof (Enter _ _ H3 Wc ltac:(rewrite !zlen_app; lia) ltac:(lia)) as H5.
  exists fr2. split; [|split; [exact F2|lia]]. apply (at_mem _ m3); [|reflexivity|reflexivity].
  here H5. rewrite !zlen_app. change (zlen [OP_LIT_INT; u32 (zlen vs); OP_CALL]) with 3. lia.
Qed.

Lemma sim_call E h m t f args id fd vs m1 m2 o m3 v : tk_type t = TK_PAREN_OPEN -> S_ev E h m f (VFun id) m1 -> S_evs E (h + 1) m1 args vs m2 ->
  spare lim (h + zlen vs) -> funs id = Some fd -> zlen (fd_params fd) = zlen vs ->
  ex funs lim mf (fun_env fd) (h + 1) (set_locals (map Some vs ++ [None; None]) m2) (fd_body fd) o m3 ->
  S_ex (fun_env fd) (h + 1) (set_locals (map Some vs ++ [None; None]) m2) (fd_body fd) o m3 ->
  (o = Next /\ v = VInt 0 /\ spare lim (h + 1 + zlen (m_local m3)) \/ o = Returned v) ->
  S_ev E h m (ANode t true f args) v (set_locals (m_local m2) m3).
Proof.
  intros T IH IH2 Sp Fn Np X IHx Out. eapply sim_call_gen; try eassumption. intros L ip H Wc Lh B. exact (sim_enter _ _ _ _ _ h fd o m3 v H Wc Lh B Fn Np X IHx Out).
Qed.
Lemma sim_host E h m t f args id vs m1 m2 v m3 : tk_type t = TK_PAREN_OPEN -> S_ev E h m f (VFun id) m1 -> S_evs E (h + 1) m1 args vs m2 ->
  spare lim (h + zlen vs) -> hosts id vs m2 v m3 ->
  S_ev E h m (ANode t true f args) v (set_locals (m_local m2) m3).
Proof.
  intros T IH IH2 Sp Hs. eapply sim_call_gen; try eassumption. intros L ip H Wc Lh B. eapply i_native; eauto. lia.
Qed.

Lemma sim_method_gen E h m t root0 ti rooti a tn rootn args ob l id vs m1 m2 m3 v : tk_type t = TK_CALL_SELF ->
  tk_type ti = TK_INDEX_NOPOP -> tk_type tn = TK_STRING -> root0 = true ->
  S_ev E h m a (VObj ob) m1 -> spare lim (h + 1) -> fields ob m1 = Some l -> oget (VStr (tk_str tn)) l = VFun id ->
  S_evs E (h + 2) m1 args vs m2 -> spare lim (h + 1 + zlen vs) ->
  (forall L ip, at_ (L ++ VFun id :: (VObj ob :: vs) ++ [VInt (zlen (VObj ob :: vs))]) m2 ip -> mem_words code ip [OP_CALL] -> zlen L = h -> h + zlen (VObj ob :: vs) + 3 <= lim -> at_ (L ++ [v]) m3 (ip + 1)) ->
  S_ev E h m (ANode t root0 (ANode ti rooti a (ANode tn rootn ANull ANull)) args) v (set_locals (m_local m2) m3).
Proof.
  intros T Ti Tn -> IH Sp1 Fi Og IH2 Sp Enter pre fr tmp hv ad n' ws off' O Ec W Hh F H.
  cbn [expandp] in O. rewrite T, not_incdec in O by inlist. rewrite Ti, not_incdec in O by inlist. rewrite Tn, not_incdec in O by inlist.
  apply opt_node in O. destruct O as (_ & d0 & d1 & O0 & O1 & [->|(I & _)]); [|rewrite T in I; discriminate I].
  apply opt_node in O0. destruct O0 as (_ & e0 & e1 & P0 & P1 & [->|(I & _)]); [|rewrite Ti in I; discriminate I].
  apply opt_node in P1. destruct P1 as (_ & g0 & g1 & Q0 & Q1 & [->|(I & _)]); [|rewrite Tn in I; discriminate I].
  injection Q0 as <-. injection Q1 as <-.
  apply ecode_node in Ec; [|rewrite T; reflexivity]. destruct Ec as (w0 & o0 & w1 & o1 & w2 & E0 & E1 & Tl & ->).
  unfold tail_code in Tl. rewrite T in Tl. eqbs Tl. destruct Tl as (-> & ->).
  apply ecode_node in E0; [|rewrite Ti; reflexivity]. destruct E0 as (wa & oa & wb & ob' & wc & Ea & Eb & Tl & ->).
  unfold tail_code in Tl. rewrite Ti in Tl. eqbs Tl. destruct Tl as (op & P & -> & ->). injection P as <-.
  apply ecode_node in Eb; [|rewrite Tn; reflexivity]. destruct Eb as (wx & ox & wy & oy & wz & (-> & ->) & (-> & ->) & Tl & ->).
  unfold tail_code in Tl. rewrite Tn in Tl. eqbs Tl. destruct Tl as (i & Li & -> & ->). rewrite ?app_nil_l in *.
  destruct (wapp _ _ _ W) as [W0 W']. destruct (wapp _ _ _ W') as [W1 W2]. clear W'.
  destruct (wapp _ _ _ W0) as [Wa W']. destruct (wapp _ _ _ W') as [Ws Wg]. clear W'.
  destruct (IH pre fr tmp hv ad e0 wa oa P0 Ea Wa Hh F H) as (-> & fr1 & H1 & F1 & L1).
  unfold spare in *. pose proof (zlen_nonneg vs) as Nv. pose proof (zlen_nonneg pre) as Np1. pose proof (zlen_nonneg fr) as Np2. pose proof (zlen_nonneg tmp) as Np3.
  re H1 ((pre ++ fr1 ++ tmp) ++ [VObj ob]).
  pose proof (i_string _ _ _ i _ H1 ltac:(rewrite !zlen_app, zlen_cons, zlen_nil; lia) Ws Li) as H1s.
  re H1s ((pre ++ fr1 ++ tmp) ++ [VObj ob; VStr (tk_str tn)]).
  pose proof (i_field_keep _ _ _ ob (VStr (tk_str tn)) l H1s Fi) as H1f.
  change (zlen [OP_LIT_STRING; i]) with 2 in Wg. specialize (H1f I Wg). rewrite Og in H1f.
  re H1f (pre ++ fr1 ++ (tmp ++ [VObj ob; VFun id])).
  assert (zlen (tmp ++ [VObj ob; VFun id]) = zlen tmp + 2) as Lt by (rewrite zlen_app; reflexivity).
  change (stack_offset OP_FIELDGET_NOPOP) with 0 in *.
  replace (zlen fr + zlen tmp + 1 + 1 + 0) with (zlen fr1 + zlen (tmp ++ [VObj ob; VFun id])) in E1 by lia.
  rewrite !zlen_app in W1. change (zlen [OP_LIT_STRING; i]) with 2 in W1. change (zlen [OP_FIELDGET_NOPOP]) with 1 in W1.
  replace (ad + (zlen wa + (2 + 1))) with (ad + zlen wa + 2 + 1) in W1 by lia.
  destruct (IH2 pre fr1 (tmp ++ [VObj ob; VFun id]) hv _ d1 w1 o1 O1 E1 W1 ltac:(lia) F1 H1f) as (-> & Cl & fr2 & H2 & F2 & L2).
  rewrite Cl in *. split; [lia|].
  destruct (wapp _ [OP_LIT_INT; u32 (zlen vs)] [OP_SELFCALL; OP_CALL] W2) as [Wl Wc']. destruct (wapp _ [OP_SELFCALL] [OP_CALL] Wc') as [Wf Wc]. clear Wc'.
  change (zlen [OP_LIT_INT; u32 (zlen vs)]) with 2 in *. change (zlen [OP_SELFCALL]) with 1 in Wc.
  rewrite !zlen_app in Wl, Wf, Wc. change (zlen [OP_LIT_STRING; i]) with 2 in *. change (zlen [OP_FIELDGET_NOPOP]) with 1 in *.
  replace (ad + (zlen wa + (2 + 1)) + zlen w1) with (ad + zlen wa + 2 + 1 + zlen w1) in * by lia.
  pose proof (i_int _ _ _ (zlen vs) H2 ltac:(rewrite !zlen_app; change (zlen [VObj ob; VFun id]) with 2; lia) Wl ltac:(unfold is_s32, W31; lia)) as H3.
  re H3 ((pre ++ fr2 ++ tmp) ++ VObj ob :: VFun id :: vs ++ [VInt (zlen vs)]).
  pose proof (i_selfcall _ _ _ _ _ _ H3 ltac:(rewrite !zlen_app; lia) Wf) as H4.
  assert (zlen (VObj ob :: vs) = zlen vs + 1) as Lv by (rewrite zlen_cons; lia).
  pose proof (Enter _ _ H4 Wc ltac:(rewrite !zlen_app; lia) ltac:(lia)) as H5.
  exists fr2. split; [|split; [exact F2|lia]]. apply (at_mem _ m3); [|reflexivity|reflexivity].
  here H5. rewrite !zlen_app. change (zlen [OP_LIT_INT; u32 (zlen vs); OP_SELFCALL; OP_CALL]) with 4. change (zlen [OP_LIT_STRING; i]) with 2. change (zlen [OP_FIELDGET_NOPOP]) with 1. lia.
Qed.
Lemma sim_method E h m t root0 ti rooti a tn rootn args ob l id fd vs m1 m2 o m3 v : tk_type t = TK_CALL_SELF ->
  tk_type ti = TK_INDEX_NOPOP -> tk_type tn = TK_STRING -> root0 = true ->
  S_ev E h m a (VObj ob) m1 -> spare lim (h + 1) -> fields ob m1 = Some l -> oget (VStr (tk_str tn)) l = VFun id ->
  S_evs E (h + 2) m1 args vs m2 -> spare lim (h + 1 + zlen vs) ->
  funs id = Some fd -> zlen (fd_params fd) = zlen vs + 1 ->
  ex funs lim mf (fun_env fd) (h + 1) (set_locals (Some (VObj ob) :: map Some vs ++ [None; None]) m2) (fd_body fd) o m3 ->
  S_ex (fun_env fd) (h + 1) (set_locals (Some (VObj ob) :: map Some vs ++ [None; None]) m2) (fd_body fd) o m3 ->
  (o = Next /\ v = VInt 0 /\ spare lim (h + 1 + zlen (m_local m3)) \/ o = Returned v) ->
  S_ev E h m (ANode t root0 (ANode ti rooti a (ANode tn rootn ANull ANull)) args) v (set_locals (m_local m2) m3).
Proof.
  intros T Ti Tn Er IH Sp1 Fi Og IH2 Sp Fn Np X IHx Out. eapply sim_method_gen; try eassumption. intros L ip H Wc Lh B.
  exact (sim_enter _ id (VObj ob :: vs) _ _ h fd o m3 v H Wc Lh B Fn ltac:(rewrite zlen_cons; lia) X IHx Out).
Qed.
Lemma sim_host_method E h m t root0 ti rooti a tn rootn args ob l id vs m1 m2 v m3 : tk_type t = TK_CALL_SELF ->
  tk_type ti = TK_INDEX_NOPOP -> tk_type tn = TK_STRING -> root0 = true ->
  S_ev E h m a (VObj ob) m1 -> spare lim (h + 1) -> fields ob m1 = Some l -> oget (VStr (tk_str tn)) l = VFun id ->
  S_evs E (h + 2) m1 args vs m2 -> spare lim (h + 1 + zlen vs) -> hosts id (VObj ob :: vs) m2 v m3 ->
  S_ev E h m (ANode t root0 (ANode ti rooti a (ANode tn rootn ANull ANull)) args) v (set_locals (m_local m2) m3).
Proof.
  intros T Ti Tn Er IH Sp1 Fi Og IH2 Sp Hs. eapply sim_method_gen; try eassumption. intros L ip H Wc Lh B. eapply i_native; eauto. lia.
Qed.

(** ** Loops *)

(** The condition of a loop or an if, and the branch. *)
Lemma sim_test E b m e v z m1 pre fr hv a b1 u x : ev funs lim mf E (b + zlen (m_local m)) m (tree e) v m1 ->
  S_ev E (b + zlen (m_local m)) m (tree e) v m1 -> xcode code ga false E e a b1 u ->
  zlen (m_local m) = e_used E -> zlen pre = b -> frel hv (m_local m) fr -> at_ (pre ++ fr) m a ->
  spare lim (b + zlen (m_local m)) -> number_of v = Some z -> mem_words code b1 (jump_words OP_JZ b1 x) -> is_u32 x -> kept m m1 ->
  u - 1 = e_used E /\ exists fr', at_ (pre ++ fr') m1 (if z =? 0 then x else b1 + 3) /\ frel hv (m_local m1) fr'.
Proof.
  intros V IH X L Lp F H Sp N W U [Kl _]. unfold spare in Sp.
  destruct (sim_x _ _ _ _ _ _ _ _ _ _ _ _ V IH X L Lp F H) as (Eu & fr1 & H1 & F1).
  split; [exact Eu|]. pose proof F1 as [L1 _]. exists fr1. split; [|exact F1].
  exact (i_branch _ _ b1 x v z H1 N ltac:(rewrite zlen_app; lia) W U).
Qed.

Lemma ev_kept E h m n v m' : ev funs lim mf E h m n v m' -> kept m m'.
Proof. intro V. apply (proj1 (frames funs lim mf) _ _ _ _ _ _ V). Qed.
Lemma kept_inside fa pre hv m m1 st ip : inside fa pre hv (m_local m) st ip -> kept m m1 -> inside fa pre hv (m_local m1) st ip.
Proof. intros I [L Hd]. eapply inside_grows; [exact I|apply Z.le_refl|apply Hd]. Qed.
Lemma ex_grows E b m s o m' : ex funs lim mf E b m s o m' -> e_scopes E <> [] -> zlen (m_local m) = e_used E ->
  grows E m m' /\ (o = Next -> zlen (m_local m') = e_used (after s E)).
Proof. intro V. apply (proj1 (proj2 (proj2 (frames funs lim mf))) _ _ _ _ _ _ V). Qed.
Lemma grows_inside E fa pre hv m m1 st ip : inside fa pre hv (m_local m) st ip -> zlen (m_local m) = e_used E -> grows E m m1 -> inside fa pre hv (m_local m1) st ip.
Proof. intros I L [_ Hd]. eapply inside_grows; [exact I| |exact Hd]. lia. Qed.

(** One way through the body of a loop: the condition holds. *)
Lemma sim_body E b m e s i v z m1 o m2 pre fr hv fa T u st ip a x :
  ev funs lim mf E (b + zlen (m_local m)) m (tree e) v m1 -> S_ev E (b + zlen (m_local m)) m (tree e) v m1 -> spare lim (b + zlen (m_local m)) ->
  number_of v = Some z -> z <> 0 -> ex funs lim mf (enter_scope E) b m1 s o m2 -> S_ex (enter_scope E) b m1 s o m2 ->
  lcode fa (T, u) E e s i a x -> 0 <= a <= zlen C -> is_u32 x ->
  e_scopes E <> [] -> zlen (m_local m) = e_used E -> zlen pre = b -> frel hv (m_local m) fr ->
  at_ (pre ++ fr) m a -> inside fa pre hv (m_local m) st ip -> lp_ok (Some (T, u)) E ->
  exists b3, ends (Some (T, u)) pre hv st ip b3 o (leave E o m2) /\ 0 <= b3 <= zlen C /\
    match i with
    | None => mem_words code b3 (jump_words OP_JUMP b3 a)
    | Some i => exists b5 u2, pcode code true E i b3 b5 u2 /\ mem_words code b5 (OP_POP :: jump_words OP_JUMP (b5 + 1) a)
    end.
Proof.
  intros V IH Sp N Nz X IHx (b1 & ue & b1' & b2 & E1 & b3 & Xc & J & Sk & Us & Sc & Pw & Eb & Ji) R Ux Ne L Lp F H In Lo.
  pose proof (ev_kept _ _ _ _ _ _ V) as Kp. pose proof (xcode_range _ _ _ _ _ _ _ _ Xc R) as Rb1. pose proof (words_range _ _ _ J Rb1) as Rb2. change (zlen (jump_words OP_JZ b1 x)) with 3 in Rb2.
  pose proof (skips_range _ _ _ _ _ Sk Rb2) as Rb2'.
  destruct (sim_test _ _ _ _ _ _ _ _ _ _ _ _ _ _ V IH Xc L Lp F H Sp N J Ux Kp) as (Eu & fr1 & H1 & F1).
  rewrite (used_at_same E (ue - 1) Eu) in Sc, Ji. replace (z =? 0) with false in H1 by (symmetry; apply Z.eqb_neq; exact Nz).
  pose proof F1 as [L1 _]. unfold spare in Sp. destruct Kp as [Kl Kh].
  apply (sim_skips _ _ _ Sk (pre ++ fr1) m1 Us ltac:(rewrite zlen_app; lia)) in H1.
  pose proof (proj1 (code_range C ga) _ _ _ _ _ _ _ Sc Rb2') as Rc2. pose proof (words_range _ _ _ Pw Rc2) as Rc3. rewrite <- Eb in Rc3.
  exists b3. split; [|split; [exact Rc3|exact Ji]]. subst b3.
  eapply sim_scoped; eauto; [lia|]. eapply inside_grows; [exact In|apply Z.le_refl|apply Kh].
Qed.

Lemma sim_again E b m e s v z m1 m2 o m3 :
  ev funs lim mf E (b + zlen (m_local m)) m (tree e) v m1 -> S_ev E (b + zlen (m_local m)) m (tree e) v m1 -> spare lim (b + zlen (m_local m)) ->
  number_of v = Some z -> z <> 0 -> ex funs lim mf (enter_scope E) b m1 s Next m2 -> S_ex (enter_scope E) b m1 s Next m2 ->
  S_loops E b (keep (e_used E) m2) e s None o m3 -> S_loops E b m e s None o m3.
Proof.
  intros V IH Sp N Nz X IHx IHl pre fr hv fa T u st ip a x Lc R Ux Ne L Lp F H In Lo.
  destruct (sim_body _ _ _ _ _ None _ _ _ _ _ _ _ _ _ _ _ _ _ _ _ V IH Sp N Nz X IHx Lc R Ux Ne L Lp F H In Lo) as (b3 & (fr1 & H1 & F1) & Rb & J).
  cbn [leave] in *. pose proof (ev_kept _ _ _ _ _ _ V) as Kp. pose proof Kp as [Kl Kh].
  destruct (ex_grows _ _ _ _ _ _ X (enter_ne E) ltac:(cbn; lia)) as [Gr _]. change (grows E m1 m2) in Gr.
  pose proof (zlen_nonneg (m_local m)). destruct (grows_keep funs mf _ _ _ Gr ltac:(lia)) as [Gr2 Z2]. unfold spare in Sp. pose proof F1 as [L1 _].
  pose proof (i_goto _ _ b3 a H1 ltac:(rewrite zlen_app; lia) J (C_u32 _ R)) as H2.
  apply (IHl pre fr1 hv fa T u st ip a x Lc R Ux Ne Z2 Lp F1 H2); [|exact Lo].
  apply (grows_inside E fa pre hv m1 (keep (e_used E) m2) st ip); [eapply kept_inside; eauto|lia|exact Gr2].
Qed.

(** An expression, with the code for it when its value is dropped. *)
Definition D_ev (E : env) (h : Z) (m : mem) (n : ast) (v : val) (m' : mem) : Prop :=
  S_ev E h m n v m' /\ (forall t r c0 c1, n = ANode t r c0 c1 -> is_incdec (tk_type t) = true -> S_incdec E h m n v m').
Lemma D_plain E h m t r c0 c1 v m' : is_incdec (tk_type t) = false -> S_ev E h m (ANode t r c0 c1) v m' -> D_ev E h m (ANode t r c0 c1) v m'.
Proof. intros N S. split; [exact S|]. intros t' r' c0' c1' Q I. injection Q as <- <- <- <-. rewrite N in I. discriminate I. Qed.
Lemma D_incdec E h m n v m' : S_incdec E h m n v m' -> D_ev E h m n v m'.
Proof. intro S. split; [apply incdec_ev; exact S|intros; exact S]. Qed.
Lemma D_ev_ev E h m n v m' : D_ev E h m n v m' -> S_ev E h m n v m'.
Proof. intros [S _]. exact S. Qed.

Lemma sim_step E b m e s i v z m1 m2 x m3 o m4 :
  ev funs lim mf E (b + zlen (m_local m)) m (tree e) v m1 -> S_ev E (b + zlen (m_local m)) m (tree e) v m1 -> spare lim (b + zlen (m_local m)) ->
  number_of v = Some z -> z <> 0 -> ex funs lim mf (enter_scope E) b m1 s Next m2 -> S_ex (enter_scope E) b m1 s Next m2 ->
  ev funs lim mf E (b + zlen (m_local m)) (keep (e_used E) m2) (tree i) x m3 -> D_ev E (b + zlen (m_local m)) (keep (e_used E) m2) (tree i) x m3 ->
  S_loops E b m3 e s (Some i) o m4 -> S_loops E b m e s (Some i) o m4.
Proof.
  intros V IH Sp N Nz X IHx V2 IH2 IHl pre fr hv fa T u st ip a y Lc R Ux Ne L Lp F H In Lo.
  destruct (sim_body _ _ _ _ _ (Some i) _ _ _ _ _ _ _ _ _ _ _ _ _ _ _ V IH Sp N Nz X IHx Lc R Ux Ne L Lp F H In Lo) as (b3 & (fr1 & H1 & F1) & Rb & (b5 & u2 & Xi & J)).
  cbn [leave] in *. pose proof (ev_kept _ _ _ _ _ _ V) as Kp. pose proof Kp as [Kl Kh].
  destruct (ex_grows _ _ _ _ _ _ X (enter_ne E) ltac:(cbn; lia)) as [Gr _]. change (grows E m1 m2) in Gr.
  pose proof (zlen_nonneg (m_local m)). destruct (grows_keep funs mf _ _ _ Gr ltac:(lia)) as [Gr2 Z2]. unfold spare in Sp. pose proof F1 as [L1 _].
  pose proof (ev_kept _ _ _ _ _ _ V2) as Kp2. pose proof Kp2 as [Kl2 _].
  destruct (wapp _ [OP_POP] (jump_words OP_JUMP (b5 + 1) a) J) as [Jp Jj]. change (zlen [OP_POP]) with 1 in Jj.
  replace (b + zlen (m_local m)) with (b + zlen (m_local (keep (e_used E) m2))) in V2, IH2 by lia.
  destruct (sim_drop_p E b (keep (e_used E) m2) i x m3 pre fr1 hv b3 b5 u2 V2 IH2 Xi Z2 Lp F1 H1 Jp) as (_ & fr2 & H2 & F2).
  pose proof F2 as [L2 _].
  pose proof (i_goto _ _ (b5 + 1) a H2 ltac:(rewrite zlen_app; lia) Jj (C_u32 _ R)) as H3.
  apply (IHl pre fr2 hv fa T u st ip a y Lc R Ux Ne ltac:(lia) Lp F2 H3); [|exact Lo].
  eapply kept_inside; [|exact Kp2]. apply (grows_inside E fa pre hv m1 (keep (e_used E) m2) st ip); [eapply kept_inside; eauto|lia|exact Gr2].
Qed.

Lemma keep_all n m : zlen (m_local m) <= n -> keep n m = m.
Proof. intro H. unfold keep. rewrite first_all by exact H. destruct m; reflexivity. Qed.

Lemma lp_enter E lp : lp_ok lp E -> lp_ok lp (enter_scope E). Proof. auto. Qed.

(** ** All together *)

Theorem simulation_all :
  (forall E h m n v m', ev funs lim mf E h m n v m' -> D_ev E h m n v m') /\
  (forall E h m n v m', evs funs lim mf E h m n v m' -> S_evs E h m n v m') /\
  (forall E b m s o m', ex funs lim mf E b m s o m' -> S_ex E b m s o m') /\
  (forall E b m l o m', exs funs lim mf E b m l o m' -> S_exs E b m l o m') /\
  (forall E b m e s i o m', loops funs lim mf E b m e s i o m' -> S_loops E b m e s i o m').
Proof.
  Local Ltac tyf := first [ match goal with T : tk_type _ = _ |- is_incdec _ = false => rewrite T; reflexivity end
    | match goal with T : unop _ _ _ |- _ => apply unop_types in T; destruct T as [-> | ->]; reflexivity end
    | match goal with T : binop _ _ _ _ |- _ => apply binop_types in T; apply not_incdec; cbn [In] in *; tauto end ].
  Local Ltac dv L := apply D_plain; [tyf|eapply L; try eassumption; apply D_ev_ev; eassumption].
  apply run_mi; intros.
  - dv sim_int.
  - dv sim_nil.
  - dv sim_float.
  - dv sim_string.
  - dv sim_function.
  - dv sim_name.
  - dv sim_unary.
  - dv sim_binary.
  - dv sim_assign.
  - apply D_incdec. eapply sim_incdec; eassumption.
  - dv sim_call.
  - dv sim_host.
  - dv sim_object.
  - dv sim_len.
  - dv sim_field.
  - dv sim_setfield.
  - apply D_incdec. eapply sim_incdec_field; try eassumption; apply D_ev_ev; eassumption.
  - dv sim_method.
  - dv sim_host_method.
  - apply sim_evs_nil.
  - eapply sim_evs_cons; try eassumption; apply D_ev_ev; eassumption.
  - (* e; *)
    intros pre fr hv fa lp st ip a bb E' Sc R Ne L Lp F Hr In Lo. inversion Sc; subst.
    lazymatch goal with X : xcode _ _ _ _ _ _ _ _, P : mem_words _ _ [OP_POP] |- _ =>
      destruct (sim_drop _ _ _ _ _ _ _ _ _ _ _ _ H H0 X L eq_refl F Hr P) as (Eu & fr' & H' & F') end.
    split; [intros _; cbn [after]; apply used_at_same; exact Eu|]. exists fr'. auto.
  - (* var n; *)
    intros pre fr hv fa lp st ip a bb E' Sc R Ne L Lp F Hr In Lo. inversion Sc; subst. split; [reflexivity|]. unfold spare in H.
    lazymatch goal with X : mem_words _ _ _ |- _ => destruct (wapp _ _ _ X) as [W1 W2] end. pose proof F as [Lf _].
    pose proof (i_int _ _ a 0 Hr ltac:(rewrite zlen_app; lia) W1 ltac:(unfold is_s32, W31; lia)) as H1'.
    destruct (sim_decl E m (VInt 0) pre fr hv (a + 2) H1' F Ne ltac:(assumption) ltac:(lia) W2) as (fr2 & H2' & F2).
    exists fr2. split; [|exact F2]. rewrite zlen_app, Z.add_assoc. exact H2'.
  - (* var n = e; *)
    intros pre fr hv fa lp st ip a bb E' Sc R Ne L Lp F Hr In Lo. inversion Sc; subst. unfold spare in H1. apply D_ev_ev in H0.
    lazymatch goal with X : xcode _ _ _ _ _ _ _ _ |- _ => destruct (sim_x _ _ _ _ _ _ _ _ _ _ _ _ H H0 X L eq_refl F Hr) as (Eu & fr1 & H1' & F1) end.
    split; [intros _; cbn [after]; rewrite used_at_same by exact Eu; reflexivity|].
    pose proof (ev_kept _ _ _ _ _ _ H) as [Kl _]. pose proof F1 as [L1 _].
    exact (sim_decl E m' x pre fr1 hv _ H1' F1 Ne ltac:(assumption) ltac:(lia) ltac:(eassumption)).
  - (* return e; *)
    intros pre fr hv fa lp st ip a bb E' Sc R Ne L Lp F Hr In Lo. inversion Sc; subst. split; [discriminate|]. unfold spare in H1. apply D_ev_ev in H0.
    lazymatch goal with X : xcode _ _ _ _ _ _ _ _ |- _ => destruct (sim_x _ _ _ _ _ _ _ _ _ _ _ _ H H0 X L eq_refl F Hr) as (Eu & fr1 & H1' & F1) end.
    pose proof (ev_kept _ _ _ _ _ _ H) as Kp. pose proof Kp as [Kl _]. pose proof F1 as [L1 _].
    apply (sim_return n m' pre fr1 x _ hv (m_local m') st ip H1' (kept_inside _ _ _ _ _ _ _ In Kp) F1 ltac:(lia)).
    lazymatch goal with X : mem_words _ _ [OP_LIT_INT; u32 (?q - n - 3); OP_RETURN] |- _ => replace (zlen (m_local m') + 1) with q by lia; exact X end.
  - (* block *)
    intros pre fr hv fa lp st ip a bb E' Sc R Ne L Lp F Hr In Lo. inversion Sc; subst. split; [reflexivity|].
    lazymatch goal with X : sscode _ _ _ _ _ _ _ _ _ |- _ => destruct (H0 pre fr hv fa lp st ip _ _ _ X R (enter_ne E') L eq_refl F Hr In Lo) as [En K] end.
    destruct out as [| |v]; cbn [leave]; [|exact K|exact K].
    destruct (En eq_refl) as (Z & Bs & Sp). rewrite base_enter in Bs. unfold base in Bs. destruct K as (fr1 & H1' & F1). unfold spare in Sp.
    pose proof (proj1 (proj2 (proj2 (proj2 (frames funs lim mf)))) _ _ _ _ _ _ H (enter_ne E') L) as [Gl _]. change (e_used (enter_scope E')) with (e_used E') in Gl.
    pose proof (zlen_nonneg (m_local m)).
    lazymatch goal with X : mem_words _ _ (pop_words _) |- _ => destruct (sim_close m' pre fr1 hv (m_local m') _ (e_used E') _ H1' F1 ltac:(lia) ltac:(instantiate (1 := locals_of E1); lia) ltac:(intros; lia) X) as (fr2 & H2' & F2) end.
    exists fr2. split; [exact (at_mem _ _ (keep (e_used E') m') _ H2' eq_refl eq_refl)|exact F2].
  - (* if, taken *)
    intros pre fr hv fa lp st ip a bb E' Sc R Ne L Lp F Hr In Lo. inversion Sc; subst. pose proof (ev_kept _ _ _ _ _ _ H) as Kp. apply D_ev_ev in H0.
    lazymatch goal with X : xcode _ _ _ _ _ _ _ _, J : mem_words _ _ (jump_words _ _ _), Q : scode _ _ _ _ _ _ _ _ _, P : mem_words _ _ (pop_words _) |- _ =>
      pose proof (xcode_range _ _ _ _ _ _ _ _ X R) as Rb1; pose proof (words_range _ _ _ J Rb1) as Rb2; change (0 <= b1 + 3 <= zlen C) in Rb2;
      pose proof (proj1 (code_range C ga) _ _ _ _ _ _ _ Q Rb2) as Rb3; pose proof (words_range _ _ _ P Rb3) as Rb4;
      destruct (sim_test _ _ _ _ _ _ _ _ _ _ _ _ _ _ H H0 X L eq_refl F Hr H1 H2 J (C_u32 _ Rb4) Kp) as (Eu & fr1 & H1' & F1);
      rewrite (used_at_same E _ Eu) in Q |- *; split; [reflexivity|]; replace (z =? 0) with false in H1' by (symmetry; apply Z.eqb_neq; exact H3);
      eapply (sim_scoped E _ m1 s out m2 pre fr1 hv fa lp st ip _ _ _ H4 H5 Q P Rb2) end; auto.
    + destruct Kp. lia.
    + eapply kept_inside; eauto.
  - (* if, not taken *)
    intros pre fr hv fa lp st ip a bb E' Sc R Ne L Lp F Hr In Lo. inversion Sc; subst. pose proof (ev_kept _ _ _ _ _ _ H) as Kp. apply D_ev_ev in H0.
    lazymatch goal with X : xcode _ _ _ _ _ _ _ _, J : mem_words _ _ (jump_words _ _ _), Q : scode _ _ _ _ _ _ _ _ _, P : mem_words _ _ (pop_words _) |- _ =>
      pose proof (xcode_range _ _ _ _ _ _ _ _ X R) as Rb1; pose proof (words_range _ _ _ J Rb1) as Rb2; change (0 <= b1 + 3 <= zlen C) in Rb2;
      pose proof (proj1 (code_range C ga) _ _ _ _ _ _ _ Q Rb2) as Rb3; pose proof (words_range _ _ _ P Rb3) as Rb4;
      destruct (sim_test _ _ _ _ _ _ _ _ _ _ _ _ _ _ H H0 X L eq_refl F Hr H1 H2 J (C_u32 _ Rb4) Kp) as (Eu & fr1 & H1' & F1) end.
    rewrite used_at_same by exact Eu. split; [reflexivity|]. exists fr1. cbn [Z.eqb] in H1'. auto.
  - (* if with else, taken *)
    intros pre fr hv fa lp st ip a bb E' Sc R Ne L Lp F Hr In Lo. inversion Sc; subst. pose proof (ev_kept _ _ _ _ _ _ H) as Kp. apply D_ev_ev in H0.
    lazymatch goal with X : xcode _ _ _ _ _ _ _ _, J : mem_words _ _ (jump_words OP_JZ _ _), Q : scode _ _ _ _ _ s _ _ _, P : mem_words _ _ (pop_words (locals_of E1)),
        J2 : mem_words _ _ (jump_words OP_JUMP _ _), Q2 : scode _ _ _ _ _ s2 _ _ _, P2 : mem_words _ _ (pop_words (locals_of E2)) |- _ =>
      pose proof (xcode_range _ _ _ _ _ _ _ _ X R) as Rb1; pose proof (words_range _ _ _ J Rb1) as Rb2; change (0 <= b1 + 3 <= zlen C) in Rb2;
      pose proof (proj1 (code_range C ga) _ _ _ _ _ _ _ Q Rb2) as Rb3; pose proof (words_range _ _ _ P Rb3) as Rb4;
      pose proof (words_range _ _ _ J2 Rb4) as Rb5; change (0 <= b2 + zlen (pop_words (locals_of E1)) + 3 <= zlen C) in Rb5;
      pose proof (proj1 (code_range C ga) _ _ _ _ _ _ _ Q2 Rb5) as Rb6; pose proof (words_range _ _ _ P2 Rb6) as Rb7;
      destruct (sim_test _ _ _ _ _ _ _ _ _ _ _ _ _ _ H H0 X L eq_refl F Hr H1 H2 J (C_u32 _ Rb5) Kp) as (Eu & fr1 & H1' & F1);
      rewrite (used_at_same E _ Eu) in Q |- *; split; [reflexivity|]; replace (z =? 0) with false in H1' by (symmetry; apply Z.eqb_neq; exact H3);
      pose proof (sim_scoped E _ m1 s out m2 pre fr1 hv fa lp st ip _ _ _ H4 H5 Q P Rb2 ltac:(destruct Kp; lia) eq_refl F1 H1' (kept_inside _ _ _ _ _ _ _ In Kp) Lo) as K end.
    destruct out as [| |v0]; cbn [leave] in *; [|exact K|exact K].
    destruct K as (fr2 & H2' & F2). pose proof F2 as [L2 _]. pose proof (zlen_nonneg (m_local m)).
    destruct (ex_grows _ _ _ _ _ _ H4 (enter_ne E) ltac:(destruct Kp; cbn; lia)) as [Gr _]. change (grows E m1 m2) in Gr. destruct (grows_keep funs mf _ _ _ Gr ltac:(lia)) as [_ Z2]. unfold spare in H1.
    lazymatch goal with J2 : mem_words _ _ (jump_words OP_JUMP _ _) |- _ => pose proof (i_goto _ _ _ _ H2' ltac:(rewrite zlen_app; lia) J2 (C_u32 _ Rb7)) as H3' end.
    exists fr2. auto.
  - (* else *)
    intros pre fr hv fa lp st ip a bb E' Sc R Ne L Lp F Hr In Lo. inversion Sc; subst. pose proof (ev_kept _ _ _ _ _ _ H) as Kp. apply D_ev_ev in H0.
    lazymatch goal with X : xcode _ _ _ _ _ _ _ _, J : mem_words _ _ (jump_words OP_JZ _ _), Q : scode _ _ _ _ _ s _ _ _, P : mem_words _ _ (pop_words (locals_of E1)),
        J2 : mem_words _ _ (jump_words OP_JUMP _ _), Q2 : scode _ _ _ _ _ s2 _ _ _, P2 : mem_words _ _ (pop_words (locals_of E2)) |- _ =>
      pose proof (xcode_range _ _ _ _ _ _ _ _ X R) as Rb1; pose proof (words_range _ _ _ J Rb1) as Rb2; change (0 <= b1 + 3 <= zlen C) in Rb2;
      pose proof (proj1 (code_range C ga) _ _ _ _ _ _ _ Q Rb2) as Rb3; pose proof (words_range _ _ _ P Rb3) as Rb4;
      pose proof (words_range _ _ _ J2 Rb4) as Rb5; change (0 <= b2 + zlen (pop_words (locals_of E1)) + 3 <= zlen C) in Rb5;
      destruct (sim_test _ _ _ _ _ _ _ _ _ _ _ _ _ _ H H0 X L eq_refl F Hr H1 H2 J (C_u32 _ Rb5) Kp) as (Eu & fr1 & H1' & F1);
      rewrite (used_at_same E _ Eu) in Q2 |- *; split; [reflexivity|]; cbn [Z.eqb] in H1';
      eapply (sim_scoped E _ m1 s2 out m2 pre fr1 hv fa lp st ip _ _ _ H3 H4 Q2 P2 Rb5) end; auto.
    + destruct Kp. lia.
    + eapply kept_inside; eauto.
  - (* while *)
    intros pre fr hv fa lp st ip a bb E' Sc R Ne L Lp F Hr In Lo. inversion Sc; subst. split; [reflexivity|]. pose proof (zlen_nonneg (m_local m)).
    lazymatch goal with X : xcode _ _ _ _ _ _ _ _, J : mem_words _ _ (jump_words OP_JZ _ _), Q : scode _ _ _ _ _ s _ _ _, P : mem_words _ _ (pop_words (locals_of E1)),
        J2 : mem_words _ _ (jump_words OP_JUMP _ _) |- _ =>
      pose proof (xcode_range _ _ _ _ _ _ _ _ X R) as Rb1; pose proof (words_range _ _ _ J Rb1) as Rb2; change (0 <= b1 + 3 <= zlen C) in Rb2;
      pose proof (proj1 (code_range C ga) _ _ _ _ _ _ _ Q Rb2) as Rb3; pose proof (words_range _ _ _ P Rb3) as Rb4;
      pose proof (words_range _ _ _ J2 Rb4) as Rb5; change (0 <= b2 + zlen (pop_words (locals_of E1)) + 3 <= zlen C) in Rb5;
      pose proof (H0 pre fr hv fa (b2 + zlen (pop_words (locals_of E1)) + 3) (e_used E') st ip a (b2 + zlen (pop_words (locals_of E1)) + 3)) as K end.
    lazymatch type of K with ?A -> _ => assert A as Q0 by (do 6 eexists; do 2 (split; [eassumption|]); split; [apply sk_nil|]; split; [intros ? ? []|]; do 2 (split; [eassumption|]); split; [reflexivity|]; assumption) end.
    lazymatch type of K with _ -> _ -> _ -> _ -> _ -> _ -> _ -> _ -> _ -> ?A -> _ => assert A as Q1 by (split; [exact (C_u32 _ Rb5)|cbn; lia]) end.
    specialize (K Q0 R (C_u32 _ Rb5) (enter_ne _) L eq_refl F Hr In Q1). clear Q0 Q1.
    destruct out as [| |v]; cbn [leave_loop] in *; [| destruct K |exact K].
    destruct K as [(fr1 & H1' & F1 & Z & _)|(fr1 & H1' & F1)]; exists fr1;
      (split; [exact (at_mem _ _ (keep (e_used E') m') _ H1' eq_refl eq_refl)|]).
    + change (e_used (enter_loop E')) with (e_used E') in Z. rewrite keep_all by lia. exact F1.
    + exact F1.
  - (* do, left *)
    intros pre fr hv fa lp st ip a bb E' Sc R Ne L Lp F Hr In Lo. inversion Sc; subst. split; [reflexivity|]. pose proof (zlen_nonneg (m_local m)).
    lazymatch goal with X : xcode _ _ _ _ _ _ _ _, Q : scode _ _ _ _ _ s _ _ _, P : mem_words _ _ (pop_words (locals_of E1)), J : mem_words _ _ (OP_NOT :: _) |- _ =>
      pose proof (proj1 (code_range C ga) _ _ _ _ _ _ _ Q R) as Rb3; pose proof (words_range _ _ _ P Rb3) as Rb4;
      pose proof (xcode_range _ _ _ _ _ _ _ _ X Rb4) as Rb1; pose proof (words_range _ _ _ J Rb1) as Rb2; change (0 <= b3 + 4 <= zlen C) in Rb2;
      destruct (H0 pre fr hv fa _ st ip a _ _ Q R (enter_ne _) L eq_refl F Hr In) as [_ K] end.
    { split; [apply C_u32; assumption|]. cbn. lia. }
    destruct out1 as [| |v]; cbn [stops leave_loop]; [contradiction| |exact K].
    destruct K as (fr1 & H1' & F1). exists fr1. split; [exact (at_mem _ _ (keep (e_used E') m1) _ H1' eq_refl eq_refl)|exact F1].
  - (* do, done *)
    intros pre fr hv fa lp st ip a bb E' Sc R Ne L Lp F Hr In Lo. inversion Sc; subst. split; [reflexivity|]. pose proof (zlen_nonneg (m_local m)). apply D_ev_ev in H2.
    lazymatch goal with X : xcode _ _ _ _ _ _ _ _, Q : scode _ _ _ _ _ s _ _ _, P : mem_words _ _ (pop_words (locals_of E1)), J : mem_words _ _ (OP_NOT :: _) |- _ =>
      pose proof (proj1 (code_range C ga) _ _ _ _ _ _ _ Q R) as Rb3; pose proof (words_range _ _ _ P Rb3) as Rb4;
      pose proof (xcode_range _ _ _ _ _ _ _ _ X Rb4) as Rb1; pose proof (words_range _ _ _ J Rb1) as Rb2; change (0 <= b3 + 4 <= zlen C) in Rb2;
      destruct (sim_scoped (enter_loop E') _ m s Next m1 pre fr hv fa _ st ip a _ _ H H0 Q P R L eq_refl F Hr In) as (fr1 & H1' & F1);
      [split; [apply C_u32; assumption|cbn; lia]|];
      cbn [leave] in *; change (e_used (enter_loop E')) with (e_used E') in *;
      destruct (ex_grows _ _ _ _ _ _ H (enter_ne _) L) as [Gr _]; change (grows E' m m1) in Gr; destruct (grows_keep funs mf _ _ _ Gr ltac:(lia)) as [Gr2 Z2];
      replace (zlen pre + zlen (m_local m)) with (zlen pre + zlen (m_local (keep (e_used E') m1))) in H1, H2 by lia;
      destruct (sim_x (enter_loop E') _ _ _ _ _ _ _ _ _ _ _ H1 H2 X Z2 eq_refl F1 H1') as (Eu & fr2 & H2' & F2);
      destruct (wapp _ [OP_NOT] (jump_words OP_JZ (b3 + 1) a) J) as [Jn Jj]; change (zlen [OP_NOT]) with 1 in Jj end.
    pose proof (ev_kept _ _ _ _ _ _ H1) as [Kl _]. pose proof F2 as [L2 _]. unfold spare in H3.
    pose proof (i_un _ _ _ v (yes true) TK_NOT OP_NOT H2' (uo_not _ _ H4) eq_refl Jn) as H3'.
    pose proof (i_branch _ _ _ a (yes true) 1 H3' eq_refl ltac:(rewrite zlen_app; lia) Jj (C_u32 _ R)) as H4'. cbn [Z.eqb] in H4'.
    exists fr2. split; [|exact F2]. replace (b3 + 4) with (b3 + 1 + 3) by lia. exact H4'.
  - (* do, again *)
    intros pre fr hv fa lp st ip a bb E' Sc R Ne L Lp F Hr In Lo. pose proof Sc as Sc0. inversion Sc; subst. pose proof (zlen_nonneg (m_local m)). apply D_ev_ev in H2.
    lazymatch goal with X : xcode _ _ _ _ _ _ _ _, Q : scode _ _ _ _ _ s _ _ _, P : mem_words _ _ (pop_words (locals_of E1)), J : mem_words _ _ (OP_NOT :: _) |- _ =>
      pose proof (proj1 (code_range C ga) _ _ _ _ _ _ _ Q R) as Rb3; pose proof (words_range _ _ _ P Rb3) as Rb4;
      pose proof (xcode_range _ _ _ _ _ _ _ _ X Rb4) as Rb1; pose proof (words_range _ _ _ J Rb1) as Rb2; change (0 <= b3 + 4 <= zlen C) in Rb2;
      destruct (sim_scoped (enter_loop E') _ m s Next m1 pre fr hv fa _ st ip a _ _ H H0 Q P R L eq_refl F Hr In) as (fr1 & H1' & F1);
      [split; [apply C_u32; assumption|cbn; lia]|];
      cbn [leave] in *; change (e_used (enter_loop E')) with (e_used E') in *;
      destruct (ex_grows _ _ _ _ _ _ H (enter_ne _) L) as [Gr _]; change (grows E' m m1) in Gr; destruct (grows_keep funs mf _ _ _ Gr ltac:(lia)) as [Gr2 Z2];
      replace (zlen pre + zlen (m_local m)) with (zlen pre + zlen (m_local (keep (e_used E') m1))) in H1, H2 by lia;
      destruct (sim_x (enter_loop E') _ _ _ _ _ _ _ _ _ _ _ H1 H2 X Z2 eq_refl F1 H1') as (Eu & fr2 & H2' & F2);
      destruct (wapp _ [OP_NOT] (jump_words OP_JZ (b3 + 1) a) J) as [Jn Jj]; change (zlen [OP_NOT]) with 1 in Jj end.
    pose proof (ev_kept _ _ _ _ _ _ H1) as Kp. pose proof Kp as [Kl _]. pose proof F2 as [L2 _]. unfold spare in H3.
    pose proof (uo_not _ _ H4) as Uo. replace (z =? 0) with false in Uo by (symmetry; apply Z.eqb_neq; exact H5).
    pose proof (i_un _ _ _ v (yes false) TK_NOT OP_NOT H2' Uo eq_refl Jn) as H3'.
    pose proof (i_branch _ _ _ a (yes false) 0 H3' eq_refl ltac:(rewrite zlen_app; lia) Jj (C_u32 _ R)) as H4'. cbn [Z.eqb] in H4'.
    apply (H7 pre fr2 hv fa lp st ip a _ _ Sc0 R Ne ltac:(lia) eq_refl F2 H4'); [|exact Lo].
    eapply kept_inside; [|exact Kp]. eapply grows_inside; [exact In|exact L|exact Gr2].
  - (* for *)
    intros pre fr hv fa lp st ip a bb E' Sc R Ne L Lp F Hr In Lo. inversion Sc; subst. split; [reflexivity|]. pose proof (zlen_nonneg (m_local m)).
    lazymatch goal with Q0 : scode _ _ _ _ _ s0 _ _ _, X : xcode _ _ false _ _ _ _ _, J : mem_words _ _ (jump_words OP_JZ _ _), Q : scode _ _ _ _ _ s _ _ _, P : mem_words _ _ (pop_words (locals_of E2)),
        Sk : skips _ _ _ _ _, X2 : pcode _ true _ _ _ _ _, J2 : mem_words _ _ (OP_POP :: _), P2 : mem_words _ _ (pop_words (locals_of E1)) |- _ =>
      pose proof (proj1 (code_range C ga) _ _ _ _ _ _ _ Q0 R) as Rb0; pose proof (xcode_range _ _ _ _ _ _ _ _ X Rb0) as Rb1;
      pose proof (words_range _ _ _ J Rb1) as Rb2; change (0 <= b2 + 3 <= zlen C) in Rb2; pose proof (skips_range _ _ _ _ _ Sk Rb2) as Rb2';
      pose proof (proj1 (code_range C ga) _ _ _ _ _ _ _ Q Rb2') as Rb3; pose proof (words_range _ _ _ P Rb3) as Rb4;
      pose proof (pcode_range _ _ _ _ _ _ _ X2 Rb4) as Rb5; pose proof (words_range _ _ _ J2 Rb5) as Rb6; change (0 <= b5 + 4 <= zlen C) in Rb6;
      pose proof (words_range _ _ _ P2 Rb6) as Rb7; rename P2 into PP;
      destruct (H0 pre fr hv fa _ st ip a _ _ Q0 R (enter_ne _) L eq_refl F Hr In) as [En (fr1 & H1' & F1)];
      [split; [apply C_u32; assumption|cbn; lia]|] end.
    specialize (En eq_refl). subst E1. destruct (ex_grows _ _ _ _ _ _ H (enter_ne _) L) as [Gr Z]. specialize (Z eq_refl).
    pose proof (after_used s0 (enter_loop E') (enter_ne _)) as Au. change (e_used (enter_loop E')) with (e_used E') in Au.
    lazymatch type of PP with mem_words _ ?x6 (pop_words ?lo) =>
      pose proof (H2 pre fr1 hv fa (x6 + zlen (pop_words lo)) (e_used E') st ip b1 x6) as K end.
    lazymatch type of K with ?A -> _ => assert A as Q0 by (do 6 eexists; do 6 (split; [eassumption|]); split; [reflexivity|]; do 2 eexists; split; eassumption) end.
    lazymatch type of K with _ -> _ -> _ -> _ -> _ -> _ -> _ -> _ -> _ -> ?A -> _ => assert A as Q1 by (split; [exact (C_u32 _ Rb7)|lia]) end.
    assert (inside fa pre hv (m_local m1) st ip) as In1 by (eapply grows_inside; [exact In| |exact Gr]; exact L).
    specialize (K Q0 Rb0 (C_u32 _ Rb6) (after_scopes _ _ (enter_ne _)) Z eq_refl F1 H1' In1 Q1). clear Q0 Q1.
    destruct out as [| |v]; cbn [leave_loop] in *; [| destruct K |exact K].
    destruct K as [(fr2 & H2' & F2 & Z2 & Sp)|(fr2 & H2' & F2)].
    + pose proof (after_base s0 (enter_loop E') (enter_ne _)) as Bs. unfold enter_loop in Bs at 2. rewrite base_enter in Bs. unfold base in Bs. change (e_used (enter_scope E')) with (e_used E') in Bs.
      unfold spare in Sp.
      destruct (sim_close m' pre fr2 hv (m_local m') _ (e_used E') _ H2' F2 ltac:(lia) ltac:(instantiate (1 := locals_of (after s0 (enter_loop E'))); lia) ltac:(intros; lia) PP) as (fr3 & H3' & F3).
      exists fr3. split; [exact (at_mem _ _ (keep (e_used E') m') _ H3' eq_refl eq_refl)|exact F3].
    + exists fr2. split; [exact (at_mem _ _ (keep (e_used E') m') _ H2' eq_refl eq_refl)|exact F2].
  - (* for, left in its first part *)
    intros pre fr hv fa lp st ip a bb E' Sc R Ne L Lp F Hr In Lo. inversion Sc; subst. split; [reflexivity|]. pose proof (zlen_nonneg (m_local m)).
    lazymatch goal with Q0 : scode _ _ _ _ _ s0 _ _ _, X : xcode _ _ false _ _ _ _ _, J : mem_words _ _ (jump_words OP_JZ _ _), Q : scode _ _ _ _ _ s _ _ _, P : mem_words _ _ (pop_words (locals_of E2)),
        Sk : skips _ _ _ _ _, X2 : pcode _ true _ _ _ _ _, J2 : mem_words _ _ (OP_POP :: _), P2 : mem_words _ _ (pop_words (locals_of E1)) |- _ =>
      pose proof (proj1 (code_range C ga) _ _ _ _ _ _ _ Q0 R) as Rb0; pose proof (xcode_range _ _ _ _ _ _ _ _ X Rb0) as Rb1;
      pose proof (words_range _ _ _ J Rb1) as Rb2; change (0 <= b2 + 3 <= zlen C) in Rb2; pose proof (skips_range _ _ _ _ _ Sk Rb2) as Rb2';
      pose proof (proj1 (code_range C ga) _ _ _ _ _ _ _ Q Rb2') as Rb3; pose proof (words_range _ _ _ P Rb3) as Rb4;
      pose proof (pcode_range _ _ _ _ _ _ _ X2 Rb4) as Rb5; pose proof (words_range _ _ _ J2 Rb5) as Rb6; change (0 <= b5 + 4 <= zlen C) in Rb6;
      pose proof (words_range _ _ _ P2 Rb6) as Rb7;
      destruct (H0 pre fr hv fa _ st ip a _ _ Q0 R (enter_ne _) L eq_refl F Hr In) as [_ K];
      [split; [apply C_u32; assumption|cbn; lia]|] end.
    destruct out as [| |v]; cbn [stops leave_loop]; [contradiction| |exact K].
    destruct K as (fr1 & H1' & F1). exists fr1. split; [exact (at_mem _ _ (keep (e_used E') m1) _ H1' eq_refl eq_refl)|exact F1].
  - (* break *)
    intros pre fr hv fa lp st ip a bb E' Sc R Ne L Lp F Hr In Lo. inversion Sc; subst. split; [discriminate|]. unfold spare in H. destruct Lo as [Ut Uu].
    lazymatch goal with X : mem_words _ _ _ |- _ => destruct (wapp _ _ _ X) as [W1 W2] end. change (zlen [OP_LIT_INT; u32 (e_used E' - u); OP_POPN]) with 3 in W2.
    pose proof F as [Lf _]. destruct (split_at fr u ltac:(lia)) as (d & Ef & Ld). rewrite Ef, app_assoc in Hr.
    replace (e_used E' - u) with (zlen d) in W1 by lia.
    pose proof (i_popn _ _ a d Hr ltac:(rewrite <- app_assoc, <- Ef, zlen_app; lia) W1) as H1'.
    pose proof (i_goto _ _ _ _ H1' ltac:(rewrite zlen_app, zlen_first by lia; lia) W2 Ut) as H2'.
    exists (firstn (Z.to_nat u) fr). split; [exact H2'|]. apply frel_first; [exact F|lia].
  - (* function *)
    intros pre fr hv fa lp st ip a bb E' Sc R Ne L Lp F Hr In Lo. inversion Sc; subst. split; [reflexivity|]. unfold spare in H.
    lazymatch goal with X : declares s = false -> _ |- _ => specialize (X H0); subst end.
    lazymatch goal with X : mem_words _ a _ |- _ => destruct (wapp _ _ _ X) as [W1 W2] end. pose proof F as [Lf _].
    pose proof (i_fun _ _ a id Hr ltac:(rewrite zlen_app; lia) W1 ltac:(assumption)) as H1'.
    destruct (sim_decl E m (VFun id) pre fr hv (a + 2) H1' F Ne ltac:(assumption) ltac:(lia) W2) as (fr2 & H2' & F2).
    assert (zlen fr2 <= zlen fr + 1) as Z2.
    { destruct F2 as [-> _]. rewrite decl_len by exact Ne. destruct (e_scopes E) as [|g [|g' r]]; lia. }
    replace (a + 2 + zlen (decl_words E)) with (a + zlen ([OP_LIT_FUNC; u32 id] ++ decl_words E)) in H2' by (rewrite zlen_app, Z.add_assoc; reflexivity).
    assert (is_u32 b1) as Ub.
    { match goal with X : exists w, code (b1 - 1) = Some w |- _ => destruct X as [w Hw]; apply znth_some_range in Hw; apply C_u32; lia end. }
    lazymatch goal with J : mem_words _ _ (jump_words OP_JUMP _ _) |- _ => pose proof (i_goto _ _ _ _ H2' ltac:(rewrite zlen_app; lia) J Ub) as H3' end.
    exists fr2. auto.
  - (* end of a block *)
    intros pre fr hv fa lp st ip a bb E' Sc R Ne L Lp F Hr In Lo. inversion Sc; subst. split; [intros _; auto|]. exists fr. auto.
  - (* s l *)
    intros pre fr hv fa lp st ip a bb E' Sc R Ne L Lp F Hr In Lo. inversion Sc; subst.
    lazymatch goal with Q : scode _ _ _ _ _ s _ _ _ |- _ => pose proof (proj1 (code_range C ga) _ _ _ _ _ _ _ Q R) as Rb;
      destruct (H0 pre fr hv fa lp st ip _ _ _ Q R Ne L eq_refl F Hr In Lo) as [En (fr1 & H1' & F1)] end.
    specialize (En eq_refl). subst E1. destruct (ex_grows _ _ _ _ _ _ H Ne L) as [Gr Z]. specialize (Z eq_refl).
    pose proof (after_used s E Ne) as Au.
    lazymatch goal with Q : sscode _ _ _ _ _ l _ _ _ |- _ => destruct (H2 pre fr1 hv fa lp st ip _ _ _ Q Rb (after_scopes _ _ Ne) Z eq_refl F1 H1') as [Ex Ed] end.
    { eapply grows_inside; [exact In|exact L|exact Gr]. }
    { destruct lp as [[T u]|]; [|exact I]. destruct Lo. split; [assumption|lia]. }
    split; [|exact Ed]. intro O. destruct (Ex O) as (A & B & D). rewrite (after_base _ _ Ne) in B. auto.
  - (* s l, left in s *)
    intros pre fr hv fa lp st ip a bb E' Sc R Ne L Lp F Hr In Lo. inversion Sc; subst. split; [contradiction|].
    lazymatch goal with Q : scode _ _ _ _ _ s _ _ _ |- _ => 
      destruct (H0 pre fr hv fa lp st ip _ _ _ Q R Ne L eq_refl F Hr In Lo) as [_ K] end.
    destruct out; [contradiction|exact K|exact K].
  - (* the condition fails *)
    intros pre fr hv fa T u st ip a x Lc R Ux Ne L Lp F Hr In Lo. apply D_ev_ev in H0.
    destruct Lc as (b1 & ue & b1' & b2 & E1 & b3 & Xc & J & _). pose proof (ev_kept _ _ _ _ _ _ H) as Kp.
    destruct (sim_test _ _ _ _ _ _ _ _ _ _ _ _ _ _ H H0 Xc L Lp F Hr H1 H2 J Ux Kp) as (Eu & fr1 & H1' & F1). cbn [Z.eqb] in H1'.
    destruct Kp as [Kl _]. left. exists fr1. split; [exact H1'|]. split; [exact F1|]. rewrite Kl. auto.
  - (* the body leaves *)
    intros pre fr hv fa T u st ip a x Lc R Ux Ne L Lp F Hr In Lo. apply D_ev_ev in H0.
    destruct (sim_body _ _ _ _ _ _ _ _ _ _ _ _ _ _ _ _ _ _ _ _ _ H H0 H1 H2 H3 H4 H5 Lc R Ux Ne L Lp F Hr In Lo) as (b3 & K & _).
    destruct out as [| |w]; cbn [leave stops] in *; [contradiction| |exact K]. right. exact K.
  - apply D_ev_ev in H0. eapply sim_again; eassumption.
  - apply D_ev_ev in H0. eapply sim_step; eassumption.
Qed.

Theorem simulation :
  (forall E h m n v m', ev funs lim mf E h m n v m' -> S_ev E h m n v m') /\
  (forall E h m n v m', evs funs lim mf E h m n v m' -> S_evs E h m n v m') /\
  (forall E b m s o m', ex funs lim mf E b m s o m' -> S_ex E b m s o m') /\
  (forall E b m l o m', exs funs lim mf E b m l o m' -> S_exs E b m l o m') /\
  (forall E b m e s i o m', loops funs lim mf E b m e s i o m' -> S_loops E b m e s i o m').
Proof. destruct simulation_all as [H K]. split; [|exact K]. intros. apply D_ev_ev. auto. Qed.
End Sim.
