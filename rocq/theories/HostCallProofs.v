(** * HostCallProofs: the host calls a function of the script (used by
    RunProofs, RunProperties) *)

From Verif Require Import Base BaseFacts State MonadFacts StackModel VmModel OpSpec InsnSpec CallSpec OpProofs CallProofs
  TableProofs TextProofs TokenModel TokenProofs CsModel ExprModel ParseSpec VmSpec VmStep RunSpec CodeRel UseProofs
  RepSpec HeapProofs MachProofs ExecProofs SimProofs.
From Coq Require Import ZArith List Lia Bool.
Import ListNotations.
Open Scope Z_scope.

(** The functions of the script are in the machine's table, and their code is
    in the code [C]. *)
Definition functions_at {LT : Lits} (C : list Z) (FT : list func) (ng : Z) (funs : Z -> option fundef) : Prop :=
  forall id fd, funs id = Some fd -> exists f, znth FT id = Some f /\ f_ext f = INVALID /\
    f_argc f = zlen (fd_params fd) /\ 0 <= f_first f <= zlen C /\ fcode (code C) (mkAround ng funs) fd (f_first f).

(** A machine that contains a compiled program with the functions [funs], the
    memory being [m] ([W]: the identifiers of the objects) and [L] being on the
    operand stack; [lim], [mf]: the space there is at least, as in RunSpec. *)
Record resting {LT : Lits} (funs : Z -> option fundef) (lim mf : Z) (t : vm) (W : Z -> option Z) (L : list val) (m : mem) : Prop := {
  rt_code : pow2 (zlen (v_code t));
  rt_lim : lim <= 65536;
  rt_mf : mf < W32;
  rt_inv : exists ng, inv (v_code t) (v_funcs t) lim ng mf t /\ functions_at (v_code t) (v_funcs t) ng funs;
  rt_wf : wf true 0 t;
  rt_mem : exists mm l, world lit t W mm (m_heap m) /\ globs t W (m_global m) /\ Forall2 (rep t W) L l /\ stack_is t l
}.

(** The first part of nkiVmCallFunction, up to the first instruction of the
    function.  /repo/src/nkfunc.c:87-116. *)
Definition enter (host : Z -> list value -> M value) (fv : value) (args : list value) : M unit :=
  push fv ;;;
  push_all args ;;;
  push_int (zlen args) ;;;
  set_ip (INVALID - 1) ;;;
  op_call host ;;;
  ip <- get_ip ;;
  set_ip (u32 (ip + 1)).

Lemma moved_frame t l ip t' : moved t l ip t' -> frame t' = frame t.
Proof. intros (c & k & _ & _ & _ & ->). reflexivity. Qed.
Lemma moved_stack t l ip t' : moved t l ip t' -> stack_is t' l /\ ip_is t' ip.
Proof.
  intros (c & k & Hc & Wk & Ck & ->). pose proof (znth_some_range _ _ _ Hc) as Rg.
  split; eexists; vs; (split; [apply znth_zupd_same; exact Rg|]); auto.
Qed.
Lemma moved_moved t l ip t' l' ip' t'' : moved t l ip t' -> moved t' l' ip' t'' -> moved t l' ip' t''.
Proof.
  intros (c & k & Hc & Wk & Ck & ->) (c' & k' & Hc' & Wk' & Ck' & ->). pose proof (znth_some_range _ _ _ Hc) as Rg.
  vsin Hc'. rewrite znth_zupd_same in Hc' by exact Rg. injection Hc' as <-. exists c, k'. repeat (split; [assumption|]).
  vs. rewrite zupd_zupd. reflexivity.
Qed.
(** Moving things on the stack keeps the memory. *)
Lemma moved_world lt t t' l' ip' W mm h g : wf true 0 t -> world lt t W mm h -> globs t W g -> moved t l' ip' t' ->
  wf true 0 t' /\ world lt t' W mm h /\ globs t' W g /\ forall v x, rep t W v x -> rep t' W v x.
Proof.
  intros Wf D G Mv. destruct (moved_upd _ _ _ _ Mv) as (c & k & Hc & Wk & Ck & E). pose proof (znth_some_range _ _ _ Hc) as Rg.
  destruct Mv as (c' & k' & Hc' & _ & Ck' & E'). rewrite Hc in Hc'. injection Hc' as <-.
  assert (forall v x, rep t W v x -> rep t' W v x) as Rm by (intros v x; apply rep_mono; auto; rewrite E'; auto).
  split; [|split; [|split; [|exact Rm]]].
  - rewrite E. apply (wf_upd_cur true 0 t _ c Wf Hc); auto.
  - apply (world_same lt t t'); auto; try (rewrite E'; reflexivity).
    + rewrite E'. eexists. vs. apply znth_zupd_same. exact Rg.
    + rewrite E'. apply (wd_static _ _ _ _ _ D).
  - intros i v Gi. rewrite E'. vs. destruct (G i v Gi) as (A & x & B & Cx). split; [exact A|]. exists x. split; [exact B|]. rewrite E' in Rm. auto.
Qed.

Lemma push_all_fits s xs : forall l n t, rs s l n t -> CallSpec.fits s (l ++ xs) -> exists t', push_all xs t = Ok (tt, t') /\ exists n', rs s (l ++ xs) n' t'.
Proof.
  induction xs as [|x xs IH]; intros l n t R F; cbn [push_all].
  - exists t. split; [reflexivity|]. rewrite app_nil_r. eauto.
  - destruct (push_fits s l x n t R) as (t1 & P & R1). { revert F. unfold CallSpec.fits. rewrite !zlen_app, !zlen_cons, zlen_nil. pose proof (zlen_nonneg xs). lia. }
    rewrite (bind_run _ _ _ _ _ P). replace (l ++ x :: xs) with ((l ++ [x]) ++ xs) in * by (rewrite <- app_assoc; reflexivity). eauto.
Qed.

Ltac zl := repeat first [rewrite zlen_app|rewrite zlen_cons|rewrite zlen_nil].

Section Call.
Variable hostmark : Z -> Z -> option Z -> list value.
Variable host : Z -> list value -> M value.

Lemma enter_run t l fv xs f ip : stack_is t l -> ip_is t ip -> function_is t fv f -> f_ext f = INVALID -> f_argc f = zlen xs -> is_u32 (f_first f) ->
  CallSpec.fits t (l ++ call_frame fv xs ++ [vint (INVALID - 1)]) -> v_errs t = [] ->
  exists t1, enter host fv xs t = Ok (tt, t1) /\ moved t (l ++ call_frame fv xs ++ [vint (INVALID - 1)]) (f_first f) t1 /\
  forall n t2 x t3 t4, call_loop hostmark host n t1 = Ok (true, t2) -> pop t2 = Ok (x, t3) -> set_ip ip t3 = Ok (tt, t4) ->
    call_function hostmark host n fv xs t = Ok (Some (Some x), t4).
Proof.
  intros St Ip Fi X Ac U F N. pose proof (rs_start _ _ St) as R.
  assert (v_type fv = T_FUNC) as Tf by apply Fi. unfold enter, call_function.
  assert (forall z, zlen z <= zlen (call_frame fv xs) -> CallSpec.fits t (l ++ z)) as Fz.
  { intros z Lz. revert F. unfold CallSpec.fits. rewrite !zlen_app. change (zlen [vint (INVALID - 1)]) with 1. lia. }
  unfold call_frame in Fz. pose proof (zlen_nonneg xs) as Nx.
  destruct (push_fits t l fv _ t R) as (s1 & P1 & R1). { apply Fz. zl. lia. }
  destruct (push_all_fits t xs _ _ _ R1) as (s2 & P2 & n2 & R2). { rewrite <- app_assoc. apply Fz. cbn [app]. zl. lia. }
  destruct (push_fits t _ (vint (zlen xs)) _ s2 R2) as (s3 & P3 & R3). { rewrite <- !app_assoc. apply Fz. cbn [app]. lia. }
  assert ((((l ++ [fv]) ++ xs) ++ [vint (zlen xs)]) = l ++ call_frame fv xs) as Q by (unfold call_frame; rewrite <- !app_assoc; reflexivity). rewrite Q in R3.
  destruct (set_ip_run _ _ _ _ (INVALID - 1) R3) as (s4 & P4 & M4). destruct (moved_stack _ _ _ _ M4) as [St4 Ip4].
  assert (function_is s4 fv f) as Fi4. { destruct M4 as (? & ? & _ & _ & _ & ->). exact Fi. }
  destruct (script_run host s4 l fv xs _ _ fv f (INVALID - 1) (rs_start _ _ St4) Fi4 (or_intror Ac) X Ip4) as (s5 & P5 & M5).
  { destruct M4 as (? & ? & _ & _ & _ & ->). exact F. }
  assert (op_call host s4 = Ok (tt, s5)) as P5'.
  { rewrite (call_start host _ _ _ _ _ _ (rs_start _ _ St4)).
    rewrite (bind_run _ _ _ _ _ (resolve_end (Some fv) fv 10 _ _ (or_introl eq_refl) ltac:(rewrite Tf; discriminate))). exact P5. }
  pose proof (moved_moved _ _ _ _ _ _ _ M4 M5) as M. destruct (moved_stack _ _ _ _ M5) as [St5 Ip5]. pose proof (rs_start _ _ St5) as R5.
  pose proof (get_ip_run _ _ _ _ _ R5 Ip5) as P6. destruct (set_ip_run _ _ _ _ (u32 (u32 (f_first f - 1) + 1)) R5) as (s7 & P7 & M7).
  pose proof (moved_moved _ _ _ _ _ _ _ M M7) as M8. replace (u32 (u32 (f_first f - 1) + 1)) with (f_first f) in M8 by (unfold is_u32, u32, W32 in *; lia).
  exists s7. split; [|split; [exact M8|]].
  - rewrite (bind_run _ _ _ _ _ P1), (bind_run _ _ _ _ _ P2). unfold push_int. rewrite (bind_run _ _ _ _ _ P3), (bind_run _ _ _ _ _ P4), (bind_run _ _ _ _ _ P5'), (bind_run _ _ _ _ _ P6). exact P7.
  - intros n t2 x t3 t4 Lo Po Se. rewrite Tf. change (T_FUNC =? T_FUNC) with true. cbn [negb]. cbv iota.
    rewrite (bind_run _ _ _ _ _ (get_ip_run _ _ _ _ _ R Ip)), (bind_run _ _ _ _ _ P1), (bind_run _ _ _ _ _ P2). unfold push_int.
    rewrite (bind_run _ _ _ _ _ P3), (bind_run _ _ _ _ _ P4), (bind_run _ _ _ _ _ P5'). unfold mbind at 1, self, gets.
    assert (has_errors s5 = false) as He. { destruct M as (? & ? & _ & _ & _ & ->). unfold has_errors. vs. rewrite N. reflexivity. }
    rewrite He. rewrite (bind_run _ _ _ _ _ P6), (bind_run _ _ _ _ _ P7), (bind_run _ _ _ _ _ Lo). cbv iota.
    rewrite (bind_run _ _ _ _ _ Po), (bind_run _ _ _ _ _ Se). reflexivity.
Qed.

Lemma cur_get_ip t ip : ip_is t ip -> get_ip t = Ok (ip, t).
Proof. intros (c & H & I). unfold get_ip. rewrite (bind_run _ _ _ _ _ (cur_ctx_ok _ _ H)). cs. rewrite I. reflexivity. Qed.

Lemma steps_loop t t' : steps hostmark host t t' -> has_errors t = false -> (exists ip, ip_is t ip) -> ip_is t' INVALID -> has_errors t' = false ->
  exists n, call_loop hostmark host n t = Ok (true, t').
Proof.
  intros St. induction St as [t|t w t1 t2 Fe Ne It He Eq Ni St IH]; intros N (ip & Ip) Ie Ne'.
  - exists 0%nat. cbn [call_loop]. rewrite (bind_run _ _ _ _ _ (cur_get_ip _ _ Ie)). unfold mbind, self, gets. rewrite Z.eqb_refl. reflexivity.
  - destruct IH as (n & X); auto.
    { inversion St; subst; eauto. clear -H. unfold fetch, get_ip, cur_ctx, mbind, gets, get_ctx in H. cbv beta in H.
      destruct (znth (v_ctxs t1) (v_cur t1)) as [[c|]|] eqn:Q; [|discriminate..]. exists (c_ip c), c. auto. }
    exists (S n). cbn [call_loop]. rewrite (bind_run _ _ _ _ _ (cur_get_ip _ _ Ip)). unfold mbind at 1, self, gets. rewrite N.
    destruct (Z.eqb_spec ip INVALID) as [->|_]; [contradiction|]. cbn [orb]. rewrite (bind_run _ _ _ _ _ It). exact X.
Qed.

Context {LT : Lits} {HS : Hosts}.

Lemma implements_frame t t' : frame t' = frame t -> implements host t -> implements host t'.
Proof.
  intros F [I1 I2]. split.
  - intros id vs m v m' H. destruct (I1 _ _ _ _ _ H) as (cb & X). exists cb. intros t1 W mm st xs F1. apply X. congruence.
  - intros id vs m m' H. destruct (I2 _ _ _ _ H) as (cb & X). exists cb. intros t1 W mm st xs F1. apply X. congruence.
Qed.

Lemma host_call funs lim mf t W L m ip fv id fd vs xs o m' v :
  resting funs lim mf t W L m -> implements host t -> ip_is t ip ->
  rep t W (VFun id) fv -> funs id = Some fd -> zlen (fd_params fd) = zlen vs -> Forall2 (rep t W) vs xs -> zlen L + zlen vs + 3 <= lim ->
  (forall t1 t', enter host fv xs t = Ok (tt, t1) -> steps hostmark host t1 t' -> enough t') ->
  ex funs lim mf (fun_env fd) (zlen L + 1) (set_locals (map Some vs ++ [None; None]) m) (fd_body fd) o m' ->
  (o = Next /\ v = VInt 0 /\ spare lim (zlen L + 1 + zlen (m_local m')) \/ o = Returned v) ->
  exists n x t' W', call_function hostmark host n fv xs t = Ok (Some (Some x), t') /\
    v_errs t' = [] /\ ip_is t' ip /\ frame t' = frame t /\ rep t' W' v x /\ resting funs lim mf t' W' L m'.
Proof.
  intros [P2 Ll Lf (ng & Iv & Fa) Wf (mm & l & D & G & Rl & Sl)] Im Ip [-> Uid] Fn Np Rx B Rm Ex Out.
  destruct (Fa _ _ Fn) as (f & Fi & Fx & Fc & Fr & Co). pose proof (Forall2_zlen _ _ _ Rx) as Zx. pose proof (Forall2_zlen _ _ _ Rl) as Zl.
  pose proof (zlen_nonneg L) as NL. pose proof (zlen_nonneg vs) as Nv.
  assert (is_u32 (f_first f)) as Uf. { destruct P2 as (e & Re & Ee). pose proof (Z.pow_le_mono_r 2 e 31 ltac:(lia) ltac:(lia)). change (2 ^ 31) with 2147483648 in *. unfold is_u32, W32. lia. }
  destruct (enter_run t l (mkV T_FUNC id) xs f ip Sl Ip (conj eq_refl Fi) Fx ltac:(lia) Uf) as (t1 & En & M1 & Fin).
  { pose proof (i_max _ _ _ _ _ _ Iv). unfold CallSpec.fits, call_frame. repeat first [rewrite zlen_app|rewrite zlen_cons|rewrite zlen_nil]. lia. }
  { exact (i_errs _ _ _ _ _ _ Iv). }
  pose proof (moved_frame _ _ _ _ M1) as F1. pose proof (inv_frame _ _ _ _ _ _ _ F1 Iv) as Iv1. pose proof (implements_frame _ _ F1 Im) as Im1.
  destruct (moved_world _ _ _ _ _ _ _ _ _ Wf D G M1) as (Wf1 & D1 & G1 & K1). destruct (moved_stack _ _ _ _ M1) as [S1 I1].
  assert (forall t', steps hostmark host t1 t' -> enough t') as Rm1 by (intros; eapply Rm; eauto).
  assert (forall a b, Forall2 (rep t W) a b -> Forall2 (rep t1 W) a b) as K1'. { intros a b H. induction H; constructor; auto. }
  assert (MachProofs.at_ hostmark host t1 (L ++ VFun id :: vs ++ [VInt (zlen vs); VInt (-2)]) m (f_first f)) as H1.
  { exists t1. split; [apply st_refl|]. split; [reflexivity|exact Wf1|exact I1|]. exists W, mm, (l ++ call_frame (mkV T_FUNC id) xs ++ [vint (INVALID - 1)]).
    split; [exact D1|]. split; [exact G1|]. split; [|exact S1]. apply Forall2_app; [apply K1', Rl|]. unfold call_frame. cbn [app]. constructor; [split; [reflexivity|exact Uid]|].
    rewrite <- app_assoc. apply Forall2_app; [apply K1', Rx|]. cbn [app]. constructor; [rewrite Zx; split; [reflexivity|unfold is_s32, W31; lia]|]. constructor; [split; [reflexivity|unfold is_s32, W31; lia]|constructor]. }
  destruct (simulation hostmark host _ _ lim ng mf P2 Ll Lf t1 Iv1 Rm1 funs Fa Im1) as (_ & _ & Sx & _).
  pose proof (sim_inside hostmark host _ _ lim ng mf P2 Ll t1 Iv1 Rm1 funs Fa L id vs m (-2) (zlen L) fd f o m' v H1 ltac:(discriminate) Fi eq_refl B Fn Np Ex (Sx _ _ _ _ _ _ Ex) Out) as (t2 & St & H2).
  change (u32 (-2) + 1) with INVALID in H2.
  destruct (hr_mem _ _ _ _ _ H2) as (W2 & mm2 & l2 & D2 & G2 & R2 & S2). destruct (F2_snoc _ _ _ _ R2) as (l' & x & -> & Rl' & Rx').
  assert (has_errors t1 = false) as E1 by (unfold has_errors; rewrite (i_errs _ _ _ _ _ _ Iv1); reflexivity).
  pose proof (here_inv _ _ _ _ _ t1 Iv1 _ _ _ _ H2) as Iv2.
  assert (has_errors t2 = false) as E2 by (unfold has_errors; rewrite (i_errs _ _ _ _ _ _ Iv2); reflexivity).
  destruct (steps_loop _ _ St E1 (ex_intro _ _ I1) (hr_ip _ _ _ _ _ H2) E2) as (n & Lo).
  destruct (pop_rs _ _ _ _ _ (rs_start _ _ S2)) as (t3 & P3 & R3). destruct (set_ip_run _ _ _ _ ip R3) as (t4 & P4 & M4).
  pose proof (moved_frame _ _ _ _ M4) as F4. destruct (moved_world _ _ _ _ _ _ _ _ _ (hr_wf _ _ _ _ _ H2) D2 G2 M4) as (Wf4 & D4 & G4 & K4). destruct (moved_stack _ _ _ _ M4) as [S4 I4].
  assert (frame t4 = frame t) as F by (rewrite F4, (hr_frame _ _ _ _ _ H2); exact F1).
  exists n, x, t4, W2. split; [exact (Fin _ _ _ _ _ Lo P3 P4)|]. pose proof (inv_frame _ _ _ _ _ _ _ F Iv) as Iv4. split; [exact (i_errs _ _ _ _ _ _ Iv4)|].
  split; [exact I4|]. split; [exact F|]. split; [apply K4, Rx'|].
  assert (v_code t4 = v_code t) as Qc by (change (v_code (frame t4) = v_code (frame t)); rewrite F; reflexivity).
  assert (v_funcs t4 = v_funcs t) as Qf by (change (v_funcs (frame t4) = v_funcs (frame t)); rewrite F; reflexivity).
  split; rewrite ?Qc, ?Qf; auto.
  - exists ng. auto.
  - exists mm2, l'. split; [exact D4|]. split; [exact G4|]. split; [|exact S4]. clear -Rl' K4. induction Rl'; constructor; auto.
Qed.
End Call.
