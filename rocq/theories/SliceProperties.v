(** * SliceProperties: running a program in slices

    C64. *)

From Coq Require Import ZArith List Lia Bool.
From Verif Require Import Base BaseFacts State MonadFacts StackModel VmModel OpSpec CallSpec OpProofs CallProofs TokenModel TokenSpec TokenProperties CsModel ExprModel CompModel ParseSpec
  VmSpec VmStep VmProperties RunSpec CodeRel RepSpec MachProofs SimProofs HostCallProofs RunProofs RunProperties.
From Verif Require HostCallProperties.
From Verif Require Import StackProofs SliceSpec SliceProofs.
Import ListNotations.
Open Scope Z_scope.

Lemma fetch_runs b s : wf b 0 s -> exists w, fetch s = Ok (w, s).
Proof.
  intro W. destruct (wf_live _ _ _ W) as [c Hc]. unfold fetch. rewrite (bind_run _ _ _ _ _ (cur_ctx_ok _ _ Hc)).
  unfold mbind, self, gets, lift. destruct (w_code _ _ _ W) as [L (e & He & P)].
  assert (0 <= Z.land (c_ip c) (v_cmask s) < zlen (v_code s)) as R.
  { replace (v_cmask s) with (2 ^ e - 1) by lia. rewrite P. apply land_mask_range. lia. }
  destruct (rd_ok _ _ R) as [w E]. rewrite E. exists w. reflexivity.
Qed.

(** Asking whether the program has ended changes nothing, and the answer is
    yes exactly when the next instruction is the end of the program. *)
Theorem C64_ended s : vm_ok s -> exists b, program_has_ended s = Ok (b, s) /\ (b = true <-> at_end s).
Proof.
  intros [x W]. destruct (fetch_runs _ _ W) as (w & F). exists (w =? OP_END). split; [exact (fetch_ended _ _ F)|].
  unfold at_end. rewrite F. destruct (Z.eqb_spec w OP_END) as [->|Q]; [tauto|]. split; [discriminate|]. intro H. injection H as H. contradiction.
Qed.

(** Along an execution there are fewer than 2^32 - 1 collections. *)
Definition few_collections (hostmark : Z -> Z -> option Z -> list value) (host : Z -> list value -> M value) (s : vm) : Prop :=
  forall k t, did hostmark host k s t -> v_gcpass t < INVALID.

Lemma ok_fine hostmark prog s : vm_ok s -> few_collections hostmark (api_host hostmark prog) s -> fine hostmark (api_host hostmark prog) s.
Proof.
  intros V G k t D. assert (vm_ok t) as [b W].
  { revert V G. induction D as [s|n s s1 t E N I D IH]; intros V G; [exact V|]. apply IH.
    - pose proof (C18_step_safe hostmark prog s V N (G 0%nat s ltac:(constructor))) as X. rewrite I in X. exact X.
    - intros k2 t2 D2. apply (G (S k2)). econstructor; eauto. }
  destruct (fetch_runs _ _ W) as (w & F). split; [|eauto]. destruct (w_code _ _ _ W) as [L (e & Re & P)].
  pose proof (Z.pow_le_mono_r 2 e 31 ltac:(lia) ltac:(lia)). pose proof (Z.pow_pos_nonneg 2 e ltac:(lia) ltac:(lia)). change (2 ^ 31) with 2147483648 in *. unfold W32. lia.
Qed.

(** The end of the program was executed: the program is still at its end and
    the operand stack is as it was; errors reported before are still reported. *)
Definition end_executed (hostmark : Z -> Z -> option Z -> list value) (host : Z -> list value -> M value) (u t : vm) : Prop :=
  at_end u /\ iterate hostmark host u = Ok (tt, t) /\ at_end t /\ (forall l, stack_is u l -> stack_is t l) /\ exists e, v_errs t = v_errs u ++ e.

Lemma ended_at_end s : program_has_ended s = Ok (true, s) -> at_end s.
Proof. intro P. destruct (ended_fetch _ _ _ P) as (_ & w & F & W). symmetry in W. apply Z.eqb_eq in W. subst w. exact F. Qed.

(** What a run in one go does, slices that allow as many instructions do, in
    whatever numbers they come: they stop with the same machine, but that the
    end of the program, if that is where it is, may be executed once. *)
Theorem C64_same_run hostmark prog s counts n r u :
  vm_ok s -> has_errors s = false -> few_collections hostmark (api_host hostmark prog) s ->
  execute hostmark (api_host hostmark prog) n s = Ok (Some r, u) -> (n <= allowed counts)%nat ->
  match sliced hostmark (api_host hostmark prog) counts s with
  | Ok (b, t) => b = true /\ (t = u \/ end_executed hostmark (api_host hostmark prog) u t)
  | Ub x => at_end u /\ iterate hostmark (api_host hostmark prog) u = Ub x
  end.
Proof.
  intros V N G E L. pose proof (ok_fine _ _ _ V G) as F. destruct (exec_did _ _ _ _ _ _ N E) as (k & Lk & D & X).
  assert (over u) as O by (destruct r; [right; apply X|left; exact X]).
  destruct (did_sliced _ _ counts k s u F D O ltac:(lia)) as [Q|[P Q]]; rewrite Q; [auto|].
  unfold mbind. destruct (iterate _ _ u) as [[[] t]|x] eqn:I; [|split; [apply ended_at_end, P|auto]]. unfold ret. split; [reflexivity|]. right.
  destruct (end_inv _ _ _ _ P I (proj1 (F _ _ D))) as (A & B & C). split; [apply ended_at_end, P|]. split; [exact I|]. split; [apply ended_at_end, A|auto].
Qed.

(** And the other way round: what slices do, a run in one go does.  Slices that
    leave the program running have executed exactly as many instructions as
    they were given. *)
Theorem C64_same_slices hostmark prog s counts b t :
  vm_ok s -> has_errors s = false -> few_collections hostmark (api_host hostmark prog) s ->
  sliced hostmark (api_host hostmark prog) counts s = Ok (b, t) ->
  if b then exists n r u, (n <= allowed counts)%nat /\ execute hostmark (api_host hostmark prog) n s = Ok (Some r, u) /\
    (r = false -> has_errors u = true) /\ (t = u \/ end_executed hostmark (api_host hostmark prog) u t)
  else did hostmark (api_host hostmark prog) (allowed counts) s t /\ has_errors t = false /\ ~ at_end t /\
    execute hostmark (api_host hostmark prog) (allowed counts) s = Ok (None, t).
Proof.
  intros V N G E. pose proof (ok_fine _ _ _ V G) as F. destruct (sliced_did _ _ _ _ _ _ F N E) as (k & u & L & D & X). destruct b.
  - destruct X as [O X]. assert (t = u \/ end_executed hostmark (api_host hostmark prog) u t) as T.
    { destruct X as [->|[P I]]; [auto|]. right. destruct (end_inv _ _ _ _ P I (proj1 (F _ _ D))) as (A & B & C).
      split; [apply ended_at_end, P|]. split; [exact I|]. split; [apply ended_at_end, A|auto]. }
    destruct (has_errors u) eqn:He.
    + exists k, false, u. split; [exact L|]. split; [exact (did_failed _ _ _ _ _ D N He)|auto].
    + exists k, true, u. split; [exact L|]. destruct O as [O|O]; [congruence|]. split; [|split; [discriminate|auto]].
      rewrite <- (Nat.add_0_r k), (did_execute _ _ _ 0 _ _ D He). cbn [execute]. destruct (ended_fetch _ _ _ O) as (_ & w & Fw & W). rewrite (bind_run _ _ _ _ _ Fw), <- W. reflexivity.
  - destruct X as (-> & -> & He & P). split; [exact D|]. split; [exact He|]. destruct (ended_fetch _ _ _ P) as (_ & w & Fw & W). split.
    + unfold at_end. rewrite Fw. intro H. injection H as ->. discriminate W.
    + rewrite <- (Nat.add_0_r (allowed counts)), (did_execute _ _ _ 0 _ _ D He). cbn [execute]. rewrite (bind_run _ _ _ _ _ Fw), <- W. reflexivity.
Qed.

(** ** Scripts *)

Lemma steps_slices hostmark host s u : steps hostmark host s u -> at_end u -> has_errors s = false -> 0 <= v_cmask s < W32 ->
  fine hostmark host s /\ exists n, did hostmark host n s u.
Proof.
  induction 1 as [s|s w s1 u F Nw I N1 Fr _ St IH]; intros E N R.
  - pose proof (fetch_ended _ _ E) as P. cbn in P. split; [|exists 0%nat; constructor]. intros k t D. destruct D as [s|k s s1 t P2 _ _ _]; [split; [exact R|eauto]|].
    rewrite P in P2. discriminate.
  - pose proof (fetch_ended _ _ F) as P. destruct (Z.eqb_spec w OP_END) as [|_]; [contradiction|].
    destruct (IH E N1) as [Fi (n & D)]; [change (v_cmask s1) with (v_cmask (frame s1)); rewrite Fr; exact R|].
    split; [|exists (S n); econstructor; eauto]. intros k t D2. destruct D2 as [s|k s s2 t P2 _ I2 D2]; [split; [exact R|eauto]|].
    rewrite I in I2. injection I2 as <-. eapply Fi; eauto.
Qed.

Lemma upd_twice {A} (l : list A) i x y : zupd (zupd l i x) i y = zupd l i y.
Proof.
  unfold zupd. destruct (i <? 0); [reflexivity|]. generalize (Z.to_nat i). induction l as [|a l IH]; intros [|n]; cbn; auto. f_equal. apply IH.
Qed.
Lemma upd_same {A} (l : list A) i x : znth l i = Some x -> zupd l i x = l.
Proof.
  unfold zupd, znth. intro H. assert (nth_error l (Z.to_nat i) = Some x) as K by (revert H; destruct ((i <? 0) || (zlen l <=? i)); congruence). clear H.
  destruct (i <? 0); [reflexivity|]. revert K. generalize (Z.to_nat i). induction l as [|a l IH]; intros [|n] H; cbn in *; try discriminate; [congruence|]. f_equal. auto.
Qed.
Lemma end_here {LT : Lits} hostmark host C FT lim ng mf t m ip : inv C FT lim ng mf t -> here t t [] m ip -> is_u32 ip -> v_gcpass t < INVALID -> at_end t ->
  exists t1, iterate hostmark host t = Ok (tt, t1) /\ here t t1 [] m ip.
Proof.
  intros I H U G E. destruct (tick_here hostmark _ _ _ _ _ _ I _ _ _ _ H G) as (t1 & T & H1 & _). exists t1. split; [|exact H1].
  unfold iterate. rewrite (bind_run _ _ _ _ _ E), (bind_run _ _ _ _ _ T). change (opcode host (Z.land OP_END 63)) with op_end.
  destruct (hr_ip _ _ _ _ _ H1) as (c & Hc & Ic). destruct (hr_mem _ _ _ _ _ H1) as (W & mm & l & _ & _ & R & (c' & Hc' & Ck)). inversion R; subst l. rewrite Hc in Hc'. injection Hc' as <-.
  assert (k_size (c_stack c) = 0) as Z0.
  { destruct Ck as [Wk Ck]. rewrite <- (contents_len _ Wk), Ck. reflexivity. }
  assert (forall x : ctx, znth (v_ctxs t1) (v_cur t1) = Some (Some x) -> set_ctxs (zupd (v_ctxs t1) (v_cur t1) (Some x)) t1 = t1) as Same.
  { intros x Hx. rewrite upd_same by exact Hx. destruct t1; reflexivity. }
  assert (op_end t1 = Ok (tt, set_ctxs (zupd (v_ctxs t1) (v_cur t1) (Some (set_c_ip (u32 (ip - 1)) c))) t1)) as Eo.
  { unfold op_end. assert (stack_size t1 = Ok (0, t1)) as S0 by (unfold stack_size; rewrite (bind_run _ _ _ _ _ (cur_ctx_ok _ _ Hc)); unfold ret; rewrite Z0; reflexivity).
    rewrite (bind_run _ _ _ _ _ S0). cbn [Z.eqb]. unfold mbind at 1, ret at 1.
    assert (get_ip t1 = Ok (ip, t1)) as G0 by (unfold get_ip; rewrite (bind_run _ _ _ _ _ (cur_ctx_ok _ _ Hc)); unfold ret; rewrite Ic; reflexivity).
    rewrite (bind_run _ _ _ _ _ G0). unfold set_ip. rewrite (mod_cur_ok _ _ _ Hc). reflexivity. }
  rewrite (bind_run _ _ _ _ _ Eo). pose proof (znth_some_range _ _ _ Hc) as Rg. set (t2 := set_ctxs _ t1).
  assert (znth (v_ctxs t2) (v_cur t2) = Some (Some (set_c_ip (u32 (ip - 1)) c))) as H2 by (unfold t2; vs; apply znth_zupd_same; exact Rg).
  assert (get_ip t2 = Ok (u32 (ip - 1), t2)) as G0 by (unfold get_ip; rewrite (bind_run _ _ _ _ _ (cur_ctx_ok _ _ H2)); reflexivity).
  rewrite (bind_run _ _ _ _ _ G0). unfold set_ip. rewrite (mod_cur_ok _ _ _ H2). f_equal. f_equal. unfold t2. vs.
  assert (u32 (u32 (ip - 1) + 1) = ip) as ->.
  { unfold u32. rewrite Zplus_mod_idemp_l. replace (ip - 1 + 1) with ip by lia. apply Z.mod_small. exact U. }
  rewrite upd_twice. transitivity (set_ctxs (zupd (v_ctxs t1) (v_cur t1) (Some c)) t1); [|apply Same, Hc].
  assert (set_c_ip ip (set_c_ip (u32 (ip - 1)) c) = c) as -> by (rewrite <- Ic at 1; destruct c; reflexivity). destruct t1; reflexivity.
Qed.

(** C40 holds in slices: a script does what the rules of the language say, no
    matter in what numbers its instructions are executed, and if the end of the
    program is executed, nothing changes and no error is reported.  [enough],
    [implements]: as in C40.  Partial, as C40: no coroutines. *)
Theorem C64_scripts_partial {HS : Hosts} hostmark host s k E text fname fuel k1 u k2 toks vm' :
  fresh s -> setup s k E -> is_text text -> zlen text < W31 ->
  compile_script fuel text fname k = Ok (true, k1) -> finalize k1 = Ok (u, k2) -> v_errs (k_vm k2) = [] ->
  tokenize text fname (k_vm k) = Ok (Some toks, vm') ->
  exists l funs, toks = sstext l /\ swritten l /\ sdefined funs E l /\
  forall lim mf st g0 o m', lim <= 65536 -> 2 * lim - 2 <= v_maxstack s -> mf < W32 -> mf <= v_maxfields s ->
    zlen st = zlen (v_static (k_vm k2)) -> (forall x, In x st -> exists v, rep (k_vm k2) nothing v x) ->
    globs (set_static st (k_vm k2)) nothing g0 ->
    (forall t, steps hostmark host (set_static st (k_vm k2)) t -> enough t) ->
    implements (LT := kept_of (k_vm k2)) host (set_static st (k_vm k2)) ->
    exs funs lim mf E 0 (mkMem g0 [] []) l o m' ->
    o = Next /\ exists n, forall counts, (n <= allowed counts)%nat ->
      exists t', sliced hostmark host counts (set_static st (k_vm k2)) = Ok (true, t') /\
      v_errs t' = [] /\ at_end t' /\ stack_is t' [] /\ frame t' = frame (k_vm k2) /\
      exists W, heap_is t' W (m_heap m') /\
      forall name i v, lookup name (e_scopes (afters l E)) = Some (Global i) -> m_global m' i = Some v ->
        global_is t' W name v.
Proof.
  intros F Su St Zt Hc Hf N Tk. destruct (setup_up _ _ _ F Su) as [R Ma (sc & Es & Ag)].
  destruct (run_script hostmark host _ _ _ _ _ _ _ _ _ _ Hc Hf N R Ma Es Ag (text_script _ St) Zt (fresh_wf _ F) (f_objs _ F) (f_cur _ F) (f_stack _ F) (f_ip _ F) (f_left _ F)) as (toks' & vm1 & Tk' & X).
  assert (live_ctx (k_vm k) (v_cur (k_vm k))) as Lc.
  { destruct (f_stack _ F) as (c & A & _). exists c. rewrite (machine_ctxs _ _ Ma), (machine_cur _ _ Ma). exact A. }
  pose proof (tokens_text _ _ _ _ _ Lc St Tk) as Tt.
  rewrite Tk in Tk'. injection Tk' as <- <-. destruct (X Tt) as (l & funs & A & B & C & Fg & Eg & Y). exists l, funs. split; [exact A|]. split; [exact B|]. split; [exact C|].
  intros lim mf st g0 o m' L1 L2 L3 L4 Zs Vs Gl Rm Im Ex. destruct (proj2 (Y lim mf st g0 L1 L2 L3 L4 Zs Vs Gl Rm Im) o m' Ex) as (-> & _ & t & _ & Er & Ot & Sk & W & _ & _ & Rt & Sp & ip & U & Ip & Fe). split; [reflexivity|].
  set (t0 := set_static st (k_vm k2)) in *. clear X Y. set (LT := kept_of (k_vm k2)) in *.
  destruct Rt as [Rc _ _ (ng & Iv & _) Wt (mm & lx & Wd & Gm & Rl & Sl)].
  assert (here t t [] m' ip) as Ht by (split; [reflexivity|exact Wt|exact Ip|exists W, mm, lx; auto]).
  destruct (Rm _ Sp) as (Gp & _).
  assert (forall t', here t t' [] m' ip -> at_end t' /\ v_errs t' = [] /\ stack_is t' [] /\ frame t' = frame (k_vm k2) /\ exists W, heap_is t' W (m_heap m') /\
    forall name i v, lookup name (e_scopes (afters l E)) = Some (Global i) -> m_global m' i = Some v -> global_is t' W name v) as Good.
  { intros t' H'. pose proof (hr_frame _ _ _ _ _ H') as Fr. pose proof Fr as Fr'. rewrite Ot in Fr'. split; [|split; [|split; [|split; [exact Fr'|]]]].
    - pose proof (fetch_inv _ _ _ Fe) as _. destruct (hr_ip _ _ _ _ _ H') as (c & Hc' & Ic). destruct Ip as (c0 & Hc0 & Ic0).
      unfold at_end, fetch in *. rewrite (bind_run _ _ _ _ _ (cur_ctx_ok _ _ Hc0)) in Fe. rewrite (bind_run _ _ _ _ _ (cur_ctx_ok _ _ Hc')).
      unfold mbind, self, gets, lift in *. rewrite Ic0 in Fe. rewrite Ic. pose proof (f_equal v_code Fr) as Q1. pose proof (f_equal v_cmask Fr) as Q2. unfold frame in Q1, Q2. vsin Q1. vsin Q2. rewrite Q1, Q2.
      destruct (rd _ _); [|discriminate]. injection Fe as ->. reflexivity.
    - change (v_errs (frame t') = []). rewrite Fr'. exact N.
    - destruct (hr_mem _ _ _ _ _ H') as (W' & mm' & l' & _ & _ & R' & S'). inversion R'; subst l'. exact S'.
    - destruct (hr_mem _ _ _ _ _ H') as (W' & mm' & l' & D' & G' & _ & _). exists W'. split; [exact (world_heap _ _ _ _ _ D')|].
      intros name i v Lk Gi. destruct (G' _ _ Gi) as (Ri & x & Zx & Rx). exists i, x. split; [|auto].
      specialize (Fg name). rewrite Lk in Fg. unfold find_global in *. rewrite <- Fg. pose proof (f_equal v_globals Fr') as Q1. pose proof (f_equal v_smask Fr') as Q2. unfold frame in Q1, Q2. vsin Q1. vsin Q2. rewrite Q1, Q2. reflexivity. }
  assert (has_errors t0 = false) as N0 by (unfold has_errors, t0; vs; rewrite N; reflexivity).
  assert (0 <= v_cmask t0 < W32) as R0.
  { change (v_cmask t0) with (v_cmask (frame (k_vm k2))). rewrite <- Ot. change (v_cmask (frame t)) with (v_cmask t).
    destruct (w_code _ _ _ Wt) as [Lw (e & Re & P)]. pose proof (Z.pow_le_mono_r 2 e 31 ltac:(lia) ltac:(lia)). pose proof (Z.pow_pos_nonneg 2 e ltac:(lia) ltac:(lia)). change (2 ^ 31) with 2147483648 in *. unfold W32. lia. }
  destruct (steps_slices _ _ _ _ Sp Fe N0 R0) as [Fi (n & D)]. exists n. intros counts Ln.
  destruct (did_sliced _ _ counts n _ _ Fi D (or_intror (fetch_ended _ _ Fe)) Ln) as [Q|[_ Q]].
  - exists t. split; [exact Q|]. destruct (Good t Ht) as (G1 & G2 & G3 & G4 & G5). auto.
  - destruct (end_here hostmark host _ _ _ _ _ _ _ _ Iv Ht U Gp Fe) as (t' & I & H'). exists t'. split.
    + rewrite Q, (bind_run _ _ _ _ _ I). reflexivity.
    + destruct (Good t' H') as (G1 & G2 & G3 & G4 & G5). auto.
Qed.

Print Assumptions C64_ended.
Print Assumptions C64_same_run.
Print Assumptions C64_same_slices.
Print Assumptions C64_scripts_partial.

(** ** Cases *)

Fixpoint fewb hostmark host (n : nat) (s : vm) : bool :=
  (v_gcpass s <? INVALID) && (has_errors s || match program_has_ended s with
  | Ok (false, _) => match n with O => false | S n => match iterate hostmark host s with Ok (_, s1) => fewb hostmark host n s1 | Ub _ => true end end
  | _ => true
  end).
Lemma fewb_few hostmark host n : forall s, fewb hostmark host n s = true -> few_collections hostmark host s.
Proof.
  induction n as [|n IH]; intros s B k t D; cbn [fewb] in B; apply andb_prop in B; destruct B as [G B]; apply Z.ltb_lt in G;
    (destruct D as [s|k s s1 t P N I D]; [exact G|]); rewrite N, P in B; cbn [orb] in B; [discriminate|]. rewrite I in B. exact (IH _ B _ _ D).
Qed.
(** 1 + 2, dropped; the end. *)
Definition sl_code : list Z := [7; 1; 7; 2; 1; 11; 20; 20].
Definition sl_vm : vm := load_code sl_code vm_init.
Definition sl_end : vm := match execute nomark (api_host nomark ex_prog) 10 sl_vm with Ok (_, t) => t | Ub _ => vm_init end.
Example C64_case : vm_ok sl_vm /\ has_errors sl_vm = false /\ few_collections nomark (api_host nomark ex_prog) sl_vm /\
  execute nomark (api_host nomark ex_prog) 4 sl_vm = Ok (Some true, sl_end) /\
  match sliced nomark (api_host nomark ex_prog) [1; 0; 2]%nat sl_vm with Ok (b, t) => b = false | _ => False end /\
  sliced nomark (api_host nomark ex_prog) [1; 0; 3]%nat sl_vm = Ok (true, sl_end) /\
  match sliced nomark (api_host nomark ex_prog) [1; 0; 7]%nat sl_vm with Ok (b, t) => b = true /\ at_end t /\ v_errs t = [] | _ => False end.
Proof.
  split. { destruct vm_init_ok as [b W]. exists b. destruct W. split; auto. cbn. split; [lia|]. exists 3. split; [lia|reflexivity]. }
  split; [reflexivity|]. split; [apply (fewb_few _ _ 10); vm_compute; reflexivity|]. split; [vm_compute; reflexivity|].
  split; [vm_compute; reflexivity|]. split; [vm_compute; reflexivity|vm_compute; auto].
Qed.
(** An error stops the slices where it stops a run in one go. *)
Definition sl_bad : vm := load_code [7; 1; 7; 0; 4; 7; 99; 20] vm_init.
Example C64_error_case : match execute nomark (api_host nomark ex_prog) 20 sl_bad, sliced nomark (api_host nomark ex_prog) [2; 2; 9]%nat sl_bad with
  | Ok (r, u), Ok (b, t) => r = Some false /\ b = true /\ t = u /\ has_errors t = true | _, _ => False end.
Proof. vm_compute. auto. Qed.
(** The script of C62, in slices of one, two, three, ... instructions. *)
Example C64_script_case : match sliced nomark HostCallProperties.none (seq 1 20) (k_vm HostCallProperties.hc_k2) with
  | Ok (b, t) => b = true /\ v_errs t = [] /\ at_end t /\ znth (v_static t) 0 = Some (vint 10) | Ub _ => False end.
Proof. vm_compute. auto. Qed.
