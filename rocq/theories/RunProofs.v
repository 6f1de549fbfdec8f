(** * RunProofs: from the text of a script to what running it does *)

From Verif Require Import Base BaseFacts State MonadFacts TableModel TableProofs StrModel StrSpec StrProofs ObjsModel ObjsSpec ObjsProofs ValueModel TokenModel TokenSpec TokenProofs TokenProperties OpSpec StackModel VmModel RegModel
  VmSpec CsModel ExprModel CompModel KFacts ParseSpec ParseProofs TermProperties RunSpec RepSpec HeapProofs CodeRel ExecProofs EmitProofs DidProofs StmtProofs MachProofs UseProofs SimProofs HostCallProofs.
From Verif Require Import FaultSpec FaultProofs.
From Coq Require Import ZArith List Lia Bool.
Import ListNotations.
Open Scope Z_scope.

(** ** What compiling leaves alone *)

Definition bare (s : vm) : vm :=
  set_code [] (set_cmask 0 (set_static [] (set_smask 0 (set_funcs [] (set_strs tab_init (set_byhash []
    (set_errs [] (set_files [] (set_extfuncs [] (set_markers [] s)))))))))).
(** Strings keep their collector marks, new ones have mark 0. *)
Definition marks (t t' : TableModel.table nkstr) : Prop := tab_wf t -> tab_wf t' /\
  forall j e, tab_get t' j = Some e -> s_gc e = 0 \/ exists e0, tab_get t j = Some e0 /\ s_gc e0 = s_gc e.
Definition ext_ok (s : vm) : Prop :=
  forall j xf, znth (v_extfuncs s) j = Some xf -> x_argc xf <> INVALID -> zlen (x_types xf) = x_argc xf.
Definition machine (s s' : vm) : Prop := bare s' = bare s /\ marks (v_strs s) (v_strs s') /\ (ext_ok s -> ext_ok s').

Lemma marks_refl t : marks t t.
Proof. intro W. split; [exact W|]. eauto. Qed.
Lemma marks_trans a b c : marks a b -> marks b c -> marks a c.
Proof.
  intros A B W. destruct (A W) as [W1 A1]. destruct (B W1) as [W2 B1]. split; [exact W2|]. intros j e G.
  destruct (B1 _ _ G) as [Q|(e1 & G1 & <-)]; [auto|]. destruct (A1 _ _ G1) as [Q|(e2 & G2 & Q)]; [auto|]. right. exists e2. auto.
Qed.
Lemma machine_refl s : machine s s. Proof. split; [reflexivity|]. split; [apply marks_refl|auto]. Qed.
Lemma machine_trans a b c : machine a b -> machine b c -> machine a c.
Proof. intros (A1 & A2 & A3) (B1 & B2 & B3). split; [congruence|]. split; [eapply marks_trans; eauto|auto]. Qed.
Lemma machine_ctxs s s' : machine s s' -> v_ctxs s' = v_ctxs s.
Proof. intros [H _]. exact (f_equal v_ctxs H). Qed.
Lemma machine_cur s s' : machine s s' -> v_cur s' = v_cur s.
Proof. intros [H _]. exact (f_equal v_cur H). Qed.
Lemma machine_left s s' : machine s s' -> v_left s' = v_left s.
Proof. intros [H _]. exact (f_equal v_left H). Qed.
Lemma machine_maxstack s s' : machine s s' -> v_maxstack s' = v_maxstack s.
Proof. intros [H _]. exact (f_equal v_maxstack H). Qed.
Lemma machine_maxfields s s' : machine s s' -> v_maxfields s' = v_maxfields s.
Proof. intros [H _]. exact (f_equal v_maxfields H). Qed.
Lemma machine_globals s s' : machine s s' -> v_globals s' = v_globals s.
Proof. intros [H _]. exact (f_equal v_globals H). Qed.
Lemma machine_objs s s' : machine s s' -> v_objs s' = v_objs s.
Proof. intros [H _]. exact (f_equal v_objs H). Qed.
Lemma machine_hlist s s' : machine s s' -> v_hlist s' = v_hlist s.
Proof. intros [H _]. exact (f_equal v_hlist H). Qed.
Lemma machine_gcpass s s' : machine s s' -> v_gcpass s' = v_gcpass s.
Proof. intros [H _]. exact (f_equal v_gcpass H). Qed.
Lemma machine_corotype s s' : machine s s' -> v_corotype s' = v_corotype s.
Proof. intros [H _]. exact (f_equal v_corotype H). Qed.
Lemma machine_exttypes s s' : machine s s' -> v_exttypes s' = v_exttypes s.
Proof. intros [H _]. exact (f_equal v_exttypes H). Qed.
Lemma machine_set_globals x s s' : machine s s' -> machine (set_globals x s) (set_globals x s').
Proof. intros (A & B & C). split; [exact (f_equal (set_globals x) A)|]. split; [exact B|exact C]. Qed.

Lemma intern_marks t s i s' : find_or_add_string t s = Ok (i, s') -> v_errs s' <> [] \/ marks (v_strs s) (v_strs s').
Proof.
  unfold find_or_add_string. intro H. apply bind_inv in H. destruct H as (s0 & s1 & E & H). injection E as <- <-.
  apply bind_inv in H. destruct H as (ch & s2 & E & H). unfold lift in E. destruct (rd _ _) in E; [|discriminate]. injection E as <- <-.
  apply bind_inv in H. destruct H as (fd & s2 & E & H). unfold lift in E. destruct (find_in_chain _ _ _) in E; [|discriminate]. injection E as <- <-.
  destruct a0 as [j|].
  - injection H as _ <-. right. apply marks_refl.
  - destruct (tab_add _ _) as [[j t']|] eqn:A.
    + apply bind_inv in H. destruct H as (sl & s2 & E & H). unfold lift, wr in E. destruct (znth (t_slots t') j) eqn:Z in E; [|discriminate]. injection E as <- <-.
      unfold mbind, modify, ret in H. injection H as _ <-. right. vs. intro W. destruct (tab_add_ok _ _ _ _ W A) as (W' & Fr & _ & _ & G).
      pose proof (G j) as Gj. rewrite Z.eqb_refl in Gj. destruct (tab_set_ok t' j _ (mkS j 0 false (str_hash t) t) W' Gj) as [W2 G2].
      split; [exact W2|]. intros b e. rewrite G2, G. destruct (b =? j); [intro Q; injection Q as <-; auto|eauto].
    + apply bind_inv in H. destruct H as (u & s2 & E & H). apply add_error_errs in E. injection H as _ <-. left. exact E.
Qed.
Lemma keep_marks i s u s' : keep_string i s = Ok (u, s') -> marks (v_strs s) (v_strs s').
Proof.
  intro H. apply keep_inv in H. destruct H as [[-> _]|(e & G & ->)]; [apply marks_refl|]. vs. intro W.
  destruct (tab_set_ok _ i e (set_s_keep true e) W G) as [W2 G2]. split; [exact W2|]. intros j f. rewrite G2.
  destruct (Z.eqb_spec j i) as [->|]; [|eauto]. intro Q. injection Q as <-. right. exists e. auto.
Qed.

Section Lits.
Context {LT : Lits}.
Definition calm (k k' : comp) : Prop := noerr k' -> noerr k /\ machine (k_vm k) (k_vm k').

Lemma calm_prims : prims calm.
Proof.
  pose proof errs_prims as EP.
  assert (forall k, calm k k) as Re by (intro k; split; [assumption|apply machine_refl]).
  assert (forall k k', errs k k' -> machine (k_vm k) (k_vm k') -> calm k k') as Mk by (intros k k' A B N; auto).
  constructor; intros; try (apply Mk; [apply EP|split; [reflexivity|split; [apply marks_refl|auto]]]; fail).
  - intro N. destruct (H0 N) as [A B]. destruct (H A) as [A' B']. split; [exact A'|eapply machine_trans; eauto].
  - intros k a k' H. rewrite next_tok_run in H. injection H as _ <-. unfold nxt.
    destruct (k_toks k) as [|t0 [|t r]]; [apply Re| |]; cbv zeta; [intro N; split; [exact N|apply machine_refl]|]. destruct (negb _ || negb _)%bool; (intro N; split; [exact N|split; [reflexivity|split; [apply marks_refl|auto]]]).
  - intros k a k' H [N _]. apply kvm_inv in H. destruct H as (s & E & ->). ksin N. apply add_error_errs in E. contradiction.
  - intros k a k' H N. split; [exact (pr_intern _ EP _ _ _ _ H N)|]. apply kvm_inv in H. destruct H as (s & E & ->). destruct N as [N _]. ksin N. ks.
    destruct (intern_marks _ _ _ _ E) as [X|M]; [contradiction|]. apply intern_fields in E. destruct E as [E|(x & y & ->)]; [contradiction|]. split; [reflexivity|]. split; [exact M|auto].
  - intros k a k' H N. split; [exact (pr_keep _ EP _ _ _ _ H N)|]. apply kvm_inv in H. destruct H as (s & E & ->). ks.
    pose proof (keep_marks _ _ _ _ E) as M. apply keep_fields in E. destruct E as (y & ->). split; [reflexivity|]. split; [exact M|auto].
Qed.

(** ** The compiler before a script *)

(** Nothing compiled yet, but the host may have declared variables. *)
Record ready (k : comp) (E : env) : Prop := {
  rd_wf : kwf k;
  rd_w : k_w k = 0;
  rd_ctx : exists c s, k_ctx k = [c] /\ cc_off c = 0 /\ cc_loop c = false /\ cc_fn c = INVALID /\ e_scopes E = [s] /\ srel c s;
  rd_used : e_used E = 0;
  rd_globals : k_nstat k = e_globals E;
  rd_funcs : zlen (v_funcs (k_vm k)) < W32
}.

(** ** Tokens *)

Lemma token_types ps : lexes ps -> Forall (fun p => fst p <> TK_INVALID) (tokens_of ps).
Proof.
  induction ps as [|p ps IH]; intro L; [constructor|]. destruct L as [H L]. specialize (IH L). destruct p; cbn [tokens_of]; auto. constructor; [|exact IH]. cbn [fst].
  assert (Forall (fun q : Z * bytes => fst q <> TK_INVALID) operators) as Ops by (repeat constructor; discriminate).
  assert (Forall (fun q : bytes * Z => snd q <> TK_INVALID) keywords) as Kws by (repeat constructor; discriminate).
  rewrite Forall_forall in Ops, Kws. inversion H; subst; try discriminate.
  - match goal with I : In _ operators |- _ => apply (Ops _ I) end.
  - match goal with I : type_of_word _ _ |- _ => destruct I as [I | [-> _]]; [apply (Kws _ I)|discriminate] end.
Qed.
Lemma joined_types l : Forall (fun p : Z * bytes => fst p <> TK_INVALID) l -> Forall (fun p => fst p <> TK_INVALID) (joined l).
Proof.
  induction 1 as [|[ty t] l H _ IH]; cbn [joined]; [constructor|]. destruct (joined l) as [|[ty2 t2] q]; [constructor; auto|]. inversion IH; subst.
  destruct (_ && _); constructor; auto.
Qed.
Lemma tokens_valid s fname vm toks vm' : live_ctx vm (v_cur vm) -> script s -> tokenize s fname vm = Ok (Some toks, vm') -> Forall (fun t => tk_type t <> TK_INVALID) toks.
Proof.
  intros L Z E. destruct (C33_partition s fname vm toks vm' L Z E) as (ps & _ & HL & HM). apply token_types, joined_types in HL. rewrite <- HM in HL. apply (proj1 (Forall_map _ (fun p : BinNums.Z * bytes => fst p <> TK_INVALID) _) HL).
Qed.

(** The texts of the tokens of a text are texts. *)
Lemma decodes_text b t : decodes b t -> is_text b -> is_text t.
Proof.
  unfold is_text, is_byte. induction 1; intro B; repeat match goal with X : Forall _ (_ :: _) |- _ => inversion X; clear X; subst end;
    repeat (constructor; [assumption || lia|]); auto.
Qed.
Lemma decodes_open_text b t : decodes_open b t -> is_text b -> is_text t.
Proof.
  intros H B. destruct H as [b t D|b t D]; [eapply decodes_text; eauto|]. unfold is_text in *. apply Forall_app in B. destruct B as [B1 B2]. apply Forall_app. split; [eapply decodes_text; eauto|exact B2].
Qed.
Lemma pieces_text ps : lexes ps -> is_text (raws ps) -> Forall (fun p => is_text (snd p)) (tokens_of ps).
Proof.
  induction ps as [|p ps IH]; cbn [lexes raws tokens_of]; [constructor|]. intros [A L] B. unfold is_text in B. apply Forall_app in B. destruct B as [B1 B2]. specialize (IH L B2).
  destruct p as [c|r|r|ty r t]; try exact IH. constructor; [|exact IH]. cbn [snd raw] in *. inversion A; subst; try exact B1.
  - apply Forall_inv_tail in B1. apply Forall_app in B1. eapply decodes_text; [eassumption|apply B1].
  - apply Forall_inv_tail in B1. eapply decodes_open_text; [eassumption|exact B1].
Qed.
Lemma joined_text l : Forall (fun p : Z * bytes => is_text (snd p)) l -> Forall (fun p => is_text (snd p)) (joined l).
Proof.
  induction 1 as [|[ty t] l H _ IH]; cbn [joined]; [constructor|]. destruct (joined l) as [|[ty2 t2] q]; [constructor; auto|]. inversion IH; subst.
  destruct (_ && _); constructor; auto. cbn [snd] in *. apply Forall_app. auto.
Qed.
Lemma text_script s : is_text s -> script s.
Proof. apply Forall_impl. unfold is_byte. intros. lia. Qed.
Lemma tokens_text s fname vm toks vm' : live_ctx vm (v_cur vm) -> is_text s -> tokenize s fname vm = Ok (Some toks, vm') -> Forall (fun t => is_text (tk_str t)) toks.
Proof.
  intros L Z E. destruct (C33_partition s fname vm toks vm' L (text_script _ Z) E) as (ps & Rw & HL & HM). rewrite <- Rw in Z. pose proof (joined_text _ (pieces_text _ HL Z)) as J. rewrite <- HM in J.
  apply (proj1 (Forall_map _ (fun p : BinNums.Z * bytes => is_text (snd p)) _) J).
Qed.

(** ** Names after a list of statements *)

Lemma scode_sim m ng fa lp E s a b E' : scode m ng fa lp E s a b E' -> sim E' (after s E).
Proof.
  intro H. inversion H; subst; cbn [after]; try apply sim_refl; try apply sim_used. apply sim_declare, sim_used.
Qed.
Lemma sscode_sim m ng l : forall fa lp E a b E', sscode m ng fa lp E l a b E' -> sim E' (afters l E).
Proof.
  induction l as [|s l IH]; intros fa lp E a b E' H; inversion H; subst; cbn [afters]; [apply sim_refl|].
  eapply sim_trans; [eapply IH; eauto|]. assert (forall A B, sim A B -> sim (afters l A) (afters l B)) as X; [|apply X; eapply scode_sim; eauto].
  clear. induction l as [|s l IH]; intros A B S; cbn [afters]; [exact S|]. apply IH, sim_after, S.
Qed.

(** The functions in a list, by number. *)
Fixpoint assoc (F : list (Z * fundef)) (id : Z) : option fundef :=
  match F with [] => None | (i, f) :: r => if i =? id then Some f else assoc r id end.
Lemma assoc_in F id fd : assoc F id = Some fd -> In (id, fd) F.
Proof. induction F as [|[i f] r IH]; cbn [assoc]; [discriminate|]. destruct (Z.eqb_spec i id); [intro H; injection H as <-; left; congruence|right; auto]. Qed.
Lemma assoc_table F : NoDup (map fst F) -> table F (assoc F).
Proof.
  induction F as [|[i f] r IH]; intros N id fd I; [destruct I|]. cbn [map fst] in N. inversion N as [|? ? N1 N2]; subst. cbn [assoc]. destruct I as [Q|I].
  - injection Q as <- <-. rewrite Z.eqb_refl. reflexivity.
  - destruct (Z.eqb_spec i id) as [->|]; [|apply IH; auto]. exfalso. apply N1. apply (in_map fst) in I. exact I.
Qed.

(** ** A script *)

Lemma script_inv fuel text fname k E k1 : compile_script fuel text fname k = Ok (true, k1) -> noerr k1 -> ready k E -> live_ctx (k_vm k) (v_cur (k_vm k)) -> script text -> zlen text < W31 ->
  machine (k_vm k) (k_vm k1) /\
  exists toks vm', tokenize text fname (k_vm k) = Ok (Some toks, vm') /\ (textual toks ->
  exists l F E1 c' s', toks = sstext l /\ swritten l /\ (forall funs, table F funs -> sdefined funs E l) /\ NoDup (map fst F) /\ 
    kwf k1 /\ k_ctx k1 = [c'] /\ e_scopes E1 = [s'] /\ srel c' s' /\ sim E1 (afters l E) /\ k_nstat k1 = e_globals E1 /\
    forall m (ng : around), (forall i, 0 <= i < k_w k1 -> m i = kmem k1 i) -> k_nstat k1 <= ng -> table F (g_funs ng) ->
      sscode m ng None None E l 0 (k_w k1) E1 /\ forall id fd, In (id, fd) F -> fn_ok m ng k1 id fd).
Proof.
  intros H N R Lc St Zt. unfold compile_script in H. apply enter_inv in H; [|discriminate]. kb H. apply kvm_inv in E0. destruct E0 as (s & Et & ->). ksin Et.
  match type of Et with _ = Ok (?o, _) => destruct o as [toks|] end; [|apply give_up_inv in H; discriminate].
  kb H. injection E0 as _ <-. kb H. injection E0 as <- <-. kb H. rename k0 into k2, E0 into Ep. kb H. rename k0 into k3, E0 into Eb.
  kb H. injection E0 as <- <-. kb H. injection E0 as _ <-. kb H. injection E0 as _ <-. kb H. apply pop_rec_inv in E0. subst k0. injection H as -> <-.
  destruct (tokenize_cases text fname (k_vm k) Lc St) as [(toks' & s' & E1 & (Tg & Te) & _)|[(v & E1 & _)|[[E1 _]|[E1 _]]]]; rewrite Et in E1; try discriminate.
  injection E1 as <- <-. destruct Tg as (fl & er & Es). pose proof (token_count _ _ _ _ _ Lc St Et) as Tc. pose proof (tokens_valid _ _ _ _ _ Lc St Et) as Tv.
  destruct R as [RW Rw (c & sc & C & Co & Cl & Cf & Sc & Sr) Ru Rn Rf].
  assert (exists ln fi ac, k2 = set_k_pos ln fi ac (set_k_toks toks (set_k_vm s (set_k_rec (k_rec k + 1) k)))) as Ek2.
  { destruct toks; injection Ep as _ <-; eauto. }
  assert (machine (k_vm k) (k_vm k3)) as Mc.
  { destruct (w_block _ calm_prims _ (compiler_walks calm calm_prims fuel) true _ _ _ Eb N) as [_ Q]. eapply machine_trans; [|exact Q]. destruct Ek2 as (ln & fi & ac & ->). ks. rewrite Es. split; [reflexivity|]. split; [apply marks_refl|auto]. }
  split; [exact Mc|]. exists toks, s. split; [exact Et|]. intro Na.
  assert (crel k2 E /\ k_w k2 = 0 /\ k_toks k2 = toks /\ k_ctx k2 = [c]) as (R2 & W2 & T2 & C2).
  { destruct Ek2 as (ln & fi & ac & ->). split; [|auto]. constructor; ks; try assumption.
    - rewrite Es. destruct RW. constructor; assumption.
    - rewrite C, Sc. constructor; [exact Sr|constructor].
    - exists c, []. rewrite C, Ru. auto.
    - rewrite C. exact Cl.
    - rewrite Es. exact Rf.
    - revert Tc Zt. unfold zlen. lia. }
  clear Ep. unfold block in Eb. apply enter_inv in Eb; [|discriminate].
  destruct (compiler_good fuel) as (_ & GB & _).
  assert (noerr k3) as N3 by exact N.
  destruct (GB _ _ _ _ Eb N3 (crel_rec _ _ _ R2)) as (l & fx & F & E1 & k4 & [D M _] & Wr & Df & Ct & K3).
  assert (fx = []) as ->. { apply (d_nofx _ _ _ _ _ _ _ D). ks. rewrite C2. cbn [loop_off]. rewrite Cl. reflexivity. }
  pose proof (d_toks _ _ _ _ _ _ _ D) as Td. ksin Td. rewrite T2 in Td.
  assert (k_toks k4 = []) as T4. { destruct (k_toks k4) as [|t q] eqn:Q; [reflexivity|]. unfold cur_type in Ct. rewrite Q in Ct. rewrite Td in Tv. apply Forall_app in Tv. destruct Tv as [_ Tv]. inversion Tv. contradiction. }
  rewrite T4, app_nil_r in Td. 
  destruct (d_ctx _ _ _ _ _ _ _ D) as (c0 & r0 & c' & X1 & X2 & Fn & _). ksin X1. rewrite C2 in X1. injection X1 as <- <-. cbn [addfix] in X2.
  pose proof (d_rel _ _ _ _ _ _ _ D) as [QW QS _ QN QT QG QF QZ]. rewrite X2 in QS. inversion QS as [|? s1 ? q1 S1 S2]; subst. inversion S2; subst.
  exists l, F, E1, c', s1. split; [exact Td|]. split; [exact Wr|]. split; [exact Df|]. split; [exact (d_F _ _ _ _ _ _ _ D)|].
  assert (forall m (ng : around), (forall i, 0 <= i < k_w k4 -> m i = kmem k4 i) -> k_nstat k4 <= ng -> table F (g_funs ng) -> sscode m ng None None E l 0 (k_w k4) E1 /\ forall id fd, In (id, fd) F -> fn_ok m ng k4 id fd) as Mk.
  { intros m ng Om Gn Tb. assert (okm m (set_k_rec (k_rec k2 + 1) k2) k4 [] []) as Ok4. { intros i Hi _. apply Om. ksin Hi. rewrite W2 in Hi. exact Hi. }
    destruct (M m ng Ok4 Gn Tb) as [X Y]. split; [|exact Y]. specialize (X None None). ksin X. rewrite W2 in X. apply X.
    - unfold brk. ks. rewrite C2. cbn [loop_off]. rewrite Cl. exact I.
    - unfold fno. ks. rewrite C2. cbn [find_fn]. rewrite Cf. exact I. }
  split; [destruct QW; constructor; assumption|]. split; [exact X2|]. split; [congruence|]. split; [exact S1|]. split; [|split; [exact QN|exact Mk]].
  eapply sscode_sim, (Mk (kmem k4) (mkAround (k_nstat k4) (assoc F))); [reflexivity|cbn [g_n]; lia|apply assoc_table, (d_F _ _ _ _ _ _ _ D)].
Qed.

Lemma finalize_errs : pres errs finalize.
Proof.
  unfold finalize, partially_finalize, generate_globals, add_op. pose proof errs_prims as P.
  assert (forall x, pres errs (kvm (modify (set_globals x)))) as G. { intros x k a k' H. apply kvm_inv in H. destruct H as (s & E & ->). injection E as _ <-. apply errs_same; reflexivity. }
  repeat first [apply (w_cerror _ P) | apply p_mod; intros kk; apply errs_same; reflexivity | apply (w_add_word _ P) | apply (w_pop_ctxs _ P) | apply G | apply (w_cur_cc _ P) | apply (prt _ P) | apply (pgt _ P) | apply (pb _ P); [|intro]
    | match goal with |- pres _ (match ?x with _ => _ end) => destruct x end | apply p_ub | intros k a k' H; exact (fun N => False_ind _ (cerror_errs _ _ _ _ H N)) | intros k a k' H; injection H as _ <-; apply errs_same; reflexivity ].
Qed.

Lemma finalize_inv k u k' c : finalize k = Ok (u, k') -> noerr k' -> kwf k -> k_ctx k = [c] -> pop_count (cc_vars c) = 0 ->
  kwf k' /\ (forall i, 0 <= i < k_w k -> kmem k' i = kmem k i) /\ kmem k' (k_w k) = Some OP_END /\ k_nstat k' = k_nstat k /\ v_funcs (k_vm k') = v_funcs (k_vm k) /\
  v_static (k_vm k') = v_static (k_vm k) /\ noerr k /\ machine (set_globals (map (fun v => (cv_pos v, cv_name v)) (cc_vars c)) (k_vm k)) (k_vm k').
Proof.
  unfold finalize, partially_finalize, generate_globals, cur_cc, add_op. intros H N K C P0. kb H. injection E as <- <-. rewrite C in H. cbv iota in H. kb H. injection E as <- <-.
  kb H. injection E as <- <-. rewrite C in H. cbn [length Nat.sub pop_contexts] in H. kb H. injection E as <- <-. kb H. rename k0 into k3, E into Ep. 
  kb Ep. injection E as <- <-. rewrite C in Ep. cbv iota in Ep. kb Ep. kb E. kb E0. injection E1 as <- <-. rewrite C in E0. injection E0 as <- <-.
  apply kvm_inv in E. destruct E as (s & E & ->). injection E as _ <-. kb Ep. injection E as <- <-. ksin Ep. kb Ep. rename k0 into k4, E into Ew. injection Ep as _ <-.
  kb H. injection E as <- <-. kb H. rename k0 into k5, E into Epc.
  assert (noerr k5) as N5. { revert N. refine ((_ : pres errs _) _ _ _ H). apply w_add_word, errs_prims. }
  set (kg := set_k_vm _ k) in *.
  assert (kwf kg) as Kg by (destruct K; constructor; assumption).
  assert (noerr k4) as N4. { change (noerr (set_k_w (k_w k) k4)). revert N5. refine ((_ : pres errs _) _ _ _ Epc). apply w_pop_ctxs, errs_prims. }
  destruct (add_word_flat _ _ _ _ _ Ew N4 Kg (or_introl eq_refl)) as [P4 C4]. change (k_ctx kg) with (k_ctx k) in C4. rewrite C in C4.
  pose proof P4 as (W4 & B4 & M4 & (_ & Ns4 & F4 & S4 & _) & K4). change (k_w kg) with (k_w k) in *. change (zlen [OP_END]) with 1 in W4.
  set (k6 := set_k_w (k_w k) k4) in *. change (k_ctx k6) with (k_ctx k4) in Epc. rewrite C4 in Epc. cbn [length pop_contexts] in Epc. kb Epc. injection Epc as _ <-. rename E into Epc, k0 into k5.
  assert (kwf k6) as K6. { destruct K4 as [U1 U2 U3 U4 U5 U6 U7]. constructor; try assumption. change (k_w k6) with (k_w k). change (kcode k6) with (kcode k4). pose proof (kw_w _ K). lia. }
  destruct (pop_flat _ _ _ c [] Epc N5 K6 C4) as [P5 C5]. rewrite P0 in P5. change (pop_words 0) with (@nil Z) in P5.
  pose proof P5 as (W5 & B5 & _ & (_ & Ns5 & F5 & S5 & _) & K5). change (zlen (@nil Z)) with 0 in W5. change (k_w (set_k_ctx [] k6)) with (k_w k) in *.
  destruct (add_word_flat _ _ _ _ _ H N K5 (or_intror C5)) as [P7 C7]. pose proof P7 as (W7 & B7 & M7 & (_ & Ns7 & F7 & S7 & _) & K7).
  assert (k_w k5 = k_w k) as W5' by lia.
  split; [exact K7|]. split. { intros i Hi. rewrite B7 by lia. rewrite B5 by lia. change (kmem (set_k_ctx [] k6)) with (kmem k4). rewrite B4 by lia. reflexivity. }
  split. { specialize (M7 0 OP_END eq_refl). rewrite Z.add_0_r, W5' in M7. exact M7. }
  split; [rewrite Ns7, Ns5; exact Ns4|]. split; [rewrite F7, F5; exact F4|]. split; [rewrite S7, S5; exact S4|].
  destruct (w_add_word calm calm_prims _ _ _ _ _ H N) as [_ Q7]. destruct (w_pop_ctx calm calm_prims _ _ _ Epc N5) as [_ Q5]. destruct (w_add_word calm calm_prims _ _ _ _ _ Ew N4) as [Ng Q4].
  split; [exact Ng|]. eapply machine_trans; [exact Q4|]. eapply machine_trans; [exact Q5|exact Q7].
Qed.


(** ** Running *)

(** Outside functions nothing returns. *)
Fixpoint returns (s : stmt) : bool :=
  match s with
  | SReturn _ _ _ => true
  | SBlock _ l _ => sreturns l
  | SIf _ _ _ _ s => returns s
  | SElse _ _ _ _ s _ s2 => returns s || returns s2
  | SWhile _ _ _ _ s => returns s
  | SDo _ s _ _ _ _ _ => returns s
  | SFor _ _ s0 _ _ _ _ s => returns s0 || returns s
  | _ => false
  end
with sreturns (l : stmts) : bool := match l with Done => false | Then s r => returns s || sreturns r end.
Lemma code_returns m ng :
  (forall fa lp E s a b E', scode m ng fa lp E s a b E' -> fa = None -> returns s = false) /\
  (forall fa lp E l a b E', sscode m ng fa lp E l a b E' -> fa = None -> sreturns l = false).
Proof.
  apply (code_mi _ m ng (fun fa _ _ s _ _ _ => fa = None -> returns s = false) (fun fa _ _ l _ _ _ => fa = None -> sreturns l = false)); intros; cbn [returns sreturns]; subst;
    try discriminate; try reflexivity; auto; apply orb_false_intro; auto.
Qed.
Lemma run_returns {HS : Hosts} funs lim mf :
  (forall E h m n v m', ev funs lim mf E h m n v m' -> True) /\
  (forall E h m n v m', evs funs lim mf E h m n v m' -> True) /\
  (forall E b m s o m', ex funs lim mf E b m s o m' -> returns s = false -> forall v, o <> Returned v) /\
  (forall E b m l o m', exs funs lim mf E b m l o m' -> sreturns l = false -> forall v, o <> Returned v) /\
  (forall E b m e s i o m', loops funs lim mf E b m e s i o m' -> returns s = false -> forall v, o <> Returned v).
Proof.
  apply run_mi; intros; auto; try discriminate; cbn [returns sreturns] in *;
    repeat match goal with H : (_ || _) = false |- _ => apply orb_false_elim in H; destruct H end; auto;
    repeat match goal with H : ?P -> forall _, ?o <> Returned _, H2 : ?P |- _ => specialize (H H2) end; auto;
    match goal with |- stops ?o <> _ => destruct o; cbn [stops]; [discriminate|discriminate|intro Q; injection Q as ->; congruence] end.
Qed.

(** The global scope: globals, with different numbers below [n]. *)
Definition slot_of (b : bytes * place) : Z := match snd b with Global i => i | Local i => i end.
Definition all_global (n : Z) (s : scope) : Prop :=
  Forall (fun b => match snd b with Global i => 0 <= i < n | Local _ => False end) s /\ NoDup (map slot_of s).
Lemma all_global_more n n' s : all_global n s -> n <= n' -> all_global n' s.
Proof. intros [G N] L. split; [|exact N]. eapply Forall_impl; [|exact G]. intros [x p] H. cbn [snd] in *. destruct p; [lia|exact H]. Qed.
Lemma all_global_new n s x i : all_global n s -> 0 <= n <= i -> all_global (i + 1) ((x, Global i) :: s).
Proof.
  intros G L. destruct (all_global_more _ (i + 1) _ G ltac:(lia)) as [G1 N]. split.
  - constructor; [cbn [snd]; lia|exact G1].
  - cbn [map slot_of snd]. constructor; [|exact N]. rewrite in_map_iff. intros ([y p] & Q & I). destruct G as [G _]. rewrite Forall_forall in G. specialize (G _ I). unfold slot_of in Q. cbn [snd] in *. destruct p; [lia|exact G].
Qed.
Lemma afters_global l : forall E s, e_scopes E = [s] -> all_global (e_globals E) s -> 0 <= e_globals E ->
  exists s', e_scopes (afters l E) = [s'] /\ all_global (e_globals (afters l E)) s'.
Proof.
  induction l as [|st l IH]; intros E s Es G Z; cbn [afters]; [eauto|].
  assert (forall n, exists s', e_scopes (declare n E) = [s'] /\ all_global (e_globals (declare n E)) s' /\ 0 <= e_globals (declare n E)) as Dc.
  { intro n. unfold declare. rewrite Es. cbn [e_scopes e_globals]. eexists. split; [reflexivity|]. split; [|lia]. apply all_global_new with (n := e_globals E); [exact G|lia]. }
  destruct st; cbn [after]; try (eapply IH; eauto; fail); match goal with |- context [declare ?n E] => destruct (Dc n) as (s' & A & B & C) end; eapply IH; eauto.
Qed.
Lemma all_global_pop c n s : srel c s -> all_global n s -> pop_count (cc_vars c) = 0.
Proof.
  unfold srel. intros H [G _]. revert H G. destruct c as [vs o f lo fx]. cbn [cc_vars]. induction 1 as [|v [m p] vs s [_ V] _ IH]; intro G; [reflexivity|]. inversion G as [|? ? G1 G2]; subst. rewrite pop_count_cons, (IH G2).
  cbn [snd] in *. destruct p; [|contradiction]. destruct V as [-> _]. rewrite andb_false_r. reflexivity.
Qed.
Lemma all_global_locals n s : all_global n s -> zlen (filter is_local s) = 0.
Proof. intros [G _]. induction G as [|[m p] s P _ IH]; [reflexivity|]. cbn [filter is_local snd] in *. destruct p; [exact IH|contradiction]. Qed.
Lemma find_record_rel n vs s : Forall2 vrel vs s -> Forall (fun b => match snd b with Global _ => True | Local _ => False end) s ->
  find_record n (map (fun v => (cv_pos v, cv_name v)) vs) = match find_in n s with Some (Global i) => Some i | _ => None end.
Proof.
  induction 1 as [|v [m p] vs s [Vn V] _ IH]; cbn [find_in find_record map]; [reflexivity|]. cbn [fst snd] in *. subst m. intro G. inversion G as [|? ? G1 G2]; subst. cbn [snd] in G1.
  destruct (bytes_eqb (cv_name v) n); [|exact (IH G2)]. destruct p; [|contradiction]. destruct V as [_ ->]. reflexivity.
Qed.
Lemma find_in_global n s x i : all_global n s -> find_in x s = Some (Global i) -> 0 <= i < n.
Proof.
  intros [G _]. induction G as [|[m p] s P _ IH]; cbn [find_in]; [discriminate|]. destruct (bytes_eqb m x); [|exact IH]. intro Q. injection Q as ->. exact P.
Qed.


End Lits.

Lemma world_heap lt s W mm H : world lt s W mm H -> heap_is s W H.
Proof.
  intro D. split; [exact (wd_one _ _ _ _ _ D)|]. intros a i Wa. destruct (wd_objs _ _ _ _ _ D _ _ Wa) as (G & l & Hl & _).
  destruct (get_obj s i) as [o|] eqn:Go; [|congruence]. exists l, o. split; [exact Hl|]. split; [reflexivity|]. split; [exact (world_size _ _ _ _ _ _ _ _ _ D Wa Hl Go)|].
  intros k kx K R. destruct (world_get _ _ _ _ _ _ _ _ _ _ D Wa Hl K R) as [Or Rp]. exists (mm i kx). split; [|exact Rp].
  exact (read_field_ok _ _ _ _ _ (wd_inv _ _ _ _ _ D) Go Or).
Qed.

(** The string literals of a program: the strings marked to be kept. *)
Definition kept_of (s : vm) : Lits := fun i =>
  match get_str_entry s i with Some e => if s_keep e then Some (s_str e) else None | None => None end.
Lemma kept_noerr k : v_errs (k_vm k) = [] -> @noerr (kept_of (k_vm k)) k.
Proof. intro N. split; [exact N|]. intros _ i e G K. unfold lit, kept_of. rewrite G, K. reflexivity. Qed.
Lemma kept_entry s i t : @lit (kept_of s) i = Some t -> exists e, get_str_entry s i = Some e /\ s_keep e = true /\ s_str e = t.
Proof. unfold lit, kept_of. destruct (get_str_entry s i) as [e|]; [|discriminate]. destruct (s_keep e) eqn:K; [|discriminate]. intro Q. injection Q as <-. eauto. Qed.

(** A machine something was compiled in is well-formed if it was before. *)
Lemma machine_wf s k st : wf true 0 s -> machine s (k_vm k) -> kwf k -> zlen st = zlen (v_static (k_vm k)) -> wf true 0 (set_static st (k_vm k)).
Proof.
  intros Wf M K Zs. pose proof M as (_ & Mk & Ex). destruct Wf. split; unfold get_obj, get_str_entry in *; vs;
    rewrite ?(machine_ctxs _ _ M), ?(machine_cur _ _ M), ?(machine_objs _ _ M), ?(machine_gcpass _ _ M), ?(machine_hlist _ _ M), ?(machine_corotype _ _ M), ?(machine_exttypes _ _ M); auto.
  - discriminate.
  - apply K.
  - intros i e G. destruct (Mk (sw_tab _ _ w_str)) as [_ Q]. destruct (Q _ _ G) as [-> | (e0 & G0 & <-)]; [lia|eauto].
  - rewrite Zs, (kw_smask _ K). split; [lia|apply K].
  - rewrite (kw_mask _ K). split; [unfold kcode; lia|apply K].
  - exact (Ex w_extfuncs).
Qed.

Section Run.
Variable hostmark : Z -> Z -> option Z -> list value.
Variable host : Z -> list value -> M value.
Context {HS : Hosts}.

Lemma steps_run t t' : steps hostmark host t t' -> fetch t' = Ok (VmModel.OP_END, t') ->
  frame t' = frame t /\ exists n, execute hostmark host n t = Ok (Some true, t').
Proof.
  intros St F. induction St as [t|t w t1 t2 Fe Ne It He Eq Ni St IH].
  - split; [reflexivity|]. exists 0%nat. cbn [execute]. rewrite (bind_run _ _ _ _ _ F). reflexivity.
  - destruct (IH F) as [Eq' (n & X)]. split; [congruence|].
    exists (S n). cbn [execute]. rewrite (bind_run _ _ _ _ _ Fe). destruct (Z.eqb_spec w VmModel.OP_END); [contradiction|]. rewrite (bind_run _ _ _ _ _ It). unfold mbind at 1, self, gets. rewrite He. exact X.
Qed.

Lemma steps_crash t t1 w t' : steps hostmark host t t1 -> fetch t1 = Ok (w, t1) -> w <> VmModel.OP_END -> iterate hostmark host t1 = Ok (tt, t') -> has_errors t' = true ->
  exists n, execute hostmark host n t = Ok (Some false, t').
Proof.
  intros St F Nw It He. induction St as [t|t w0 t1 t2 Fe Ne It0 He0 Eq Ni St IH].
  - exists 1%nat. cbn [execute]. rewrite (bind_run _ _ _ _ _ F). destruct (Z.eqb_spec w VmModel.OP_END); [contradiction|]. rewrite (bind_run _ _ _ _ _ It). unfold mbind, self, gets. rewrite He. reflexivity.
  - destruct (IH F It) as (n & X).
    exists (S n). cbn [execute]. rewrite (bind_run _ _ _ _ _ Fe). destruct (Z.eqb_spec w0 VmModel.OP_END); [contradiction|]. rewrite (bind_run _ _ _ _ _ It0). unfold mbind at 1, self, gets. rewrite He0. exact X.
Qed.

Definition nothing : Z -> option Z := fun _ => None.

Lemma run_script fuel text fname s k E k1 u k2 sc :
  compile_script fuel text fname k = Ok (true, k1) -> finalize k1 = Ok (u, k2) -> v_errs (k_vm k2) = [] ->
  ready k E -> machine s (k_vm k) -> e_scopes E = [sc] -> all_global (e_globals E) sc -> script text -> zlen text < W31 ->
  wf true 0 s -> (forall i, get_obj s i = None) -> v_cur s = 0 -> stack_is s [] -> ip_is s 0 -> v_left s = INVALID ->
  exists toks vm', tokenize text fname (k_vm k) = Ok (Some toks, vm') /\ (textual toks ->
  exists l funs, toks = sstext l /\ swritten l /\ sdefined funs E l /\
  (forall name, find_global name (k_vm k2) = match lookup name (e_scopes (afters l E)) with Some (Global i) => Some i | _ => None end) /\
  e_globals (afters l E) <= zlen (v_static (k_vm k2)) /\
  forall lim mf st g0, lim <= 65536 -> 2 * lim - 2 <= v_maxstack s -> mf < W32 -> mf <= v_maxfields s ->
    zlen st = zlen (v_static (k_vm k2)) -> (forall x, In x st -> exists v, rep (k_vm k2) nothing v x) ->
    globs (set_static st (k_vm k2)) nothing g0 ->
    (forall t, steps hostmark host (set_static st (k_vm k2)) t -> enough t) ->
    implements (LT := kept_of (k_vm k2)) host (set_static st (k_vm k2)) ->
    (forall m', xfs funs lim mf E 0 (mkMem g0 [] []) l m' ->
      exists n t', execute hostmark host n (set_static st (k_vm k2)) = Ok (Some false, t') /\ has_errors t' = true /\
        frame t' = set_errs (v_errs t') (frame (k_vm k2)) /\ exists W, heap_is t' W (m_heap m') /\ globs t' W (m_global m')) /\
    forall o m', exs funs lim mf E 0 (mkMem g0 [] []) l o m' ->
    o = Next /\ exists n t', execute hostmark host n (set_static st (k_vm k2)) = Ok (Some true, t') /\ v_errs t' = [] /\ frame t' = frame (k_vm k2) /\
      stack_is t' [] /\ exists W, heap_is t' W (m_heap m') /\ globs t' W (m_global m') /\ resting (LT := kept_of (k_vm k2)) funs lim mf t' W [] m' /\ steps hostmark host (set_static st (k_vm k2)) t' /\
      exists ip, is_u32 ip /\ ip_is t' ip /\ fetch t' = Ok (VmModel.OP_END, t')).
Proof.
  intros Hc Hf N0 R Ms Es Ag St Zt Wf No Cu Sk Ip Lf.
  set (LT := kept_of (k_vm k2)). assert (noerr k2) as N by (apply kept_noerr, N0).
  assert (noerr k1) as N1.
  { revert N. refine (finalize_errs _ _ _ Hf). }
  assert (live_ctx (k_vm k) (v_cur (k_vm k))) as Lc.
  { destruct Sk as (c & A & _). exists c. rewrite (machine_ctxs _ _ Ms), (machine_cur _ _ Ms). exact A. }
  destruct (script_inv _ _ _ _ _ _ Hc N1 R Lc St Zt) as (Mc1 & toks & vm' & Et & X). exists toks, vm'. split; [exact Et|]. intro Na.
  destruct (X Na) as (l & F & E1 & c' & s' & Tl & Wr & Df & Nd & K1 & C1 & Es1 & S1 & Sm & Ns & Mk). clear X.
  destruct (afters_global l E sc Es Ag ltac:(rewrite <- (rd_globals _ _ R); apply (kw_n _ (rd_wf _ _ R)))) as (s2 & Es2 & Ag2).
  assert (s2 = s') as ->. { destruct Sm as (_ & Q & _). unfold outermost in Q. rewrite Es1, Es2 in Q. cbn in Q. congruence. }
  destruct (finalize_inv _ _ _ _ Hf N K1 C1 (all_global_pop _ _ _ S1 Ag2)) as (K2 & Bl & Me & Ns2 & Fu & Sa & _ & Mc).
  exists l, (assoc F). split; [exact Tl|]. split; [exact Wr|]. split; [apply Df, assoc_table, Nd|].
  assert (e_globals (afters l E) <= zlen (v_static (k_vm k2))) as Eg.
  { destruct Sm as (_ & _ & <-). rewrite <- Ns, <- Ns2. apply (kw_n _ K2). }
  pose proof (pow2_bounds _ (kw_spow _ K2)) as Sb.
  pose proof (machine_trans _ _ _ (machine_set_globals _ _ _ (machine_trans _ _ _ Ms Mc1)) Mc) as Mt.
  split; [|split; [exact Eg|]].
  { intro name. unfold find_global. rewrite (machine_globals _ _ Mc). vs. rewrite Es2, (find_record_rel name _ _ S1). 
    2:{ eapply Forall_impl; [|exact (proj1 Ag2)]. intros [x p] H. cbn [snd] in *. destruct p; [exact I|exact H]. }
    cbn [lookup]. destruct (find_in name s') as [[i|i]|] eqn:Fi; try reflexivity. f_equal. pose proof (find_in_global _ _ _ _ Ag2 Fi) as Ri.
    rewrite (kw_smask _ K2). destruct (kw_spow _ K2) as (e & Re & Ee). rewrite Z.land_comm.
    replace (zlen (v_static (k_vm k2)) - 1) with (Z.ones e) by (rewrite Z.ones_equiv; lia). rewrite Z.land_ones by lia. apply Z.mod_small. lia. }
  intros lim mf st g0 Lm Mx Lf1 Lf2 Zs Vs Gl Rm Nat.
  destruct (Mk (code (kcode k2)) (mkAround (k_nstat k2) (assoc F))) as [Sc Fn]; [exact Bl|cbn [g_n]; lia|apply assoc_table, Nd|].
  set (t0 := set_static st (k_vm k2)) in *.
  assert (wf true 0 t0) as W0.
  { assert (forall x, wf true 0 (set_globals x s)) as Wg by (intro; destruct Wf; split; assumption). exact (machine_wf _ _ _ (Wg _) Mt K2 Zs). }
  assert (forall i, get_obj t0 i = None) as No0.
  { intro i. unfold get_obj, t0. vs. rewrite (machine_objs _ _ Mt). apply No. }
  assert (inv (kcode k2) (v_funcs (k_vm k2)) lim (k_nstat k2) mf t0) as Iv.
  { destruct K2 as [A1 A2 A3 A4 A5 A6]. unfold t0. constructor; vs; [reflexivity|exact A2|reflexivity| |exact N0|lia| | | |].
    - rewrite (machine_left _ _ Mt). exact Lf.
    - rewrite (machine_maxstack _ _ Mt). exact Mx.
    - rewrite (machine_cur _ _ Mt). exact Cu.
    - rewrite (machine_hlist _ _ Mt). vs. destruct (v_hlist s) as [|i q] eqn:Q; [reflexivity|]. exfalso.
      destruct (proj1 (w_hlist _ _ _ Wf i)) as (ob & G & _); [rewrite Q; left; reflexivity|]. rewrite No in G. discriminate.
    - rewrite (machine_maxfields _ _ Mt). exact Lf2. }
  assert (@at_ hostmark host LT t0 [] (mkMem g0 [] []) 0) as Hr.
  { exists t0. split; [apply st_refl|]. split; [reflexivity|exact W0| |].
    - destruct Ip as (c & A & B). exists c. unfold t0. vs. rewrite (machine_ctxs _ _ Mt), (machine_cur _ _ Mt). auto.
    - exists nothing, (fun _ _ => vnil), []. cbn [m_heap m_global]. split; [|split; [exact Gl|split; [constructor|]]].
      + split.
        * split; [exact (w_str _ _ _ W0)|exact (w_tab _ _ _ W0)| |intros i ob G; rewrite No0 in G; discriminate].
          destruct Sk as (c & A & _). exists c. unfold t0. vs. rewrite (machine_ctxs _ _ Mt), (machine_cur _ _ Mt). exact A.
        * discriminate.
        * discriminate.
        * intros i ob G. rewrite No0 in G. discriminate.
        * intros x I. exact (Vs x I).
        * intros i t Li. exact (kept_entry _ _ _ Li).
      + destruct Sk as (c & A & B). exists c. unfold t0. vs. rewrite (machine_ctxs _ _ Mt), (machine_cur _ _ Mt). auto. }
  assert (forall id fd, assoc F id = Some fd -> exists f, znth (v_funcs (k_vm k2)) id = Some f /\ f_ext f = INVALID /\ f_argc f = zlen (fd_params fd) /\ 0 <= f_first f <= zlen (kcode k2) /\ fcode (code (kcode k2)) (mkAround (k_nstat k2) (assoc F)) fd (f_first f)) as Tb.
  { intros id fd A. apply assoc_in in A. destruct (Fn _ _ A) as (f & F1 & F2 & F3 & F4 & F5). exists f. rewrite Fu. repeat split; auto; try lia.
    assert (kmem k2 (k_w k1) = znth (kcode k2) (k_w k1)) as Z1 by reflexivity. rewrite Me in Z1. symmetry in Z1. apply znth_some_range in Z1. lia. }
  split.
  { intros m' Xf.
    destruct (faults hostmark host (kcode k2) (v_funcs (k_vm k2)) lim (k_nstat k2) mf (kw_pow _ K2) Lm Lf1 t0 Iv Rm (assoc F) Tb Nat) as (_ & _ & _ & Fx & _).
    specialize (Fx _ _ _ _ _ Xf [] [] (fun _ => VNil) None None [] 0 0 (k_w k1) E1 Sc).
    destruct Fx as (t1 & w & t' & Sp & Fe & Nw & It & He & Of & _ & W & mm & Wd & G); try exact I; auto.
    { pose proof (kw_w _ K2). lia. }
    { rewrite Es. discriminate. }
    { rewrite (rd_used _ _ R). reflexivity. }
    { split; [reflexivity|]. intros i o' Hz. apply znth_some_range in Hz. cbn [m_local] in Hz. change (zlen []) with 0 in Hz. lia. }
    destruct (steps_crash _ _ _ _ Sp Fe Nw It He) as (n & Rn). exists n, t'. split; [exact Rn|]. split; [exact He|]. split; [exact Of|].
    exists W. split; [exact (world_heap _ _ _ _ _ Wd)|exact G]. }
  intros o m' Ex.
  destruct (simulation hostmark host (kcode k2) (v_funcs (k_vm k2)) lim (k_nstat k2) mf (kw_pow _ K2) Lm Lf1 t0 Iv Rm (assoc F) Tb Nat) as (_ & _ & _ & Sx & _).
  specialize (Sx _ _ _ _ _ _ Ex [] [] (fun _ => VNil) None None [] 0 0 (k_w k1) E1 Sc).
  destruct Sx as [Nx Hb]; try exact I; auto.
  { pose proof (kw_w _ K2). lia. }
  { rewrite Es. discriminate. }
  { rewrite (rd_used _ _ R). reflexivity. }
  { split; [reflexivity|]. intros i o' Hz. apply znth_some_range in Hz. cbn [m_local] in Hz. change (zlen []) with 0 in Hz. lia. }
  assert (o = Next) as ->.
  { destruct o as [| |v]; [reflexivity|contradiction|]. exfalso. destruct (run_returns (assoc F) lim mf) as (_ & _ & _ & Rr & _).
    apply (Rr _ _ _ _ _ _ Ex (proj2 (code_returns _ _) _ _ _ _ _ _ _ Sc eq_refl) v). reflexivity. }
  split; [reflexivity|]. destruct Hb as (fr' & (t' & Sp & Ht) & Fr).
  destruct (Nx eq_refl) as (Lw & Bs & _). cbn [app] in Ht.
  assert (zlen fr' = 0) as Zf.
  { destruct Fr as [-> _]. rewrite Lw. unfold base, locals_of in Bs. rewrite Es, Es1, (all_global_locals _ _ Ag), (all_global_locals _ _ Ag2) in Bs. pose proof (rd_used _ _ R). lia. }
  assert (fr' = []) as ->. { destruct fr'; [reflexivity|]. rewrite zlen_cons in Zf. pose proof (zlen_nonneg fr'). lia. }
  destruct (steps_run _ _ Sp (fetch_at hostmark host _ _ _ _ _ (kw_pow _ K2) _ Iv Rm _ _ _ _ _ Ht Me)) as [Ot (n & Rn)].
  exists n, t'. split; [exact Rn|]. split; [|split; [rewrite Ot; reflexivity|]].
  { change (v_errs (frame t') = []). rewrite Ot. exact N0. }
  pose proof (fetch_at hostmark host _ _ _ _ _ (kw_pow _ K2) _ Iv Rm _ _ _ _ _ Ht Me) as Fe.
  assert (is_u32 (k_w k1)) as U1 by (apply (C_small hostmark host _ (kw_pow _ K2) _ Rm); assert (kmem k2 (k_w k1) = znth (kcode k2) (k_w k1)) as Z1 by reflexivity; rewrite Me in Z1; symmetry in Z1; exact (znth_some_range _ _ _ Z1)).
  destruct Ht as [_ Wt Ipt (W & mm & lx & Wd & G & Rl & Sl)]. inversion Rl; subst. split; [exact Sl|]. exists W. split; [exact (world_heap _ _ _ _ _ Wd)|]. split; [exact G|].
  pose proof (inv_frame _ _ _ _ _ _ _ Ot Iv) as Iv'. pose proof (i_code _ _ _ _ _ _ Iv') as Qc. pose proof (i_funcs _ _ _ _ _ _ Iv') as Qf. split; [|split; [exact Sp|exists (k_w k1); auto]]. split; rewrite ?Qc, ?Qf; auto.
  - exact (kw_pow _ K2).
  - exists (k_nstat k2). split; [exact Iv'|exact Tb].
  - exists mm, []. auto.
Qed.
End Run.
