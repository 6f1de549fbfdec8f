(** * DidProofs: what compiling a piece of text does to the compiler's state *)

From Verif Require Import Base BaseFacts State MonadFacts TableProofs TokenModel RegModel CsModel ExprModel CompModel KFacts ParseSpec ParseProofs RunSpec CodeRel EmitProofs.
Ltac Zify.zify_post_hook ::= Z.div_mod_to_equations.

(** ** Contexts *)

(** New break statements of the innermost loop. *)
Fixpoint addfix (fx : list Z) (l : list cctx) : list cctx :=
  match l with
  | [] => []
  | c :: r => if cc_loop c then set_cc_fix (fx ++ cc_fix c) c :: r else c :: addfix fx r
  end.
Fixpoint loop_off (l : list cctx) : option Z :=
  match l with [] => None | c :: r => if cc_loop c then Some (cc_off c) else loop_off r end.

Lemma set_fix_same c : set_cc_fix (cc_fix c) c = c. Proof. destruct c; reflexivity. Qed.
Lemma set_off_same c : set_cc_off (cc_off c) c = c. Proof. destruct c; reflexivity. Qed.
Lemma addfix_nil l : addfix [] l = l.
Proof. induction l as [|c r IH]; cbn [addfix]; [reflexivity|]. rewrite IH. cbn [app]. rewrite set_fix_same. destruct (cc_loop c); reflexivity. Qed.
Lemma addfix_app a b l : addfix a (addfix b l) = addfix (a ++ b) l.
Proof.
  induction l as [|c r IH]; cbn [addfix]; [reflexivity|]. destruct (cc_loop c) eqn:L; cbn [addfix]; [|rewrite L, IH; reflexivity].
  cbn [set_cc_fix cc_loop]. rewrite L. cbn [cc_fix set_cc_fix]. rewrite app_assoc. reflexivity.
Qed.
Lemma addfix_off fx l : loop_off (addfix fx l) = loop_off l.
Proof. induction l as [|c r IH]; cbn [addfix loop_off]; [reflexivity|]. destruct (cc_loop c) eqn:L; cbn [loop_off set_cc_fix cc_loop]; rewrite L; [reflexivity|exact IH]. Qed.
Lemma addfix_fn fx l : find_fn (addfix fx l) = find_fn l.
Proof. induction l as [|c r IH]; cbn [addfix find_fn]; [reflexivity|]. destruct (cc_loop c); cbn [find_fn set_cc_fix cc_fn]; [reflexivity|]. rewrite IH. reflexivity. Qed.
Lemma addfix_srel fx l sc : Forall2 srel l sc -> Forall2 srel (addfix fx l) sc.
Proof. induction 1 as [|c s l sc H F IH]; cbn [addfix]; [constructor|]. destruct (cc_loop c); constructor; assumption. Qed.

Definition nocc : cctx := mkCC [] 0 0 false [].
Lemma last_cons {A} (a : A) l d : l <> [] -> last (a :: l) d = last l d.
Proof. destruct l; [contradiction|reflexivity]. Qed.
Lemma addfix_cons fx l : l <> [] -> addfix fx l <> [].
Proof. destruct l; [contradiction|]. intros _. cbn. destruct (cc_loop c); discriminate. Qed.
Lemma addfix_last fx l : cc_loop (last l nocc) = false -> last (addfix fx l) nocc = last l nocc.
Proof.
  induction l as [|c r IH]; cbn [addfix]; [reflexivity|]. intro H. destruct r as [|d r].
  - cbn in H |- *. rewrite H. reflexivity.
  - destruct (cc_loop c); [reflexivity|]. rewrite last_cons by (apply addfix_cons; discriminate). rewrite last_cons by discriminate. apply IH. exact H.
Qed.

Lemma find_loop_some l i x o : find_loop l = Some (i, x, o) ->
  loop_off l = Some (cc_off x) /\ forall fx, i ++ set_cc_fix (fx ++ cc_fix x) x :: o = addfix fx l.
Proof.
  revert i x o. induction l as [|c r IH]; cbn [find_loop loop_off addfix]; [discriminate|]. intros i x o. destruct (cc_loop c).
  - intro H. injection H as <- <- <-. auto.
  - destruct (find_loop r) as [[[i' x'] o']|]; [|discriminate]. intro H. injection H as <- <- <-. destruct (IH _ _ _ eq_refl) as [A B].
    split; [exact A|]. intro fx. cbn [app]. rewrite B. reflexivity.
Qed.

(** The text of the tokens is text. *)
Definition textual (l : list token) : Prop := Forall (fun t => StrProofs.is_text (tk_str t)) l.
Lemma textual_app a b : textual (a ++ b) -> textual b.
Proof. intro H. apply Forall_app in H. apply H. Qed.
Lemma textual_tl l : textual l -> textual (tl l).
Proof. intro H. destruct H; [constructor|assumption]. Qed.

(** [funs] knows the functions [F]. *)
Definition table (F : list (Z * fundef)) (funs : Z -> option fundef) : Prop := forall id fd, In (id, fd) F -> funs id = Some fd.
Lemma table_app F G funs : table (F ++ G) funs -> table F funs /\ table G funs.
Proof. intro H. split; intros id fd I; apply H, in_or_app; auto. Qed.

Section Lits.
Context {LT : Lits}.

(** ** The state of the compiler and what is known of the text *)

Record crel (k : comp) (E : env) : Prop := {
  cr_wf : kwf k;
  cr_sc : Forall2 srel (k_ctx k) (e_scopes E);
  cr_hd : exists c r, k_ctx k = c :: r /\ cc_off c = u32 (e_used E) /\ cc_loop c = false;
  cr_n : k_nstat k = e_globals E;
  cr_tk : textual (k_toks k);
  cr_g : cc_loop (last (k_ctx k) nocc) = false;
  cr_f : zlen (v_funcs (k_vm k)) < W32;
  cr_t : zlen (k_toks k) < W31
}.

Definition pops (k : comp) : Z := match k_ctx k with [] => 0 | c :: _ => pop_count (cc_vars c) end.

(** From [k] to [k'] the text [l] has been compiled.  [fx]: where its break
    statements are; [F]: the functions it defines. *)
Record did (k k' : comp) (l : list token) (fx : list Z) (F : list (Z * fundef)) (E E' : env) : Prop := {
  d_toks : k_toks k = l ++ k_toks k';
  d_rel : crel k' E';
  d_below : forall i, 0 <= i < k_w k -> kmem k' i = kmem k i;
  d_w : k_w k <= k_w k';
  d_funcs : forall i f, znth (v_funcs (k_vm k)) i = Some f -> znth (v_funcs (k_vm k')) i = Some f;
  d_ctx : exists c r c', k_ctx k = c :: r /\ k_ctx k' = c' :: addfix fx r /\ cc_fn c' = cc_fn c /\
    pop_count (cc_vars c') - pop_count (cc_vars c) = locals_of E' - locals_of E;
  d_fx : forall j, In j fx -> k_w k <= j /\ j + 3 <= k_w k';
  d_nofx : loop_off (k_ctx k) = None -> fx = [];
  d_F : NoDup (map fst F);
  d_ids : forall id, In id (map fst F) -> zlen (v_funcs (k_vm k)) <= id < zlen (v_funcs (k_vm k'));
  d_len : zlen (v_funcs (k_vm k)) <= zlen (v_funcs (k_vm k'));
  d_nstat : k_nstat k <= k_nstat k';
  d_tl : tl (e_scopes E') = tl (e_scopes E);
  d_gl : tl (e_scopes E) <> [] -> e_globals E' = e_globals E
}.

Lemma did_refl k E : crel k E -> did k k [] [] [] E E.
Proof.
  intro H. destruct (cr_hd _ _ H) as (c & r & C & _). constructor; auto; try lia; try contradiction; [|constructor].
  exists c, r, c. rewrite addfix_nil, C. repeat split. lia.
Qed.

Lemma did_off k k' l fx F E E' : did k k' l fx F E E' -> crel k E -> loop_off (k_ctx k') = loop_off (k_ctx k).
Proof.
  intros D R. destruct (d_ctx _ _ _ _ _ _ _ D) as (c & r & c' & C & C' & _). destruct (cr_hd _ _ R) as (c0 & r0 & X & _ & L). rewrite C in X. injection X as <- <-.
  destruct (cr_hd _ _ (d_rel _ _ _ _ _ _ _ D)) as (c1 & r1 & Y & _ & L'). rewrite C' in Y. injection Y as <- <-.
  rewrite C, C'. cbn [loop_off]. rewrite L, L'. apply addfix_off.
Qed.
Lemma did_fn k k' l fx F E E' : did k k' l fx F E E' -> find_fn (k_ctx k') = find_fn (k_ctx k).
Proof.
  intros D. destruct (d_ctx _ _ _ _ _ _ _ D) as (c & r & c' & C & C' & Fn & _). rewrite C, C'. cbn [find_fn]. rewrite Fn, addfix_fn. reflexivity.
Qed.

Lemma did_trans k k1 k2 l1 l2 f1 f2 F1 F2 E E1 E2 : crel k E -> did k k1 l1 f1 F1 E E1 -> did k1 k2 l2 f2 F2 E1 E2 ->
  did k k2 (l1 ++ l2) (f2 ++ f1) (F1 ++ F2) E E2.
Proof.
  intros R A B. pose proof (did_off _ _ _ _ _ _ _ A R) as Lo. destruct A, B. pose proof (kw_w _ (cr_wf _ _ R)) as Kw. constructor.
  - rewrite d_toks0, d_toks1, app_assoc. reflexivity.
  - assumption.
  - intros i Hi. rewrite d_below1, d_below0 by lia. reflexivity.
  - lia.
  - auto.
  - destruct d_ctx0 as (c & r & c' & C & C' & Fn & P). destruct d_ctx1 as (c1 & r1 & c2 & C1 & C2 & Fn2 & P2). rewrite C' in C1. injection C1 as <- <-.
    exists c, r, c2. rewrite addfix_app in C2. split; [exact C|]. split; [exact C2|]. split; [congruence|]. lia.
  - intros j H. apply in_app_or in H. destruct H as [H|H]; [apply d_fx1 in H|apply d_fx0 in H]; lia.
  - intro H. rewrite d_nofx0 by exact H. rewrite Lo in d_nofx1. rewrite d_nofx1 by exact H. reflexivity.
  - rewrite map_app. clear - d_F0 d_F1 d_ids0 d_ids1. revert d_F0 d_ids0. induction (map fst F1) as [|a l IH]; cbn [app]; intros N I; [exact d_F1|].
    inversion N; subst. constructor.
    + intro X. apply in_app_or in X. destruct X as [X|X]; [contradiction|]. apply d_ids1 in X. specialize (I a (or_introl eq_refl)). lia.
    + apply IH; [assumption|]. intros id X. apply I. right. exact X.
  - intros id. rewrite map_app. intro H. apply in_app_or in H. destruct H as [H|H]; [apply d_ids0 in H|apply d_ids1 in H]; lia.
  - lia.
  - lia.
  - congruence.
  - intro H. rewrite <- d_tl0 in H at 1. rewrite d_gl1 by exact H. apply d_gl0. rewrite <- d_tl0. exact H.
Qed.

(** Changes that do not matter. *)
Lemma crel_rec x k E : crel k E -> crel (set_k_rec x k) E.
Proof. intros [[] A B C D G F]. repeat (constructor; try assumption). Qed.
Lemma did_rec x k k' l fx F E E' : did k k' l fx F E E' -> did k (set_k_rec x k') l fx F E E'.
Proof. intros []. constructor; try assumption. apply crel_rec. assumption. Qed.
Lemma did_rec_l x k k' l fx F E E' : did (set_k_rec x k) k' l fx F E E' -> did k k' l fx F E E'.
Proof. intros []. constructor; assumption. Qed.

Lemma nxt_wf k : kwf k -> kwf (nxt k). Proof. apply same_wf, nxt_same. Qed.
Lemma nxt_mem k i : kmem (nxt k) i = kmem k i.
Proof. unfold kmem, kcode. destruct (nxt_same k) as (_ & _ & _ & -> & _). reflexivity. Qed.
Lemma nxt_rel k E : crel k E -> crel (nxt k) E.
Proof.
  intros [W S H N T G F Z]. destruct (nxt_same k) as (A1 & A2 & A3 & A4 & A5 & A6 & _). constructor; rewrite ?A2, ?A3, ?A6; try assumption.
  - apply nxt_wf, W.
  - rewrite nxt_toks. apply textual_tl, T.
  - rewrite nxt_toks. destruct (k_toks k); [exact Z|]. rewrite zlen_cons in Z. cbn [tl]. lia.
Qed.
Lemma did_nxt k E t q : crel k E -> k_toks k = t :: q -> did k (nxt k) [t] [] [] E E.
Proof.
  intros R T. pose proof (did_refl _ _ (nxt_rel _ _ R)) as D. destruct (nxt_same k) as (A1 & A2 & A3 & A4 & A5 & A6 & _).
  destruct D. constructor; try assumption; rewrite ?A1, ?A2, ?A3, ?A6 in *; try assumption.
  - rewrite nxt_toks, T. reflexivity.
  - intros i _. apply nxt_mem.
Qed.

(** Words have been written. *)
Lemma did_put ws k k' E c r u : crel k E -> put ws k k' -> at_ k c r (e_used E) -> at_ k' c r u -> did k k' [] [] [] E (used_at E u).
Proof.
  intros R (W & B & M & (T & N & Fu & St & Sm) & K) A A'. destruct R as [RW RS (c0 & r0 & C & Of & L) RN RT RG RF RZ]. unfold at_ in A, A'. rewrite A in C. injection C as <- <-.
  pose proof (zlen_nonneg ws). constructor; try assumption; try contradiction; try lia.
  - rewrite T. reflexivity.
  - constructor; try assumption; rewrite ?T, ?N, ?Fu; try assumption.
    + rewrite A'. rewrite A in RS. cbn [e_scopes used_at]. inversion RS as [|? y ? l' H1 H2 H3 H4]; subst. constructor; assumption.
    + eexists _, _. split; [exact A'|]. split; [reflexivity|exact L].
    + rewrite A' . rewrite A in RG. destruct r; exact RG.
  - intros i f. rewrite Fu. auto.
  - eexists _, _, _. split; [exact A|]. split; [rewrite addfix_nil; exact A'|]. split; [reflexivity|]. cbn [cc_vars set_cc_off]. unfold locals_of. cbn [e_scopes used_at]. lia.
  - reflexivity.
  - constructor.
  - rewrite Fu. lia.
  - reflexivity.
  - reflexivity.
Qed.

(** The word at [a] has been replaced. *)
Definition patched (a : Z) (k k' : comp) : Prop :=
  exists v, k' = set_k_vm (set_code (zupd (kcode k) a v) (k_vm k)) k.
Lemma patched_rel a k k' E : patched a k k' -> crel k E -> crel k' E.
Proof.
  intros (v & ->) [[] A B C D G F]. constructor; try assumption. constructor; unfold kcode in *; ks; vs; rewrite ?zlen_zupd; assumption.
Qed.
Lemma patched_mem a k k' i : patched a k k' -> i <> a -> kmem k' i = kmem k i.
Proof. intros (v & ->) N. unfold kmem, kcode. ks. vs. apply znth_zupd_other. auto. Qed.
Lemma did_patch a k k1 k2 l fx F E E1 : did k k1 l fx F E E1 -> patched a k1 k2 -> k_w k <= a -> did k k2 l fx F E E1.
Proof.
  intros [] P L. pose proof (patched_rel _ _ _ _ P d_rel0) as R. assert (forall i, 0 <= i < k_w k -> kmem k2 i = kmem k i) as M.
  { intros i Hi. rewrite (patched_mem _ _ _ _ P) by lia. auto. }
  destruct P as (v & ->). constructor; try assumption.
Qed.

(** ** Finished code *)

(** [m] is the code of [k'] from [k] on, up to the targets of the jumps at
    [h] and [fx]. *)
Definition okm (m : Z -> option Z) (k k' : comp) (h fx : list Z) : Prop :=
  forall i, k_w k <= i < k_w k' -> (forall j, In j h \/ In j fx -> i <> j + 1) -> m i = kmem k' i.
Definition filled (m : Z -> option Z) (fx : list Z) (T : Z) : Prop := forall j, In j fx -> m (j + 1) = Some (u32 (T - j - 3)).
Definition brk (m : Z -> option Z) (k : comp) (fx : list Z) (lp : option (Z * Z)) : Prop :=
  match loop_off (k_ctx k) with
  | Some o => exists T u, lp = Some (T, u) /\ o = u32 u /\ filled m fx T
  | None => True
  end.
Definition fno (k : comp) (fa : option Z) : Prop :=
  match find_fn (k_ctx k) with
  | Some f => exists fn, znth (v_funcs (k_vm k)) f = Some fn /\ fa = Some (f_argc fn)
  | None => True
  end.
Definition fn_ok (m : Z -> option Z) (ng : around) (k : comp) (id : Z) (fd : fundef) : Prop :=
  exists f, znth (v_funcs (k_vm k)) id = Some f /\ f_ext f = INVALID /\ f_argc f = zlen (fd_params fd) /\
    0 <= f_first f <= k_w k /\ fcode m ng fd (f_first f).
Definition form := (Z -> option Z) -> around -> option Z -> option (Z * Z) -> Prop.
(** The code has the form [P], and that of the functions defined is right.
    [h]: jumps whose targets are not known yet. *)
Definition makes (k k' : comp) (fx h : list Z) (F : list (Z * fundef)) (P : form) : Prop :=
  forall m (ng : around), okm m k k' h fx -> k_nstat k' <= ng -> table F (g_funs ng) ->
  (forall fa lp, brk m k fx lp -> fno k fa -> P m ng fa lp) /\ (forall id fd, In (id, fd) F -> fn_ok m ng k' id fd).

(** [did] and [makes] together. *)
Record does (k k' : comp) l fx h F E E' (P : form) : Prop := {
  s_did : did k k' l fx F E E';
  s_makes : makes k k' fx h F P;
  s_holes : forall j, In j h -> k_w k <= j /\ j + 3 <= k_w k'
}.

Lemma filled_app m a b T : filled m (a ++ b) T -> filled m a T /\ filled m b T.
Proof. intro H. split; intros j I; apply H, in_or_app; auto. Qed.
Lemma brk_l m k a b lp : brk m k (a ++ b) lp -> brk m k b lp.
Proof. unfold brk. destruct (loop_off (k_ctx k)); [|auto]. intros (T & u & A & B & H). apply filled_app in H. destruct H. eauto 6. Qed.
Lemma brk_r m k k' l fx F E E' a b lp : did k k' l fx F E E' -> crel k E -> brk m k (a ++ b) lp -> brk m k' a lp.
Proof. intros D R. unfold brk. rewrite (did_off _ _ _ _ _ _ _ D R). destruct (loop_off (k_ctx k)); [|auto]. intros (T & u & A & B & H). apply filled_app in H. destruct H. eauto 6. Qed.
Lemma fno_r k k' l fx F E E' fa : did k k' l fx F E E' -> fno k fa -> fno k' fa.
Proof. intros D. unfold fno. rewrite (did_fn _ _ _ _ _ _ _ D). destruct (find_fn (k_ctx k)); [|auto]. intros (f & A & B). exists f. split; [|exact B]. eapply d_funcs; eauto. Qed.
Lemma fn_ok_r m ng k k' l fx F E E' id fd : did k k' l fx F E E' -> fn_ok m ng k id fd -> fn_ok m ng k' id fd.
Proof.
  intros D (f & A & B & C & G & H). pose proof (d_w _ _ _ _ _ _ _ D). exists f. split; [eapply d_funcs; eauto|]. split; [exact B|]. split; [exact C|]. split; [lia|exact H].
Qed.

Lemma does_seq k k1 k2 l1 l2 f1 f2 h1 h2 F1 F2 E E1 E2 P1 P2 : crel k E -> does k k1 l1 f1 h1 F1 E E1 P1 -> does k1 k2 l2 f2 h2 F2 E1 E2 P2 ->
  does k k2 (l1 ++ l2) (f2 ++ f1) (h2 ++ h1) (F1 ++ F2) E E2 (fun m ng fa lp => P1 m ng fa lp /\ P2 m ng fa lp).
Proof.
  intros R [A MA HA] [B MB HB]. split; [eapply did_trans; eauto| |].
  - intros m ng O N Tb. apply table_app in Tb. destruct Tb as [Tb1 Tb2]. pose proof (d_nstat _ _ _ _ _ _ _ B). pose proof (d_w _ _ _ _ _ _ _ A). pose proof (d_w _ _ _ _ _ _ _ B). pose proof (kw_w _ (cr_wf _ _ R)).
    assert (okm m k k1 h1 f1) as O1.
    { intros i Hi Ni. rewrite O; [|lia|].
      - apply (d_below _ _ _ _ _ _ _ B). lia.
      - intros j [I|I]; apply in_app_or in I; destruct I as [I|I]; try (apply Ni; auto; fail); [apply HB in I|apply (d_fx _ _ _ _ _ _ _ B) in I]; lia. }
    assert (okm m k1 k2 h2 f2) as O2.
    { intros i Hi Ni. rewrite O; [reflexivity|lia|].
      intros j [I|I]; apply in_app_or in I; destruct I as [I|I]; try (apply Ni; auto; fail); [apply HA in I|apply (d_fx _ _ _ _ _ _ _ A) in I]; lia. }
    destruct (MA m ng O1 ltac:(lia) Tb1) as [X1 Y1]. destruct (MB m ng O2 N Tb2) as [X2 Y2]. split.
    + intros fa lp Br Fn. split; [apply X1; [eapply brk_l, Br|exact Fn]|apply X2; [eapply brk_r; eauto|eapply fno_r; eauto]].
    + intros id fd I. apply in_app_or in I. destruct I as [I|I]; [eapply fn_ok_r; eauto|auto].
  - pose proof (d_w _ _ _ _ _ _ _ A). pose proof (d_w _ _ _ _ _ _ _ B). intros j I. apply in_app_or in I. destruct I as [I|I]; [apply HB in I|apply HA in I]; lia.
Qed.
Lemma does_wk k k' l fx h F E E' (P Q : form) :
  does k k' l fx h F E E' P -> (forall m (ng : around) fa lp, k_nstat k' <= ng -> P m ng fa lp -> Q m ng fa lp) -> does k k' l fx h F E E' Q.
Proof. intros [A M H] I. split; [exact A| |exact H]. intros m ng O N Tb. destruct (M m ng O N Tb) as [X Y]. split; [|exact Y]. intros. apply I; auto. Qed.
Lemma does_rel k k' l fx h F E E' P : does k k' l fx h F E E' P -> crel k' E'.
Proof. intros [A _ _]. exact (d_rel _ _ _ _ _ _ _ A). Qed.
Lemma does_did k k' l E E' : did k k' l [] [] E E' -> does k k' l [] [] [] E E' (fun _ _ _ _ => True).
Proof. intro D. split; [exact D| |contradiction]. intros m ng _ _ _. split; [auto|contradiction]. Qed.
Lemma does_rec x k k' l fx h F E E' P : does k k' l fx h F E E' P -> does k (set_k_rec x k') l fx h F E E' P.
Proof. intros [D M H]. split; [apply did_rec, D|exact M|exact H]. Qed.
Lemma does_rec_l x k k' l fx h F E E' P : does (set_k_rec x k) k' l fx h F E E' P -> does k k' l fx h F E E' P.
Proof. intros [D M H]. split; [apply did_rec_l in D; exact D|exact M|exact H]. Qed.
Lemma does_nxt k E t q : crel k E -> k_toks k = t :: q -> does k (nxt k) [t] [] [] [] E E (fun _ _ _ _ => True).
Proof. intros R T. apply does_did. eapply did_nxt; eauto. Qed.

Lemma does_put ws k k' E c r u : crel k E -> put ws k k' -> at_ k c r (e_used E) -> at_ k' c r u ->
  does k k' [] [] [] [] E (used_at E u) (fun m _ _ _ => mem_words m (k_w k) ws).
Proof.
  intros R P A A'. split; [eapply did_put; eauto| |contradiction]. intros m ng O N _. split; [|contradiction]. intros fa lp _ _ i w H.
  destruct P as (W & _ & M & _). pose proof (znth_some_range _ _ _ H). rewrite O; [apply M, H|lia|intros j [[]|[]]].
Qed.

(** Filling in the target of a jump. *)
Lemma does_patch a v k k1 k2 l fx h h' F E E1 P : does k k1 l fx h F E E1 P -> patched (a + 1) k1 k2 -> kmem k2 (a + 1) = Some v ->
  In a h -> (forall j, In j h -> j = a \/ In j h') -> (forall j, In j h' -> In j h /\ j <> a) -> ~ In a fx ->
  does k k2 l fx h' F E E1 (fun m ng fa lp => P m ng fa lp /\ m (a + 1) = Some v).
Proof.
  intros [D M H] Pa V Ia S1 S2 N. assert (k_w k2 = k_w k1 /\ k_nstat k2 = k_nstat k1 /\ v_funcs (k_vm k2) = v_funcs (k_vm k1)) as (Ew & En & Ef) by (destruct Pa as (z & ->); repeat split).
  destruct (H _ Ia) as [La Lb].
  split; [eapply did_patch; eauto; lia| |].
  - intros m ng O Ng Tb. assert (okm m k k1 h fx) as O1.
    { intros i Hi Ni. rewrite O; [|lia|].
      - apply (patched_mem _ _ _ _ Pa). intros ->. apply (Ni a); auto.
      - intros j [I|I]; apply Ni; [left; apply S2, I|auto]. }
    destruct (M m ng O1 ltac:(lia) Tb) as [X Y]. split.
    + intros fa lp Br Fn. split; [auto|]. rewrite O; [exact V|lia|]. intros j [I|I] Q; assert (j = a) as -> by lia; [apply S2 in I; destruct I; contradiction|contradiction].
    + intros id fd I. destruct (Y _ _ I) as (f & A1 & A2 & A3 & A4 & A5). exists f. rewrite Ef, Ew. auto.
  - intros j I. apply S2 in I. destruct I as [I _]. apply H in I. rewrite Ew. exact I.
Qed.
(** A jump that will be changed again. *)
Lemma does_patch_again a k k1 k2 l fx h F E E1 P : does k k1 l fx h F E E1 P -> patched (a + 1) k1 k2 -> In a h -> does k k2 l fx h F E E1 P.
Proof.
  intros [D M H] Pa Ia. assert (k_w k2 = k_w k1 /\ k_nstat k2 = k_nstat k1 /\ v_funcs (k_vm k2) = v_funcs (k_vm k1)) as (Ew & En & Ef) by (destruct Pa as (z & ->); repeat split).
  destruct (H _ Ia) as [La Lb]. split; [eapply did_patch; eauto; lia| |rewrite Ew; exact H].
  intros m ng O Ng Tb. assert (okm m k k1 h fx) as O1.
  { intros i Hi Ni. rewrite O; [|lia|exact Ni]. apply (patched_mem _ _ _ _ Pa). intros ->. apply (Ni a); auto. }
  destruct (M m ng O1 ltac:(lia) Tb) as [X Y]. split; [exact X|]. intros id fd I. destruct (Y _ _ I) as (f & A1 & A2 & A3 & A4 & A5). exists f. rewrite Ef, Ew. auto.
Qed.

Lemma crel_at k E : crel k E -> exists c r, k_ctx k = c :: r /\ at_ k c r (e_used E) /\ Forall2 srel (c :: r) (e_scopes E).
Proof.
  intros [W S (c & r & C & O & _) _ _ _ _]. exists c, r. split; [exact C|]. split; [unfold at_; rewrite <- O, set_off_same; exact C|]. rewrite <- C. exact S.
Qed.
Lemma does_em {A} (m : K A) Q k a k' E : (forall c r, Forall2 srel (c :: r) (e_scopes E) -> em c r m Q) ->
  m k = Ok (a, k') -> noerr k' -> crel k E ->
  exists ws u, Q a (e_used E) ws u /\ k_w k' = k_w k + zlen ws /\ does k k' [] [] [] [] E (used_at E u) (fun m _ _ _ => mem_words m (k_w k) ws).
Proof.
  intros M H N R. destruct (crel_at _ _ R) as (c & r & C & A0 & S). destruct (proj2 (M c r S) _ _ _ _ H N (cr_wf _ _ R) A0) as (ws & u & P & A' & q).
  exists ws, u. split; [exact q|]. split; [apply P|]. eapply does_put; eauto.
Qed.

Lemma used_at_same E : used_at E (e_used E) = E. Proof. destruct E; reflexivity. Qed.

(** Tokens. *)
Lemma expect_true t k k' : expect t k = Ok (true, k') -> t <> TK_INVALID -> exists x q, k_toks k = x :: q /\ tk_type x = t /\ k' = nxt k.
Proof.
  intros H I. unfold expect in H. kb H. injection E as <- <-. destruct (cur_type k =? t) eqn:Q; cbn [negb] in H.
  - kb H. rewrite next_tok_run in E. injection E as _ <-. injection H as <-. apply Z.eqb_eq in Q. unfold cur_type in Q. destruct (k_toks k) as [|tok q]; [congruence|]. eauto.
  - kb H. kb H. discriminate.
Qed.
Lemma need_inv t m k k' : need t m k = Ok (true, k') -> t <> TK_INVALID -> exists x q, k_toks k = x :: q /\ tk_type x = t /\ m (nxt k) = Ok (true, k').
Proof.
  intros H I. unfold need in H. kb H. destruct x; [|apply give_up_inv in H; discriminate]. apply expect_true in E; [|exact I]. destruct E as (tok & q & T & Y & ->). eauto.
Qed.
Lemma need_in_inv n t m k k' : need_in n t m k = Ok (true, k') -> t <> TK_INVALID -> exists x q, k_toks k = x :: q /\ tk_type x = t /\ m (nxt k) = Ok (true, k').
Proof.
  intros H I. unfold need_in in H. kb H. destruct x; [|kb H; apply give_up_inv in H; discriminate]. apply expect_true in E; [|exact I]. destruct E as (tok & q & T & Y & ->). eauto.
Qed.
Lemma enter_inv {A} (f : A) m k a k' : enter f m k = Ok (a, k') -> a <> f -> m (set_k_rec (k_rec k + 1) k) = Ok (a, k').
Proof. unfold enter. intros H N. kb H. destruct x; cbn [negb] in H; [|injection H as -> _; contradiction]. apply push_rec_inv in E; [|reflexivity]. subst. exact H. Qed.

(** ** Jumps *)

End Lits.

Ltac ez := let H := fresh in intros ? ? ? ? H; cbv beta in H; repeat match goal with
  | X : exists _, _ |- _ => destruct X
  | X : _ /\ _ |- _ => destruct X
  | X : _ :: _ = _ :: _ |- _ => injection X as ? ?
  end; subst; cbn [app]; rewrite ?app_nil_r, ?Z.add_0_r.
Ltac eb := eapply em_bind; [|intro].

Section Lits2.
Context {LT : Lits}.


Lemma land_mask a n : pow2 n -> 0 <= a < n -> Z.land (u32 a) (n - 1) = a.
Proof.
  intros P H. destruct (pow2_bounds _ P) as [_ U]. unfold W31 in U. rewrite u32_id by (unfold is_u32, W32; lia).
  destruct P as (e & He & ->). rewrite Z.sub_1_r, <- Z.ones_equiv, Z.land_ones by lia. apply Z.mod_small. lia.
Qed.
Lemma modify_jump_inv a t k u k' : modify_jump a t k = Ok (u, k') -> kwf k -> 0 <= a -> a + 3 <= k_w k ->
  patched (a + 1) k k' /\ kmem k' (a + 1) = Some (u32 (t - a - 3)).
Proof.
  intros H W L U. pose proof (kw_w _ W). unfold modify_jump in H. kb H. injection E as <- <-. cbv zeta in H. rewrite (kw_mask _ W) in H. unfold kcode in *.
  kb H. apply klift_inv in E. destruct E as [_ ->]. kb H. apply klift_inv in E. destruct E as [_ ->]. destruct (negb _ || negb _); [discriminate|].
  kb H. apply klift_inv in E. destruct E as [E ->]. rewrite land_mask in E by (try apply (kw_pow _ W); lia).
  apply wr_inv in E. destruct E as [-> Ri]. apply kvm_inv in H. destruct H as (s & E & ->). injection E as _ <-. split.
  - eexists. reflexivity.
  - unfold kmem, kcode. ks. vs. apply znth_zupd_same. lia.
Qed.

Lemma jump_em c r sc op v : Forall2 srel (c :: r) sc ->
  em c r (push_lit_int v true ;~ add_op op true ;~ kret tt) (fun _ x ws x' => ws = [OP_LIT_INT; u32 v; op] /\ x' = x + 1 + stack_offset op).
Proof.
  intro S. eapply em_wk; [eb; [apply em_lit_int|]; eb; [apply em_word|]; apply em_ret|]. ez. split; reflexivity.
Qed.
Lemma emit_jump_is t k a k' : emit_jump t k = Ok (a, k') -> a = k_w k /\ (push_lit_int (t - k_w k - 3) true ;~ add_op OP_JUMP true ;~ kret tt) k = Ok (tt, k').
Proof.
  unfold emit_jump. intro H. kb H. injection E as <- <-. kb H. kb H. injection H as <- <-. split; [reflexivity|]. unfold kbind. rewrite E, E0. reflexivity.
Qed.
Lemma emit_jz_is t k a k' : emit_jz t k = Ok (a, k') -> a = k_w k /\ (push_lit_int (t - k_w k - 3) true ;~ add_op OP_JZ true ;~ kret tt) k = Ok (tt, k').
Proof.
  unfold emit_jz. intro H. kb H. injection E as <- <-. kb H. kb H. injection H as <- <-. split; [reflexivity|]. unfold kbind. rewrite E, E0. reflexivity.
Qed.
Lemma does_jump_op op t k k' E : (push_lit_int (t - k_w k - 3) true ;~ add_op op true ;~ kret tt) k = Ok (tt, k') -> noerr k' -> crel k E ->
  k_w k' = k_w k + 3 /\ does k k' [] [] [] [] E (used_at E (e_used E + 1 + stack_offset op)) (fun m _ _ _ => mem_words m (k_w k) (jump_words op (k_w k) t)).
Proof.
  intros H N R. destruct (does_em _ _ _ _ _ E (fun c r S => jump_em c r _ _ _ S) H N R) as (ws & u & (-> & ->) & W & D).
  split; [exact W|exact D].
Qed.
(** A jump whose target is filled in later. *)
Lemma does_hole op t k k' E : (push_lit_int (t - k_w k - 3) true ;~ add_op op true ;~ kret tt) k = Ok (tt, k') -> noerr k' -> crel k E ->
  k_w k' = k_w k + 3 /\ does k k' [] [] [k_w k] [] E (used_at E (e_used E + 1 + stack_offset op))
    (fun m _ _ _ => forall T, m (k_w k + 1) = Some (u32 (T - k_w k - 3)) -> mem_words m (k_w k) (jump_words op (k_w k) T)).
Proof.
  intros H N R. destruct (crel_at _ _ R) as (c & r & C & A0 & S). destruct (proj2 (jump_em c r _ _ _ S) _ _ _ _ H N (cr_wf _ _ R) A0) as (ws & u & P & A' & -> & ->).
  pose proof P as (W & _ & M & _). change (k_w k' = k_w k + 3) in W. split; [exact W|]. split; [eapply did_put; eauto| |].
  - intros m ng O Ng _. split; [|contradiction]. intros fa lp _ _ T V i w Hw. pose proof (znth_some_range _ _ _ Hw) as Ri. change (zlen (jump_words op (k_w k) T)) with 3 in Ri.
    assert (i = 0 \/ i = 1 \/ i = 2) as [-> | [-> | ->]] by lia.
    + injection Hw as <-. rewrite Z.add_0_r, O; [|lia|intros j [[<-|[]]|[]]; lia]. rewrite <- (M 0 OP_LIT_INT eq_refl). f_equal. lia.
    + injection Hw as <-. exact V.
    + injection Hw as <-. rewrite O; [|lia|intros j [[<-|[]]|[]]; lia]. apply (M 2 op eq_refl).
  - intros j [<-|[]]. lia.
Qed.

(** The code has been changed without moving it. *)
Definition recoded (k k' : comp) : Prop := exists c, zlen c = zlen (kcode k) /\ k' = set_k_vm (set_code c (k_vm k)) k.
Lemma recoded_trans a b c : recoded a b -> recoded b c -> recoded a c.
Proof. intros (x & A & ->) (y & B & ->). exists y. split; [|reflexivity]. unfold kcode in *. ksin B. vsin B. congruence. Qed.
Lemma recoded_rel k k' E : recoded k k' -> crel k E -> crel k' E.
Proof. intros (c & L & ->) [[] A B C D G F]. constructor; try assumption. constructor; unfold kcode in *; ks; vs; rewrite ?L; assumption. Qed.
Lemma patched_recoded a k k' : patched a k k' -> recoded k k'.
Proof. intros (v & ->). eexists. split; [apply zlen_zupd|reflexivity]. Qed.
Lemma recoded_wf k k' : recoded k k' -> kwf k -> kwf k'.
Proof. intros (c & L & ->) []. constructor; unfold kcode in *; ks; vs; rewrite ?L; assumption. Qed.

Lemma fix_list_inv l w : forall k u k', fix_list l w k = Ok (u, k') -> kwf k -> (forall j, In j l -> 0 <= j /\ j + 3 <= k_w k) ->
  recoded k k' /\ (forall i, (forall j, In j l -> i <> j + 1) -> kmem k' i = kmem k i) /\ (forall j, In j l -> kmem k' (j + 1) = Some (u32 (w - j - 3))).
Proof.
  induction l as [|a l IH]; intros k u k' H W B; cbn [fix_list] in H.
  - injection H as _ <-. split; [|split; [reflexivity|contradiction]]. exists (kcode k). split; [reflexivity|]. unfold kcode. destruct k as [v]. destruct v. reflexivity.
  - kb H. destruct (B a (or_introl eq_refl)) as [B1 B2]. destruct (modify_jump_inv _ _ _ _ _ E W B1 B2) as [P V]. pose proof (patched_recoded _ _ _ P) as Rc.
    assert (k_w k0 = k_w k) as Ew by (destruct P as (z & ->); reflexivity).
    destruct (IH _ _ _ H (recoded_wf _ _ Rc W)) as (R2 & M2 & V2); [intros j I; rewrite Ew; apply B; right; exact I|].
    split; [eapply recoded_trans; eauto|]. split.
    + intros i Ni. rewrite M2 by (intros j I; apply Ni; right; exact I). apply (patched_mem _ _ _ _ P). apply Ni. left. reflexivity.
    + intros j [->|I]; [|apply V2, I]. destruct (in_dec Z.eq_dec j l) as [I|I]; [apply V2, I|]. rewrite M2; [exact V|]. intros j' I' Q. assert (j' = j) as -> by lia. contradiction.
Qed.

(** ** Opening and closing scopes *)

Lemma push_inv k u k' E : push_context k = Ok (u, k') -> crel k E ->
  k' = set_k_ctx (mkCC [] (u32 (e_used E)) INVALID false [] :: k_ctx k) k /\ crel k' (enter_scope E).
Proof.
  unfold push_context. intros H R. kb H. injection E0 as <- <-. injection H as _ <-. destruct R as [[] RS (c & r & C & O & L) RN RT RG RF RZ].
  rewrite C in *. rewrite O. split; [reflexivity|]. constructor; try assumption.
  - constructor; assumption.
  - constructor; [constructor|]. exact RS.
  - eexists _, _. split; [reflexivity|]. split; [reflexivity|reflexivity].
Qed.

Lemma pop_em c r sc n : Forall2 srel (c :: r) sc ->
  em c r (if n =? 0 then kret tt else push_lit_int n false ;~ add_op OP_POPN false) (fun _ x ws x' => ws = pop_words n /\ x' = x).
Proof.
  intro S. unfold pop_words. destruct (n =? 0).
  - eapply em_wk; [apply em_ret|]. ez. auto.
  - eapply em_wk; [eb; [apply em_lit_int|]; apply em_word|]. ez. auto.
Qed.
Lemma pop_inv k u k' c r E : pop_context k = Ok (u, k') -> noerr k' -> k_ctx k = c :: r -> crel (set_k_ctx r k) E ->
  k_w k' = k_w k + zlen (pop_words (pop_count (cc_vars c))) /\
  does (set_k_ctx r k) k' [] [] [] [] E E (fun m _ _ _ => mem_words m (k_w k) (pop_words (pop_count (cc_vars c)))).
Proof.
  unfold pop_context. intros H N C R. kb H. injection E0 as <- <-. rewrite C in H. cbv iota in H. kb H. injection E0 as _ <-. cbv zeta in H.
  destruct (does_em _ _ _ _ _ E (fun c0 r0 S => pop_em c0 r0 _ (pop_count (cc_vars c)) S) H N R) as (ws & v & (-> & ->) & W & D).
  rewrite used_at_same in D. split; [exact W|exact D].
Qed.

Lemma pops_of k k' l fx F E E' c' r' : did k k' l fx F E E' -> k_ctx k' = c' :: r' -> pops k = locals_of E -> pop_count (cc_vars c') = locals_of E'.
Proof.
  intros D C P. destruct (d_ctx _ _ _ _ _ _ _ D) as (c0 & r0 & c1 & C0 & C1 & _ & Q). rewrite C in C1. injection C1 as X Y. subst c1 r'. unfold pops in P. rewrite C0 in P. lia.
Qed.

(** Leaving a scope that was entered at [k1]. *)
Lemma did_leave k k1 k2 l fx F E E2 : crel k E -> k1 = set_k_ctx (mkCC [] (u32 (e_used E)) INVALID false [] :: k_ctx k) k ->
  did k1 k2 l fx F (enter_scope E) E2 ->
  exists c, k_ctx k2 = c :: addfix fx (k_ctx k) /\ did k (set_k_ctx (addfix fx (k_ctx k)) k2) l fx F E E.
Proof.
  intros R K1 D. pose proof R as [RW RS (c & r & C & O & L) RN RT RG RF RZ]. assert (k_ctx k <> []) as Ne by (rewrite C; discriminate).
  assert (e_scopes E <> []) as Ns. { intro Q. rewrite C, Q in RS. inversion RS. }
  destruct D. pose proof d_rel0 as [QW QS QH QN QT QG QF]. destruct d_ctx0 as (c0 & r0 & c1 & C0 & C1 & Fn & Po).
  subst k1. ksin C0. injection C0 as <- <-. exists c1. split; [exact C1|]. constructor; ks; try assumption.
  - assert (addfix fx (k_ctx k) = c :: addfix fx r) as Q by (rewrite C; cbn [addfix]; rewrite L; reflexivity). constructor; ks; try assumption.
    + destruct QW. constructor; assumption.
    + apply addfix_srel, RS.
    + rewrite Q. eauto 6.
    + rewrite QN. apply d_gl0. exact Ns.
    + rewrite addfix_last; assumption.
  - exists c, r, c. split; [exact C|]. split; [rewrite C; cbn [addfix]; rewrite L; reflexivity|]. split; [reflexivity|]. lia.
  - reflexivity.
  - reflexivity.
Qed.

Lemma does_scope k u k1 k2 u' k3 l fx h F E E2 P : crel k E -> push_context k = Ok (u, k1) ->
  does k1 k2 l fx h F (enter_scope E) E2 P -> pop_context k2 = Ok (u', k3) -> noerr k3 ->
  k_w k3 = k_w k2 + zlen (pop_words (locals_of E2)) /\
  does k k3 l fx h F E E (fun m ng fa lp => P m ng fa lp /\ mem_words m (k_w k2) (pop_words (locals_of E2))).
Proof.
  intros R Pu [D M H] Po N. destruct (push_inv _ _ _ _ Pu R) as [K1 _]. destruct (did_leave _ _ _ _ _ _ _ _ R K1 D) as (c & C2 & D2).
  assert (pop_count (cc_vars c) = locals_of E2) as Pc. { eapply pops_of; [exact D|exact C2|]. subst k1. reflexivity. }
  destruct (pop_inv _ _ _ _ _ _ Po N C2 (d_rel _ _ _ _ _ _ _ D2)) as [W D3]. rewrite Pc in W, D3. split; [exact W|].
  assert (does k (set_k_ctx (addfix fx (k_ctx k)) k2) l fx h F E E P) as D4.
  { subst k1. split; [exact D2| |exact H]. intros m ng Om Ng Tb. destruct (M m ng Om Ng Tb) as [X Y]. split; [exact X|exact Y]. }
  pose proof (does_seq _ _ _ _ _ _ _ _ _ _ _ _ _ _ _ _ R D4 D3) as D5. rewrite !app_nil_r in D5. exact D5.
Qed.

(** Loops. *)
Lemma open_inv k u k' E : open_loop k = Ok (u, k') -> crel k E ->
  k' = set_k_ctx (mkCC [] (u32 (e_used E)) INVALID false [] :: mkCC [] (u32 (e_used E)) INVALID true [] :: k_ctx k) k /\ crel k' (enter_loop E).
Proof.
  unfold open_loop. intros H R. kb H. destruct (push_inv _ _ _ _ E0 R) as [-> _]. kb H. apply mod_cc_inv in E1. destruct E1 as (c1 & r1 & C1 & ->). ksin C1. injection C1 as <- <-.
  unfold push_context in H. kb H. injection E1 as <- <-. injection H as _ <-. destruct R as [[] RS (c & r & C & O & L) RN RT RG RF RZ].
  split; [reflexivity|]. constructor; try assumption.
  - constructor; assumption.
  - constructor; [constructor|]. constructor; [constructor|]. exact RS.
  - eexists _, _. split; [reflexivity|]. split; reflexivity.
  - ks. rewrite C in *. exact RG.
Qed.

Lemma does_loop k u k1 k2 u' k3 l fx F E E2 P : crel k E -> open_loop k = Ok (u, k1) ->
  does k1 k2 l fx [] F (enter_loop E) E2 P -> close_loop k2 = Ok (u', k3) -> noerr k3 ->
  k_w k3 = k_w k2 + zlen (pop_words (locals_of E2)) /\
  does k k3 l [] [] F E E (fun m ng fa lp => P m ng fa (Some (k_w k3, e_used E)) /\ mem_words m (k_w k2) (pop_words (locals_of E2))).
Proof.
  intros R Op [D M H] Cl N. destruct (open_inv _ _ _ _ Op R) as [K1 R1]. pose proof R as [RW RS (c & r & C & O & L) RN RT RG RF RZ].
  assert (e_scopes E <> []) as Ns. { intro Q. rewrite C, Q in RS. inversion RS. }
  destruct (d_ctx _ _ _ _ _ _ _ D) as (c0 & r0 & c1 & C0 & C1 & Fn & Pp). pose proof (fun P => pops_of _ _ _ _ _ _ _ _ _ D C1 P) as Pc.
  rewrite K1 in C0. ksin C0. injection C0 as <- <-. cbn [addfix cc_loop] in C1. cbn [cc_fix] in C1. rewrite app_nil_r in C1.
  specialize (Pc ltac:(subst k1; reflexivity)). set (Lc := set_cc_fix fx (mkCC [] (u32 (e_used E)) INVALID true [])) in *.
  pose proof (d_rel _ _ _ _ _ _ _ D) as R2. pose proof R2 as [QW QS QH QN QT QG QF].
  pose proof (d_gl _ _ _ _ _ _ _ D ltac:(discriminate)) as Gl. cbn [e_globals enter_loop enter_scope] in Gl.
  unfold close_loop in Cl. kb Cl. rename k0 into ka. kb Cl. rename k0 into kc.
  assert (noerr kc) as Nc by exact (w_pop_ctx errs errs_prims _ _ _ Cl N).
  assert (noerr ka) as Na by exact (w_fix errs errs_prims _ _ _ E1 Nc).
  assert (exists ws, put (pop_words (locals_of E2)) (set_k_ctx (Lc :: k_ctx k) k2) ka /\ at_ ka Lc (k_ctx k) (e_used E) /\ ws = pop_words (locals_of E2)) as (ws & Pw & Aa & Ew).
  { unfold pop_context in E0. kb E0. injection E3 as <- <-. rewrite C1 in E0. cbv iota in E0. kb E0. injection E3 as _ <-. cbv zeta in E0. rewrite Pc in E0.
    assert (Forall2 srel (Lc :: k_ctx k) ([] :: e_scopes E)) as Sl by (constructor; [constructor|exact RS]).
    destruct (proj2 (pop_em Lc (k_ctx k) _ (locals_of E2) Sl) _ _ _ (e_used E) E0 Na) as (ws & v & P1 & P2 & -> & ->); [destruct QW; constructor; assumption|reflexivity|]. eauto. }
  clear E0 ws Ew. destruct Pw as (Wa & Ba & Ma & (Ta & Nsa & Fa & Sta & Sma) & Wfa). ksin Wa. ksin Ba. ksin Ma. ksin Ta. ksin Nsa. ksin Fa. unfold at_ in Aa.
  change (set_cc_off (u32 (e_used E)) Lc) with Lc in Aa.
  unfold fix_breaks in E1. kb E1. unfold cur_cc in E0. kb E0. injection E3 as <- <-. rewrite Aa in E0. injection E0 as <- <-. kb E1. injection E0 as <- <-. kb E1. rename k0 into kd.
  apply mod_cc_inv in E1. destruct E1 as (cx & rx & Cx & ->).
  change (cc_fix Lc) with fx in E0. destruct (fix_list_inv _ _ _ _ _ E0 Wfa) as (Rd & Md & Vd).
  { intros j I. apply (d_fx _ _ _ _ _ _ _ D) in I. pose proof (zlen_nonneg (pop_words (locals_of E2))). pose proof (kw_w _ RW). assert (k_w k1 = k_w k) by (subst k1; reflexivity). lia. }
  pose proof (recoded_wf _ _ Rd Wfa) as Wfd. destruct Rd as (cd & Ld & Kd).
  assert (k_ctx kd = Lc :: k_ctx k) as Cd by (rewrite Kd; exact Aa). rewrite Cd in Cx. injection Cx as <- <-.
  unfold pop_context in Cl. kb Cl. injection E1 as <- <-. ksin Cl. kb Cl. injection E1 as _ <-. injection Cl as _ <-.
  assert (k_w k1 = k_w k /\ k_nstat k1 = k_nstat k /\ v_funcs (k_vm k1) = v_funcs (k_vm k) /\ k_toks k1 = k_toks k /\ (forall i, kmem k1 i = kmem k i)) as (Q1 & Q2 & Q3 & Q4 & Q5) by (subst k1; repeat split).
  assert (k_w kd = k_w ka /\ k_nstat kd = k_nstat ka /\ v_funcs (k_vm kd) = v_funcs (k_vm ka) /\ k_toks kd = k_toks ka) as (S1 & S2 & S3 & S4) by (subst kd; repeat split).
  pose proof (zlen_nonneg (pop_words (locals_of E2))) as Zp. pose proof (kw_w _ RW) as Kw. pose proof (d_w _ _ _ _ _ _ _ D) as Dw.
  assert (forall i, 0 <= i < k_w k2 -> (forall j, In j fx -> i <> j + 1) -> kmem kd i = kmem k2 i) as Mk.
  { intros i Hi Ni. rewrite Md by exact Ni. apply Ba. exact Hi. }
  ks. split; [lia|]. split.
  - destruct D. constructor; ks; rewrite ?S1, ?S2, ?S3, ?S4, ?Ta, ?Nsa, ?Fa; rewrite ?Q1, ?Q2, ?Q3, ?Q4 in *; try assumption; try contradiction; try reflexivity; try lia.
    + constructor; ks; rewrite ?S1, ?S2, ?S3, ?S4, ?Ta, ?Nsa, ?Fa; try assumption.
      * destruct Wfd; constructor; assumption.
      * eauto 6.
      * rewrite QN. exact Gl.
    + intros i Hi. change (kmem kd i = kmem k i). rewrite Mk; [rewrite d_below0 by lia; apply Q5|lia|]. intros j I. apply d_fx0 in I. lia.
    + exists c, r, c. rewrite addfix_nil. split; [exact C|]. split; [exact C|]. split; [reflexivity|lia].
  - intros m ng Om Ng Tb. ksin Ng. rewrite S2, Nsa in Ng. assert (okm m k1 k2 [] fx) as O2.
    { intros i Hi Ni. rewrite Om; ks; [|lia|intros j [[]|[]]]. apply Mk; [lia|]. intros j I. apply Ni. auto. }
    destruct (M m ng O2 Ng Tb) as [X Y]. split.
    + intros fa lp _ Fno. split.
      * apply X; [|subst k1; exact Fno]. unfold brk. subst k1. cbn [k_ctx set_k_ctx loop_off cc_loop cc_off]. exists (k_w kd), (e_used E). split; [reflexivity|]. split; [reflexivity|].
        intros j I. pose proof (d_fx _ _ _ _ _ _ _ D _ I) as B. rewrite Om; ks; [|lia|intros j' [[]|[]]]. rewrite S1. exact (Vd _ I).
      * intros i w Hw. pose proof (znth_some_range _ _ _ Hw). rewrite Om; ks; [|lia|intros j' [[]|[]]]. change (kmem kd (k_w k2 + i) = Some w). rewrite Md; [exact (Ma _ _ Hw)|].
        intros j I. apply (d_fx _ _ _ _ _ _ _ D) in I. lia.
    + intros id fd I. destruct (Y _ _ I) as (f & A1 & A2 & A3 & A4 & A5). exists f. ks. rewrite S3, Fa. split; [exact A1|]. split; [exact A2|]. split; [exact A3|]. split; [lia|exact A5].
  - contradiction.
Qed.

(** ** Variables *)

Lemma alloc_inv k p k' : allocate_static k = Ok (p, k') -> noerr k' -> kwf k ->
  p = k_nstat k /\ k_nstat k' = k_nstat k + 1 /\ kwf k' /\ k_w k' = k_w k /\ k_ctx k' = k_ctx k /\ k_toks k' = k_toks k /\
  v_code (k_vm k') = v_code (k_vm k) /\ v_funcs (k_vm k') = v_funcs (k_vm k).
Proof.
  unfold allocate_static. intros H N W. kb H. injection E as <- <-. kb H. injection E as <- <-. cbv zeta in H.
  pose proof (kw_smask _ W) as Sm. pose proof (kw_spow _ W) as Sp. pose proof (kw_n _ W) as Kn. destruct (pow2_bounds _ Sp) as [L U]. unfold W31 in U.
  set (z := zlen (v_static (k_vm k))) in *. rewrite Sm in H.
  assert (u32 (z - 1 + 1) = z) as E1 by (rewrite u32_id; unfold is_u32, W32; lia).
  assert (u32 ((z - 1) * 2) = 2 * (z - 1)) as E2 by (rewrite u32_id; unfold is_u32, W32; lia).
  rewrite E1, E2, lor_one in H by lia. replace (2 * (z - 1) + 1) with (2 * z - 1) in H by lia.
  assert (u32 (k_nstat k + 1) = k_nstat k + 1) as E3 by (rewrite u32_id; unfold is_u32, W32; lia). rewrite E3 in H.
  destruct ((z =? k_nstat k) && (2 * z - 1 =? INVALID)) eqn:G.
  - exfalso. kb H. eapply complain; eauto.
  - kb H. kb H. injection E0 as _ <-. destruct (Z.eqb_spec (k_nstat k + 1) 0); [lia|]. injection H as <- <-. split; [reflexivity|]. ks. split; [reflexivity|].
    destruct (Z.eqb_spec z (k_nstat k)) as [Q|Q]; cbn [andb] in G.
    + apply Z.eqb_neq in G. unfold INVALID, W32 in G. apply kvm_inv in E. destruct E as (s & E & ->). inversion E; subst s; clear E.
      assert (zlen (v_static (k_vm k) ++ repeat (mkV 0 0) (Z.to_nat (k_nstat k))) = 2 * z) as Z2.
      { rewrite zlen_app. unfold zlen at 2. rewrite repeat_length, Z2Nat.id by lia. fold z. lia. }
      destruct W. split; [|repeat split]. constructor; unfold kcode in *; ks; vs; try assumption.
      * rewrite Z2. apply pow2_double; [exact Sp|]. unfold W31. lia.
      * rewrite Z2. reflexivity.
      * rewrite Z2. lia.
    + injection E as _ <-. destruct W. split; [|repeat split]. constructor; unfold kcode in *; ks; vs; try assumption. fold z. lia.
Qed.

Lemma zero_em c r sc (b : bool) : Forall2 srel (c :: r) sc ->
  em c r (if b then kret tt else push_lit_int 0 true) (fun _ x ws x' => ws = (if b then [] else [OP_LIT_INT; 0]) /\ x' = x + if b then 0 else 1).
Proof.
  intro S. destruct b.
  - eapply em_wk; [apply em_ret|]. ez. auto.
  - eapply em_wk; [apply em_lit_int|]. ez. auto.
Qed.
Lemma poke_em c r sc p : Forall2 srel (c :: r) sc ->
  em c r (push_lit_int p true ;~ add_op OP_STATICPOKE true ;~ add_op OP_POP true)
    (fun _ x ws x' => ws = [OP_LIT_INT; u32 p; OP_STATICPOKE; OP_POP] /\ x' = x - 1).
Proof.
  intro S. eapply em_wk; [eb; [apply em_lit_int|]; eb; [apply em_word|]; apply em_word|]. ez. split; [reflexivity|].
  change (stack_offset OP_STATICPOKE) with (-1). change (stack_offset OP_POP) with (-1). lia.
Qed.

Lemma pop_count_cons v vs : pop_count (v :: vs) = (if negb (cv_nopop v) && negb (cv_global v) then 1 else 0) + pop_count vs.
Proof. unfold pop_count. cbn [filter]. destruct (negb (cv_nopop v) && negb (cv_global v)); [rewrite zlen_cons; lia|lia]. Qed.

Lemma does_add n top k b k' E : add_variable n top true k = Ok (b, k') -> noerr k' -> crel k E ->
  let ws := (if top then [] else [OP_LIT_INT; 0]) ++ decl_words E in
  b = true /\ k_w k' = k_w k + zlen ws /\
  does k k' [] [] [] [] E (declare n (used_at E (e_used E - if top then 1 else 0)))
    (fun m ng _ _ => mem_words m (k_w k) ws /\ decl_ok ng E).
Proof.
  intros H N R ws0. destruct (crel_at _ _ R) as (c & r & C & A0 & S). unfold add_variable in H. kb H. unfold cur_cc in E0. kb E0. injection E1 as <- <-. rewrite C in E0. injection E0 as <- <-.
  destruct (has_var n (cc_vars c)). { exfalso. eapply complain; eauto. }
  kb H. injection E0 as <- <-. rewrite C in H. pose proof R as [RW RS (c0 & r0 & C0 & Of & L) RN RT RG RF RZ]. rewrite C in C0. injection C0 as <- <-.
  unfold decl_words, decl_ok in *. inversion S as [|c0 s0 r0 sc Sh St Eq1 Eq2]; subst c0 r0. subst ws0. rewrite <- Eq2 in *.
  destruct r as [|c2 r].
  - (* a global *)
    inversion St; subst sc. cbn [andb] in H. rewrite <- if_negb, negb_involutive in H || idtac.
    kb H. rename k0 into k1. assert (noerr k1) as N1. { revert N. refine ((_ : pres errs _) _ _ _ H). ew I. apply (w_alloc_static _ errs_prims). }
    assert ((if top then kret tt else push_lit_int 0 true) k = Ok (x, k1)) as X by (destruct top; exact E0). clear E0.
    destruct (proj2 (zero_em c [] _ top S) _ _ _ _ X N1 RW A0) as (w1 & x1 & P1 & A1 & -> & ->).
    kb H. rename k0 into k2. assert (noerr k2) as N2. { revert N. refine ((_ : pres errs _) _ _ _ H). ew I. }
    pose proof P1 as (W1 & B1 & M1 & (T1 & Ns1 & F1 & _) & K1). destruct (alloc_inv _ _ _ E0 N2 K1) as (-> & Ns2 & K2 & W2 & C2 & T2 & Co2 & F2). clear E0.
    kb H. rename k0 into k3. assert (noerr k3) as N3. { revert N. refine ((_ : pres errs _) _ _ _ H). ew I. }
    assert (at_ k2 c [] (e_used E + (if top then 0 else 1))) as A2 by (unfold at_ in *; rewrite C2; exact A1).
    destruct (proj2 (poke_em c [] _ _ S) _ _ _ _ E0 N3 K2 A2) as (w3 & x3 & P3 & A3 & -> & ->). clear E0.
    kb H. injection H as <- <-. apply mod_cc_inv in E0. destruct E0 as (cx & rx & Cx & ->). unfold at_ in A3. rewrite A3 in Cx. injection Cx as <- <-.
    pose proof P3 as (W3 & B3 & M3 & (T3 & Ns3 & F3 & _) & K3). cbn [cc_vars set_cc_off].
    assert (Rn : k_nstat k1 = e_globals E) by congruence. rewrite Rn in *.
    set (ws := (if top then [] else [OP_LIT_INT; 0]) ++ [OP_LIT_INT; u32 (e_globals E); OP_STATICPOKE; OP_POP]) in *.
    assert (k_w k3 = k_w k + zlen ws) as Wk. { unfold ws. rewrite zlen_app, W3, W2, W1. lia. }
    pose proof (zlen_nonneg ws). pose proof (kw_w _ RW) as Kw. assert (0 <= zlen (if top then [] else [OP_LIT_INT; 0])) by apply zlen_nonneg.
    assert (forall i, 0 <= i < k_w k1 -> kmem k3 i = kmem k1 i) as B31.
    { intros i Hi. rewrite B3 by lia. unfold kmem, kcode. rewrite Co2. reflexivity. }
    split; [reflexivity|]. split; [exact Wk|]. split.
    + constructor; ks; try assumption; try contradiction; try lia.
      * cbn [app]; congruence.
      * constructor; ks; try assumption; unfold declare; cbn [used_at e_scopes e_globals e_used]; rewrite <- ?Eq2; cbn [used_at e_scopes e_globals e_used].
        -- destruct K3; constructor; assumption.
        -- constructor; [|constructor]. constructor; [|exact Sh]. split; [reflexivity|]. cbn. auto.
        -- eexists _, _. split; [reflexivity|]. cbn [cc_off set_cc_vars set_cc_off]. split; [|exact L]. f_equal. destruct top; lia.
        -- congruence.
        -- rewrite T3, T2, T1. exact RT.
        -- rewrite F3, F2, F1. exact RF.
        -- rewrite T3, T2, T1. exact RZ.
      * intros i Hi. change (kmem k3 i = kmem k i). rewrite B31 by lia. apply B1. lia.
      * intros i f. rewrite F3, F2, F1. auto.
      * eexists _, _, _. split; [exact C|]. split; [reflexivity|]. split; [reflexivity|]. cbn [cc_vars set_cc_vars set_cc_off]. rewrite pop_count_cons. cbn [cv_nopop cv_global negb andb].
        unfold locals_of, declare. cbn [used_at e_scopes]. rewrite <- Eq2. cbn [e_scopes filter is_local snd]. lia.
      * reflexivity.
      * constructor.
      * rewrite F3, F2, F1. lia.
      * unfold declare. cbn [used_at e_scopes]. rewrite <- Eq2. reflexivity.
      * rewrite <- Eq2. contradiction.
    + intros m ng Om Ng _. ksin Ng. split; [|contradiction]. intros fa lp _ _. split; [|pose proof (kw_n _ RW); lia].
      intros i w Hw. pose proof (znth_some_range _ _ _ Hw) as Ri. rewrite Om; ks; [|lia|intros j [[]|[]]]. change (kmem k3 (k_w k + i) = Some w).
      unfold ws in Hw. destruct (Z.lt_ge_cases i (zlen (if top then [] else [OP_LIT_INT; 0]))) as [Q|Q].
      * rewrite znth_app_l in Hw by exact Q. rewrite B31 by lia. apply M1. exact Hw.
      * rewrite znth_app_r in Hw by exact Q. apply M3 in Hw. rewrite <- Hw. f_equal. lia.
    + contradiction.
  - (* a local *)
    inversion St as [|? s1 ? sc1 Sh1 St1]; subst. rename E0 into dummy0 || idtac.
    kb H. rename k0 into k1. assert (noerr k1) as N1. { revert N. refine ((_ : pres errs _) _ _ _ H). ew I. }
    destruct (proj2 (zero_em c (c2 :: r) _ top S) _ _ _ _ E0 N1 RW A0) as (w1 & x1 & P1 & A1 & -> & ->). clear E0.
    kb H. injection H as <- <-. apply mod_cc_inv in E0. destruct E0 as (cx & rx & Cx & ->). unfold at_ in A1. rewrite A1 in Cx. injection Cx as <- <-.
    pose proof P1 as (W1 & B1 & M1 & (T1 & Ns1 & F1 & _) & K1). cbn [cc_vars set_cc_off cc_off]. rewrite app_nil_r.
    pose proof (zlen_nonneg (if top then [] else [OP_LIT_INT; 0])) as Zn. split; [reflexivity|]. split; [exact W1|]. split.
    + constructor; ks; try assumption; try contradiction; try lia.
      * cbn [app]; congruence.
      * constructor; ks; try assumption; unfold declare; cbn [used_at e_scopes e_globals e_used]; rewrite <- ?Eq2; cbn [used_at e_scopes e_globals e_used].
        -- destruct K1; constructor; assumption.
        -- constructor; [|exact St]. constructor; [|exact Sh]. split; [reflexivity|]. cbn. split; [reflexivity|]. rewrite u32_sub_l. f_equal. destruct top; lia.
        -- eexists _, _. split; [reflexivity|]. cbn [cc_off set_cc_vars set_cc_off]. split; [|exact L]. f_equal. destruct top; lia.
        -- congruence.
        -- rewrite T1. exact RT.
        -- rewrite C in RG. exact RG.
        -- rewrite F1. exact RF.
        -- rewrite T1. exact RZ.
      * intros i f. rewrite F1. auto.
      * eexists _, _, _. split; [exact C|]. rewrite addfix_nil. split; [reflexivity|]. split; [reflexivity|]. cbn [cc_vars set_cc_vars set_cc_off]. rewrite pop_count_cons. cbn [cv_nopop cv_global negb andb].
        unfold locals_of, declare. cbn [used_at e_scopes]. rewrite <- Eq2. cbn [e_scopes filter is_local snd]. rewrite zlen_cons. lia.
      * reflexivity.
      * constructor.
      * rewrite F1. lia.
      * unfold declare. cbn [used_at e_scopes]. rewrite <- Eq2. reflexivity.
      * intros _. unfold declare. cbn [used_at e_scopes]. rewrite <- Eq2. reflexivity.
    + intros m ng Om Ng _. split; [|contradiction]. intros fa lp _ _. split; [|exact I].
      intros i w Hw. pose proof (znth_some_range _ _ _ Hw) as Ri. rewrite Om; ks; [|lia|intros j [[]|[]]]. exact (M1 _ _ Hw).
    + contradiction.
Qed.
End Lits2.
