(** * NestProofs: what compiling does to the recursion count (C39) *)

From Verif Require Import Base BaseFacts State CsModel ExprModel CompModel KFacts ParseSpec ParseProofs CodeRel EmitProofs DidProofs StmtProofs NestSpec.
From Coq Require Import ZArith List Lia.
Import ListNotations.
Open Scope Z_scope.

(** ** Writing code does not touch it *)

Ltac tyne := match goal with |- ?a <> ?b => unfold a, b; discriminate end.

Definition rt (k k' : comp) : Prop := k_toks k' = k_toks k /\ k_rec k' = k_rec k.
Lemma rt_refl k : rt k k. Proof. split; reflexivity. Qed.
Lemma rt_trans a b c : rt a b -> rt b c -> rt a c.
Proof. unfold rt. intuition congruence. Qed.
Lemma rt_kvm {A} (m : M A) : pres rt (kvm m).
Proof. intros k a k' H. apply kvm_inv in H. destruct H as (s & _ & ->). split; reflexivity. Qed.
Ltac rstep :=
  match goal with
  | H : pres rt ?m |- pres rt ?m => exact H
  | |- pres rt (kbind _ _) => apply (p_bind _ rt_trans); [|intros ?]
  | |- pres rt (kret _) => apply (p_ret rt rt_refl)
  | |- pres rt (kgets _) => apply (p_gets rt rt_refl)
  | |- pres rt (klift _) => apply (p_lift rt rt_refl)
  | |- pres rt (kub _) => apply p_ub
  | |- pres rt (kvm _) => apply rt_kvm
  | |- pres rt (kmod _) => apply p_mod; intro; split; reflexivity
  | |- pres rt (cerror _) => unfold cerror
  | |- pres rt (mod_cc _) => unfold mod_cc
  | |- pres rt cur_cc => unfold cur_cc
  | |- pres rt (if ?b then _ else _) => destruct b
  | |- pres rt (match ?x with _ => _ end) => destruct x
  end.
Ltac rw := repeat rstep.
Lemma r_word w b : pres rt (add_word w b). Proof. unfold add_word, grow_code, move_off. rw. Qed.
Lemma r_lit v b : pres rt (push_lit_int v b). Proof. unfold push_lit_int. pose proof r_word as X. rw; apply X. Qed.
Lemma r_litf v b : pres rt (push_lit_func v b). Proof. unfold push_lit_func. pose proof r_word as X. rw; apply X. Qed.
Lemma r_litfl v b : pres rt (push_lit_float v b). Proof. unfold push_lit_float. pose proof r_word as X. rw; apply X. Qed.
Lemma r_lits v b : pres rt (push_lit_string v b). Proof. unfold push_lit_string. pose proof r_word as X. rw; apply X. Qed.
Lemma r_move d : pres rt (move_off d). Proof. unfold move_off. rw. Qed.
Ltac rz := repeat first [rstep | match goal with
  | |- pres rt (add_word _ _) => apply r_word
  | |- pres rt (add_op _ _) => apply r_word
  | |- pres rt (push_nil_op _) => apply r_word
  | |- pres rt (push_lit_int _ _) => apply r_lit
  | |- pres rt (push_lit_func _ _) => apply r_litf
  | |- pres rt (push_lit_float _ _) => apply r_litfl
  | |- pres rt (push_lit_string _ _) => apply r_lits
  | |- pres rt (move_off _) => apply r_move end].
Lemma r_push : pres rt push_context. Proof. unfold push_context. rz. Qed.
Lemma r_pop : pres rt pop_context. Proof. unfold pop_context. rz. Qed.
Lemma r_alloc : pres rt allocate_static. Proof. unfold allocate_static. rz. Qed.
Lemma r_addv n u i : pres rt (add_variable n u i).
Proof. pose proof r_alloc. unfold add_variable. rz. Qed.
Lemma r_look n : pres rt (lookup_variable n). Proof. unfold lookup_variable. rz. Qed.
Lemma r_jump t : pres rt (emit_jump t). Proof. unfold emit_jump. rz. Qed.
Lemma r_jz t : pres rt (emit_jz t). Proof. unfold emit_jz. rz. Qed.
Lemma r_mod a t : pres rt (modify_jump a t). Proof. unfold modify_jump. cbv zeta. rz. Qed.
Lemma r_fetch n : pres rt (emit_fetch n). Proof. pose proof (r_look n). unfold emit_fetch. rz. Qed.
Lemma r_set n : pres rt (emit_set n). Proof. pose proof (r_look n). unfold emit_set. rz. Qed.
Lemma r_fse n a : pres rt (emit_fse n a). Proof. unfold emit_fse. rz. Qed.
Lemma r_ret : pres rt emit_return. Proof. unfold emit_return. rz. Qed.
Lemma r_fixl l w : pres rt (fix_list l w). Proof. pose proof r_mod as X. induction l; cbn [fix_list]; rz; apply X. Qed.
Lemma r_fix : pres rt fix_breaks. Proof. pose proof r_fixl as X. unfold fix_breaks. rz. apply X. Qed.
Lemma r_open : pres rt open_loop. Proof. pose proof r_push. unfold open_loop. rz. Qed.
Lemma r_close : pres rt close_loop. Proof. pose proof r_pop. pose proof r_fix. unfold close_loop. rz. Qed.
Lemma r_nopop : pres rt no_pop. Proof. unfold no_pop. rz. Qed.
Lemma r_owned n : pres rt (add_owned n). Proof. pose proof (r_addv n true true). pose proof r_nopop. unfold add_owned. rz. Qed.

Lemma nxt_rec k : k_rec (nxt k) = k_rec k.
Proof. unfold nxt. destruct (k_toks k) as [|t0 [|t r]]; [reflexivity..|]. destruct (negb _ || negb _)%bool; reflexivity. Qed.

Section WithLits.
Context {LT : Lits}.

(** ** Parsing puts it back *)

Definition pm {A} (d : A -> Z) (m : K A) : Prop :=
  pres errs m /\ forall k a k', m k = Ok (a, k') -> noerr k' -> noanon (k_toks k) ->
    noanon (k_toks k') /\ k_rec k' = k_rec k + d a.

Lemma pm_bind {A B} (d1 : A -> Z) (d2 : B -> Z) (m : K A) (f : A -> K B) :
  pm d1 m -> (forall a, pm (fun b => d2 b - d1 a) (f a)) -> pm d2 (kbind m f).
Proof.
  intros [P H] F. split; [apply (pb _ errs_prims); [exact P|intro a; apply (F a)]|].
  intros k b k' G N L. kb G. destruct (F x) as [Pf Hf]. pose proof (Pf _ _ _ G N) as N0.
  destruct (H _ _ _ E N0 L) as [L0 R0]. destruct (Hf _ _ _ G N L0) as [L1 R1]. split; [exact L1|lia].
Qed.
Lemma pm_ret {A} (a : A) d : d a = 0 -> pm d (kret a).
Proof. intro Z0. split; [apply (prt _ errs_prims)|]. intros k b k' H N L. injection H as <- <-. split; [exact L|lia]. Qed.
Lemma pm_rt {A} (m : K A) d : pres errs m -> pres rt m -> (forall a, d a = 0) -> pm d m.
Proof.
  intros P R D. split; [exact P|]. intros k a k' H N L. destruct (R _ _ _ H) as [T Q]. rewrite T, Q, D. split; [exact L|lia].
Qed.
Lemma pm_bad {B} msg (f : unit -> K B) (d : B -> Z) : (forall u, pres errs (f u)) -> pm d (kbind (cerror msg) f).
Proof.
  intro P. split; [apply (pb _ errs_prims); [apply w_cerror, errs_prims|exact P]|].
  intros k b k' H N. exfalso. kb H. eapply cerror_errs; [exact E|]. eapply P; eauto.
Qed.
Lemma pm_ub {A} u (d : A -> Z) : pm d (kub u).
Proof. split; [apply p_ub|]. discriminate. Qed.
Lemma pm_next d : (forall u, d u = 0) -> pm d next_tok.
Proof.
  intro D. split; [apply (pr_next _ errs_prims)|]. intros k a k' H N L. rewrite next_tok_run in H. injection H as _ <-.
  rewrite nxt_toks, nxt_rec, D. split; [apply noanon_tl, L|lia].
Qed.
Lemma pm_push d : d true = 1 -> pm d push_recursion.
Proof.
  intro D. split; [apply (w_push_rec _ errs_prims)|]. intros k a k' H N L. unfold push_recursion in H. kb H. injection E as <- <-.
  destruct (256 <? k_rec k); [destruct (complain _ _ _ _ _ H N)|]. kb H. injection E as _ <-. injection H as <- <-. ks. split; [exact L|lia].
Qed.
Lemma pm_popr d : (forall u, d u = -1) -> pm d pop_recursion.
Proof.
  intro D. split; [apply (w_pop_rec _ errs_prims)|]. intros k a k' H N L. apply pop_rec_inv in H. subst k'. ks. rewrite D. split; [exact L|lia].
Qed.
Lemma pm_giveup {A} (a : A) d : d a = -1 -> pm d (give_up a).
Proof.
  intro D. unfold give_up. eapply (pm_bind (fun _ => -1)); [apply pm_popr; reflexivity|]. intros _. apply pm_ret. lia.
Qed.
Lemma pm_expect t d : (forall b, d b = 0) -> pm d (expect t).
Proof.
  intro D. unfold expect. eapply (pm_bind (fun _ => 0)); [apply pm_rt; [apply (pgt _ errs_prims)|apply (p_gets rt rt_refl)|reflexivity]|]. intro c.
  destruct (negb (c =? t)).
  - eapply (pm_bind (fun _ => 0)); [apply pm_rt; [apply (pgt _ errs_prims)|apply (p_gets rt rt_refl)|reflexivity]|]. intro s.
    apply pm_bad. intros. apply (prt _ errs_prims).
  - eapply (pm_bind (fun _ => 0)); [apply pm_next; reflexivity|]. intro. apply pm_ret. rewrite D. lia.
Qed.
Lemma pm_wk {A} (d d' : A -> Z) m : pm d m -> (forall a, d a = d' a) -> pm d' m.
Proof. intros [P H] E. split; [exact P|]. intros k a k' G N L. rewrite <- E. eauto. Qed.

Definition zero {A} : A -> Z := fun _ => 0.
Definition minus1 {A} : A -> Z := fun _ => -1.
Definition nul (a : ast) : Z := if is_null a then -1 else 0.

Record pms (r : calls) : Prop := {
  pm_expr : pm zero (r_expr r);
  pm_loop : forall o v, pm minus1 (r_loop r o v);
  pm_post : forall p v, v <> ANull -> pm nul (r_postfix r p v);
  pm_par : pm minus1 (r_params r)
}.

Ltac pg := eapply (pm_bind zero); [apply pm_rt; [apply (pgt _ errs_prims)|apply (p_gets rt rt_refl)|reflexivity]|intro].
Ltac pl := eapply (pm_bind zero); [apply pm_rt; [apply (plf _ errs_prims)|apply (p_lift rt rt_refl)|reflexivity]|intro].
Ltac sol := unfold zero, minus1, nul in *; cbn [is_null]; intros; try reflexivity; try lia; try discriminate.
Ltac bad := apply pm_bad; intros; first [apply (w_give_up _ errs_prims) | apply (prt _ errs_prims)].

Section Parse.
Variable n : nat.
Let r := compiler n.
Hypothesis Q : pms r.

Lemma m_params : pm minus1 (params_body r).
Proof.
  unfold params_body. pg. destruct (_ || _)%bool.
  - eapply (pm_bind zero); [apply pm_expect; sol|intro]. eapply (pm_bind minus1); [apply pm_popr; sol|intro]. apply pm_ret. sol.
  - eapply (pm_bind zero); [apply Q|intros [|? ? ? ?]]; [bad|]. pg. destruct (_ =? TK_COMMA).
    + eapply (pm_bind zero); [apply pm_next; sol|intro]. eapply (pm_bind minus1); [eapply pm_wk; [apply Q|sol]|intro]. apply pm_ret. sol.
    + destruct (_ =? TK_PAREN_CLOSE); [|bad]. eapply (pm_bind minus1); [eapply pm_wk; [apply Q|sol]|intro]. apply pm_ret. sol.
Qed.
Lemma m_call : pm zero (parse_call r).
Proof.
  unfold parse_call. eapply (pm_bind (fun b : bool => if b then 1 else 0)); [apply pm_push; sol|intros []]; cbn [negb].
  - eapply (pm_bind zero); [apply pm_next; sol|intro]. eapply pm_wk; [apply Q|sol].
  - apply pm_ret. sol.
Qed.
Lemma m_post p v : v <> ANull -> pm nul (postfix_body r p v).
Proof.
  intro V. assert (forall p, pm nul (postfix_end p v)) as Pe.
  { intros []; [|..]; unfold postfix_end; try apply pm_ub; apply pm_ret; destruct v; sol; contradiction. }
  unfold postfix_body. cbv zeta. pg. destruct a as [|t l]; [eapply pm_wk; [apply Pe|sol]|].
  destruct (negb (is_postfix (tk_type t))); [eapply pm_wk; [apply Pe|sol]|].
  destruct (_ || _)%bool.
  - eapply (pm_bind zero); [apply pm_next; sol|intro]. pg. destruct a0 as [|i q]; [bad|]. destruct (negb _); [bad|].
    eapply (pm_bind zero); [apply pm_expect; sol|intro].
    destruct (_ =? TK_INDIRECTION).
    + pg. destruct a1 as [|q0 q1]; [bad|]. destruct (negb _); [bad|]. eapply (pm_bind zero); [apply m_call|intros [ps|]].
      * eapply pm_wk; [apply Q; discriminate|sol].
      * apply pm_giveup. sol.
    + eapply pm_wk; [apply Q; discriminate|sol].
  - destruct (_ =? TK_BRACKET_OPEN).
    + eapply (pm_bind zero); [apply pm_next; sol|intro]. eapply (pm_bind zero); [apply Q|intros [|? ? ? ?]]; [bad|].
      eapply (pm_bind zero); [apply pm_expect; sol|intros []]; cbn [negb].
      * eapply pm_wk; [apply Q; discriminate|sol].
      * apply pm_giveup. sol.
    + destruct (_ =? TK_PAREN_OPEN).
      * eapply (pm_bind zero); [apply m_call|intros [ps|]]; [|apply pm_giveup; sol].
        destruct v as [|vt vr c0 c1]; [apply pm_ub|]. match goal with |- pm _ (if ?b then _ else _) => destruct b end; (eapply pm_wk; [apply Q; discriminate|sol]).
      * eapply (pm_bind zero); [apply pm_next; sol|intro]. eapply pm_wk; [apply Q; discriminate|sol].
Qed.
Lemma m_prefix f : pm zero (prefix_loop f).
Proof.
  induction f; cbn [prefix_loop]; [apply pm_ub|]. pg. destruct a as [|t l]; [apply pm_ret; sol|]. destruct (is_prefix _); [|apply pm_ret; sol].
  eapply (pm_bind zero); [apply pm_next; sol|intro]. eapply (pm_bind zero); [eapply pm_wk; [apply IHf|sol]|intro]. apply pm_ret; sol.
Qed.
Lemma m_value : pm nul (parse_value r).
Proof.
  split; [apply (w_value _ errs_prims _ (compiler_walks _ errs_prims n))|]. intros k a k' H N L. unfold parse_value in H.
  kb H. injection E as <- <-. destruct (cur_type k =? TK_PAREN_OPEN).
  { revert N L. refine (proj2 (_ : pm nul _) _ _ _ H).
    eapply (pm_bind zero); [apply pm_next; sol|intro]. eapply (pm_bind zero); [apply Q|intros [|? ? ? ?]]; [bad|]. pg. destruct (negb _); [bad|].
    eapply (pm_bind zero); [apply pm_next; sol|intro]. apply pm_ret; sol. }
  kb H. injection E as <- <-. destruct (k_toks k) as [|t l] eqn:T; [destruct (complain_up _ _ _ _ _ H N)|].
  destruct (expr_ending (cur_type k)); [destruct (complain_up _ _ _ _ _ H N)|].
  destruct (Z.eqb_spec (cur_type k) TK_FUNCTION) as [F|F].
  - exfalso. kb H. rewrite <- T in L. refine (qt_func _ (compiler_quiet n) _ _ _ E F L _). destruct x.
    + kb H. injection E0 as <- <-. injection H as _ <-. exact N.
    + destruct (complain_up _ _ _ _ _ H N).
  - kb H. rewrite next_tok_run in E. injection E as _ <-. injection H as <- <-. rewrite nxt_toks, nxt_rec, T. cbn. split; [apply (noanon_app [t]), L|lia].
Qed.
Lemma m_loop_end o v : pm minus1 (loop_end o v).
Proof.
  unfold loop_end. pl. destruct a as [[|v0 [|? ?]]|]; [bad| |apply pm_ub|bad].
  eapply (pm_bind minus1); [apply pm_popr; sol|intro]. apply pm_ret; sol.
Qed.
Lemma m_loop o v : pm minus1 (loop_body r o v).
Proof.
  unfold loop_body. pg. destruct (expr_ending a); [eapply pm_wk; [apply m_loop_end|sol]|].
  eapply (pm_bind zero); [unfold prefixes; pg; eapply pm_wk; [apply m_prefix|sol]|intro]. eapply (pm_bind nul); [eapply pm_wk; [apply m_value|sol]|intros va].
  destruct va as [|t0 r0 c0 c1]; cbn [is_null]; [apply pm_ret; sol|].
  eapply (pm_bind nul); [eapply pm_wk; [apply Q; discriminate|sol]|intros vb]. destruct vb as [|t1 r1 d0 d1]; cbn [is_null]; [apply pm_ret; sol|].
  cbv zeta. pg. destruct a1 as [|op q]; [eapply pm_wk; [apply m_loop_end|sol]|]. destruct (expr_ending _); [eapply pm_wk; [apply m_loop_end|sol]|].
  destruct (_ =? -1); [bad|]. pl. destruct a1 as [[ops' vs]|]; [|bad].
  eapply (pm_bind zero); [apply pm_next; sol|intro]. eapply pm_wk; [apply Q|sol].
Qed.
Lemma m_parse : pm zero (parse_body r).
Proof.
  unfold parse_body. eapply (pm_bind (fun b : bool => if b then 1 else 0)); [apply pm_push; sol|intros []]; cbn [negb].
  - eapply pm_wk; [apply Q|sol].
  - apply pm_ret; sol.
Qed.
End Parse.

Lemma compiler_pm n : pms (compiler n).
Proof.
  induction n; cbn [compiler]; constructor; intros; try apply pm_ub.
  - apply m_parse, IHn. - apply m_loop, IHn. - apply m_post; assumption. - apply m_params, IHn.
Qed.

Lemma m_expand n : forall d, pm zero (expand n d).
Proof.
  induction n as [|t root a IHa b IHb]; intros d; cbn [expand]; [apply pm_ret; sol|].
  eapply (pm_bind (fun b : bool => if b then 1 else 0)); [apply pm_push; sol|intros []]; cbn [negb]; [|apply pm_ret; sol].
  eapply (pm_bind zero).
  - destruct (is_incdec _); [destruct (_ || _)%bool; [apply pm_ub|apply pm_ret; sol]|].
    eapply (pm_bind zero); [apply IHa|intro]. eapply (pm_bind zero); [eapply pm_wk; [apply IHb|sol]|intro]. apply pm_ret; sol.
  - intro. eapply (pm_bind minus1); [apply pm_popr; sol|intro]. apply pm_ret; sol.
Qed.
Lemma m_tree n d : pm zero (expression_tree (compiler n) d).
Proof.
  unfold expression_tree. eapply (pm_bind (fun b : bool => if b then 1 else 0)); [apply pm_push; sol|intros []]; cbn [negb]; [|apply pm_ret; sol].
  eapply (pm_bind zero); [eapply pm_wk; [apply (pm_expr _ (compiler_pm n))|sol]|intro e].
  eapply (pm_bind zero).
  - destruct e; [apply pm_ret; sol|]. eapply (pm_bind zero); [apply m_expand|intro]. apply pm_rt; [apply (plf _ errs_prims)|apply (p_lift rt rt_refl)|sol].
  - intro. pg. eapply (pm_bind minus1); [apply pm_popr; sol|intro]. apply pm_ret; sol.
Qed.

(** ** Emitting puts it back, unless something is missing *)

Fixpoint tidy (n : ast) : Prop :=
  match n with
  | ANull => True
  | ANode t _ c0 c1 => (tk_type t = TK_BRACKET_OPEN -> c0 <> ANull /\ c1 <> ANull) /\ tidy c0 /\ tidy c1
  end.

(** Runs that leave the text alone and put the count back. *)
Definition back {A} (m : K A) : Prop :=
  pres errs m /\ forall k a k', m k = Ok (a, k') -> noerr k' -> rt k k'.
Lemma back_rt {A} (m : K A) : pres errs m -> pres rt m -> back m.
Proof. intros P R. split; [exact P|]. eauto. Qed.
Lemma back_bind {A B} (m : K A) (f : A -> K B) : back m -> (forall a, back (f a)) -> back (kbind m f).
Proof.
  intros [P H] F. split; [apply (pb _ errs_prims); [exact P|intro a; apply (F a)]|].
  intros k b k' G N. kb G. destruct (F x) as [Pf Hf]. eapply rt_trans; [apply (H _ _ _ E (Pf _ _ _ G N))|eauto].
Qed.

(** [m] runs one level deeper and comes back up. *)
Definition up1 {A} (m : K A) : Prop :=
  pres errs m /\ forall k a k', m k = Ok (a, k') -> noerr k' -> k_toks k' = k_toks k /\ k_rec k' = k_rec k - 1.
Lemma up1_bind {A B} (m : K A) (f : A -> K B) : back m -> (forall a, up1 (f a)) -> up1 (kbind m f).
Proof.
  intros [P H] F. split; [apply (pb _ errs_prims); [exact P|intro a; apply (F a)]|].
  intros k b k' G N. kb G. destruct (F x) as [Pf Hf]. destruct (H _ _ _ E (Pf _ _ _ G N)) as [T R]. destruct (Hf _ _ _ G N) as [T2 R2]. split; [congruence|lia].
Qed.
Lemma up1_pop {A} (a : A) : up1 (pop_recursion ;~ kret a).
Proof.
  split; [apply (w_give_up _ errs_prims)|]. intros k b k' H N. kb H. apply pop_rec_inv in E. subst k0. injection H as _ <-. split; reflexivity.
Qed.
Lemma up1_bad {B} msg (f : unit -> K B) : (forall u, pres errs (f u)) -> up1 (kbind (cerror msg) f).
Proof.
  intro P. split; [apply (pb _ errs_prims); [apply w_cerror, errs_prims|exact P]|].
  intros k b k' H N. exfalso. kb H. eapply cerror_errs; [exact E|]. eapply P; eauto.
Qed.
Lemma back_enter {A} (a : A) m : up1 m -> back (ok <~ push_recursion ;; if negb ok then kret a else m).
Proof.
  intros [P H]. split; [apply (w_enter _ errs_prims), P|]. intros k b k' G N. kb G. destruct x; cbn [negb] in G.
  - apply push_rec_inv in E; [|reflexivity]. subst k0. destruct (H _ _ _ G N) as [T R]. ksin T. ksin R. split; [exact T|lia].
  - injection G as _ <-. unfold push_recursion in E. kb E. destruct (256 <? x); [destruct (complain _ _ _ _ _ E N)|]. kb E. discriminate.
Qed.

Ltac bk := apply back_rt; [first [apply (w_lit_func _ errs_prims) | apply (w_lit_int _ errs_prims) | apply (w_lit_float _ errs_prims) | apply (w_lit_string _ errs_prims)
  | apply (w_emit_fetch _ errs_prims) | apply (w_emit_set _ errs_prims) | apply (w_emit_fse _ errs_prims) | apply (w_add_word _ errs_prims)]|].
Lemma up1_op t root c1 : up1 (emit_op t root c1).
Proof.
  unfold emit_op. cbv zeta.
  destruct (_ =? TK_FUNCTION); [apply up1_bind; [bk; apply r_litf|intro; apply up1_pop]|].
  destruct (_ =? TK_INTEGER); [apply up1_bind; [bk; apply r_lit|intro; apply up1_pop]|].
  destruct (_ =? TK_FLOAT); [apply up1_bind; [bk; apply r_litfl|intro; apply up1_pop]|].
  destruct (_ =? TK_STRING); [apply up1_bind; [bk; apply r_lits|intro; apply up1_pop]|].
  destruct (_ =? TK_IDENTIFIER); [apply up1_bind; [bk; apply r_fetch|intro; apply up1_pop]|].
  destruct (_ =? TK_FSE).
  { destruct root; [apply up1_bind; [bk; apply r_fse|intro; apply up1_pop]|]. apply up1_bad. intro. apply (prt _ errs_prims). }
  destruct (_ || _)%bool.
  { apply up1_bind; [|intro; apply up1_pop]. apply back_rt; [|destruct root; rz]. destruct root; [|apply (prt _ errs_prims)]. ew True. }
  destruct (plain_op _ _).
  { apply up1_bind; [bk; apply r_word|intro; apply up1_pop]. }
  split; [apply (pb _ errs_prims); [apply (pr_error _ errs_prims)|intro; apply (w_give_up _ errs_prims)]|].
  intros k b k' H N. exfalso. kb H. apply kvm_inv in E. destruct E as (s & E & ->). apply add_error_errs in E.
  apply give_up_errs in H; [|exact N]. destruct H as [H _]. contradiction.
Qed.

Lemma up1_then {A} (m : K A) : back m -> up1 (pop_recursion ;~ m).
Proof.
  intros [P H]. split; [apply (pb _ errs_prims); [apply (w_pop_rec _ errs_prims)|intro; exact P]|].
  intros k a k' G N. kb G. apply pop_rec_inv in E. subst k0. destruct (H _ _ _ G N) as [T R]. ksin T. ksin R. auto.
Qed.
Lemma back_ret {A} (a : A) : back (kret a).
Proof. apply back_rt; [apply (prt _ errs_prims)|apply (p_ret rt rt_refl)]. Qed.
Lemma up1_if {A} (b : bool) (m n : K A) : up1 m -> up1 n -> up1 (if b then m else n).
Proof. destruct b; auto. Qed.
Ltac ubad := apply up1_bad; intros; first [apply (w_give_up _ errs_prims) | apply (prt _ errs_prims)].

Lemma back_emit n : n <> ANull -> tidy n -> back (emit_expression n).
Proof.
  apply (sub_all_here (fun n => n <> ANull -> tidy n -> back (emit_expression n))). apply ast_sub_ind. clear n. intros n H V T.
  destruct n as [|t root c0 c1]; [contradiction|]. destruct H as [H0 H1]. destruct T as (_ & T0 & T1).
  pose proof (sub_all_here _ _ H0) as P0. pose proof (sub_all_here _ _ H1) as P1. cbn beta in P0, P1.
  cbn [emit_expression]. apply back_enter. apply up1_if.
  - apply up1_then, back_enter. destruct c1 as [|t1 r1 c10 c11]; [cbn [is_null]; ubad|]. cbn [is_null].
    destruct c0 as [|t0 r0 c00 c01]; [ubad|].
    apply up1_bind; [apply P1; [discriminate|exact T1]|intros _]. apply up1_if.
    + apply up1_bind; [bk; apply r_set|intros _; apply up1_pop].
    + destruct (Z.eqb_spec (tk_type t0) TK_BRACKET_OPEN) as [Q|Q]; [|ubad]. destruct T0 as (Tb & T00 & T01). destruct (Tb Q) as [V0 V1].
      destruct H0 as [_ [G0 G1]]. apply sub_all_here in G0. apply sub_all_here in G1.
      apply up1_bind; [apply G0; auto|intros _]. apply up1_bind; [apply G1; auto|intros _].
      apply up1_bind; [bk; apply r_word|intros _; apply up1_pop].
  - apply up1_bind; [destruct c0; cbn [is_null]; [apply back_ret|apply P0; [discriminate|exact T0]]|intros b0].
    apply up1_if; [apply up1_pop|].
    apply up1_bind; [destruct c1; cbn [is_null]; [apply back_ret|apply P1; [discriminate|exact T1]]|intros b1].
    apply up1_if; [apply up1_pop|]. apply up1_op.
Qed.

(** ** Trees of expressions whose brackets index something *)

Fixpoint atoms (e : expr) : Prop :=
  match e with
  | EAtom t => tk_type t <> TK_BRACKET_OPEN
  | EFunc _ _ => True
  | EGroup _ e _ | EPre _ e | EIncDec e _ | EField e _ _ => atoms e
  | EIndex e _ i _ => atoms e /\ atoms i
  | ECall e _ a _ | EMethod e _ _ _ a _ => atoms e /\ args_atoms a
  | EInfix a _ b => atoms a /\ atoms b
  end
with args_atoms (a : args) : Prop :=
  match a with NoArgs => True | LastArg e => atoms e | Arg e _ r => atoms e /\ args_atoms r end.

Definition ig (t : token) : Prop := In (tk_type t) [TK_IDENTIFIER; TK_STRING; TK_BRACKET_CLOSE].
Definition adj (l : list token) : Prop := forall p a b q, l = p ++ a :: b :: q -> tk_type b = TK_BRACKET_OPEN -> ig a.
Definition hok (l : list token) : Prop := match l with t :: _ => tk_type t <> TK_BRACKET_OPEN | [] => True end.
Lemma adj_r l q : adj (l ++ q) -> adj q.
Proof. intros H p a b r -> T. apply (H (l ++ p) a b r); [rewrite app_assoc; reflexivity|exact T]. Qed.
Lemma adj_l l q : adj (l ++ q) -> adj l.
Proof. intros H p a b r -> T. apply (H p a b (r ++ q)); [rewrite <- app_assoc; reflexivity|exact T]. Qed.
Lemma adj_hd a l : adj (a :: l) -> ~ ig a -> hok l.
Proof. intros H N. destruct l as [|b q]; [exact I|]. intro T. apply N. apply (H [] a b q eq_refl T). Qed.
Lemma hok_app l q : l <> [] -> hok (l ++ q) -> hok l.
Proof. destruct l; [contradiction|auto]. Qed.
Lemma text_some e : grouped e -> text e <> [].
Proof.
  destruct e; cbn [text grouped]; try discriminate.
  - intros [_ H]. destruct ts; [contradiction|discriminate].
  - intros _ X. apply app_eq_nil in X. destruct X; discriminate.
  - intros _ X. apply app_eq_nil in X. destruct X; discriminate.
  - intros _ X. apply app_eq_nil in X. destruct X; discriminate.
  - intros _ X. apply app_eq_nil in X. destruct X; discriminate.
  - intros _ X. apply app_eq_nil in X. destruct X; discriminate.
  - intros _ X. apply app_eq_nil in X. destruct X; discriminate.
Qed.
Ltac nig := let X := fresh in intro X; unfold ig in X; cbn in X; intuition congruence.
Scheme expr_ind2 := Induction for expr Sort Prop with args_ind2 := Induction for args Sort Prop.
Combined Scheme expr_args_ind from expr_ind2, args_ind2.

Lemma not_ig t ty : tk_type t = ty -> (ty =? TK_IDENTIFIER) || (ty =? TK_STRING) || (ty =? TK_BRACKET_CLOSE) = false -> ~ ig t.
Proof.
  intros E H I. unfold ig in I. rewrite E in I. cbn [In] in I. apply Bool.orb_false_iff in H. destruct H as [H C]. apply Bool.orb_false_iff in H. destruct H as [A B].
  apply Z.eqb_neq in A, B, C. intuition congruence.
Qed.
Lemma rank_nig t n : rank (tk_type t) n -> ~ ig t.
Proof.
  intros (l & H & I). unfold ig. cbn [In]. intro X.
  assert (forall ty, In ty l -> precedence ty <> -1) as P.
  { intros ty J. do 8 (destruct n; [cbn in H; first [discriminate | injection H as <-; cbn in J; repeat (destruct J as [<-|J]; [vm_compute; discriminate|]); destruct J]|]). destruct n; discriminate. }
  specialize (P _ I). destruct X as [X|[X|[X|[]]]]; rewrite <- X in P; apply P; reflexivity.
Qed.

Lemma atoms_ok :
  (forall e, grouped e -> adj (text e) -> hok (text e) -> atoms e) /\
  (forall a, args_grouped a -> adj (args_text a) -> hok (args_text a) -> args_atoms a).
Proof.
  apply expr_args_ind; cbn [grouped args_grouped text args_text atoms args_atoms]; auto.
  - intros o e IH c (To & G & _) A Hd. change ([o] ++ text e ++ [c]) with (o :: (text e ++ [c])) in *.
    apply IH; [exact G|apply (adj_r [o]) in A; apply adj_l in A; exact A|].
    apply (hok_app _ [c] (text_some _ G)). apply (adj_hd o); [exact A|]. apply (not_ig _ _ To). reflexivity.
  - intros o e IH (To & G & _) A Hd. apply IH; [exact G|apply (adj_r [o]), A|]. apply (adj_hd o); [exact A|].
    cbn in To. destruct To as [To|[To|[To|[To|[]]]]]; apply (not_ig _ _ (eq_sym To)); reflexivity.
  - intros e IH o (G & _) A Hd. apply IH; [exact G|apply (adj_l _ _ A)|apply (hok_app _ _ (text_some _ G) Hd)].
  - intros e IH o i IHi c (G & _ & To & Gi & _) A Hd. split.
    + apply IH; [exact G|apply (adj_l _ _ A)|apply (hok_app _ _ (text_some _ G) Hd)].
    + apply adj_r in A. apply IHi; [exact Gi|apply (adj_r [o]) in A; apply adj_l in A; exact A|].
      apply (hok_app _ [c] (text_some _ Gi)). apply (adj_hd o); [exact A|]. apply (not_ig _ _ To). reflexivity.
  - intros e IH d n (G & _) A Hd. apply IH; [exact G|apply (adj_l _ _ A)|apply (hok_app _ _ (text_some _ G) Hd)].
  - intros e IH o a IHa c (G & _ & To & Ga & _) A Hd. split.
    + apply IH; [exact G|apply (adj_l _ _ A)|apply (hok_app _ _ (text_some _ G) Hd)].
    + apply adj_r in A. apply IHa; [exact Ga|apply (adj_r [o]) in A; apply adj_l in A; exact A|].
      apply adj_hd in A; [|apply (not_ig _ _ To); reflexivity]. destruct (args_text a); [exact I|exact A].
  - intros e IH d n o a IHa c (G & _ & _ & _ & To & Ga & _) A Hd. split.
    + apply IH; [exact G|apply (adj_l _ _ A)|apply (hok_app _ _ (text_some _ G) Hd)].
    + apply adj_r in A. apply (adj_r [d; n]) in A. apply IHa; [exact Ga|apply (adj_r [o]) in A; apply adj_l in A; exact A|].
      apply adj_hd in A; [|apply (not_ig _ _ To); reflexivity]. destruct (args_text a); [exact I|exact A].
  - intros a IHa o b IHb (Ga & Gb & n & Rk & _) A Hd. split.
    + apply IHa; [exact Ga|apply (adj_l _ _ A)|apply (hok_app _ _ (text_some _ Ga) Hd)].
    + apply adj_r in A. apply IHb; [exact Gb|apply (adj_r [o]), A|]. apply (adj_hd o); [exact A|apply (rank_nig _ _ Rk)].
  - intros e IH c a IHa (G & Tc & Ga) A Hd. split.
    + apply IH; [exact G|apply (adj_l _ _ A)|apply (hok_app _ _ (text_some _ G) Hd)].
    + apply adj_r in A. apply IHa; [exact Ga|apply (adj_r [c]), A|]. apply (adj_hd c); [exact A|]. apply (not_ig _ _ Tc). reflexivity.
Qed.
Lemma tree_some : (forall e, grouped e -> tree e <> ANull) /\ (forall a : args, True).
Proof.
  apply expr_args_ind; cbn [grouped tree]; auto; try discriminate.
  - intros o e IH c (_ & G & _). auto.
  - intros e IH o a IHa c _. destruct (bare e && names_fse (tree e)); discriminate.
Qed.
Ltac tb := intros; first [discriminate | congruence].
Lemma tree_tidy :
  (forall e, grouped e -> atoms e -> tidy (tree e)) /\
  (forall a, args_grouped a -> args_atoms a -> forall t, tk_type t <> TK_BRACKET_OPEN -> tidy (chain t a)).
Proof.
  apply expr_args_ind; cbn [grouped args_grouped tree chain atoms args_atoms tidy]; auto.
  - intros ts t (T & _) _. split; [intro X; rewrite T in X; discriminate X|auto].
  - intros o e IH c (_ & G & _) A. auto.
  - intros o e IH (T & G & _) A. split; [|auto]. intro X. rewrite X in T. cbn in T. intuition discriminate.
  - intros e IH o (G & _) A. split; [|auto]. destruct (_ =? TK_INCREMENT); discriminate.
  - intros e IH o i IHi c (G & _ & T & Gi & _) [A Ai]. split; [|auto]. intros _. split; apply tree_some; assumption.
  - intros e IH d n (G & _) A. split; [|split; [auto|repeat split; discriminate]]. intros _. split; [apply tree_some; assumption|discriminate].
  - intros e IH o a IHa c (G & _ & T & Ga & _) [A Aa]. assert (tk_type o <> TK_BRACKET_OPEN) as O by (rewrite T; discriminate).
    destruct (bare e && names_fse (tree e)); cbn [tidy]; (split; [|auto]); try discriminate. intro X. contradiction.
  - intros e IH d n o a IHa c (G & _ & Td & Tn & T & Ga & _) [A Aa]. split; [discriminate|]. split; [split; [discriminate|split; [auto|split; [discriminate|auto]]]|]. apply IHa; auto. discriminate.
  - intros a IHa o b IHb (Ga & Gb & n & Rk & _) [A B]. split; [|auto]. intros _. split; apply tree_some; assumption.
  - intros e IH c a IHa (G & _ & Ga) [A Aa] t N. split; [intros; contradiction|]. auto.
Qed.
Lemma expandp_null n d : expandp n d = ANull -> n = ANull.
Proof. destruct n as [|t root a b]; [auto|]. cbn [expandp]. destruct (is_incdec _); [|discriminate]. unfold expand_node. cbv zeta. destruct (_ && _)%bool; discriminate. Qed.
Lemma expandp_tidy n : forall d, tidy n -> tidy (expandp n d).
Proof.
  induction n as [|t root a IHa b IHb]; intros d T; [exact I|]. cbn [expandp]. destruct T as (Tb & Ta & Tc). destruct (is_incdec _).
  - unfold expand_node. cbv zeta. destruct (_ && _)%bool; destruct (_ || _)%bool; cbn [tidy]; repeat split; auto; discriminate.
  - cbn [tidy]. split; [|auto]. intro X. destruct (Tb X). split; intro Y; apply expandp_null in Y; contradiction.
Qed.
Lemma optimize_null n v : optimize n = Ok v -> v = ANull -> n = ANull.
Proof.
  intros H ->. destruct n as [|t root a b]; [reflexivity|]. exfalso. cbn [optimize] in H.
  destruct (optimize a) as [d0|]; [|discriminate]. destruct (optimize b) as [d1|]; [|discriminate]. cbn [bind] in H.
  destruct (negb (foldable _)); [discriminate|]. destruct (_ || _)%bool; [discriminate|]. destruct d0 as [|t0 ? ? ?]; [discriminate|].
  destruct (_ =? TK_INTEGER); match type of H with bind ?m _ = _ => destruct m as [[?|]|]; discriminate end.
Qed.
Lemma optimize_tidy n : forall v, optimize n = Ok v -> tidy n -> tidy v.
Proof.
  induction n as [|t root a IHa b IHb]; intros v H T; [injection H as <-; exact I|]. cbn [optimize] in H.
  destruct (optimize a) as [d0|] eqn:Ea; [|discriminate]. destruct (optimize b) as [d1|] eqn:Eb; [|discriminate]. cbn [bind] in H.
  destruct T as (Tb & Ta & Tc).
  assert (tidy (ANode t root d0 d1)) as X.
  { cbn [tidy]. split; [|auto]. intro Y. destruct (Tb Y) as [V0 V1]. split; intro Z; [apply (optimize_null _ _ Ea) in Z|apply (optimize_null _ _ Eb) in Z]; contradiction. }
  destruct (negb (foldable _)); [injection H as <-; exact X|]. destruct (_ || _)%bool; [injection H as <-; exact X|].
  destruct d0 as [|t0 ? ? ?]; [injection H as <-; exact X|].
  destruct (_ =? TK_INTEGER); match type of H with bind ?m _ = _ => destruct m as [[?|]|]; [..|discriminate] end; injection H as <-; try exact X;
    cbn [tidy]; repeat split; discriminate.
Qed.

(** ** Statements *)

Definition okt (k : comp) : Prop := noanon (k_toks k) /\ adj (k_toks k).
(** From [k] to [k'] the count rose by at least [lo], and at most [hi] more
    than the text read accounts for. *)
Definition bal (lo hi : Z) (k k' : comp) : Prop :=
  exists pre, k_toks k = pre ++ k_toks k' /\ lo <= k_rec k' - k_rec k <= hi + leaks pre.
Lemma leaks_app a b : leaks (a ++ b) = leaks a + leaks b.
Proof. induction a; cbn [app leaks]; [reflexivity|]. rewrite IHa. lia. Qed.
Lemma leaks_nonneg l : 0 <= leaks l.
Proof. induction l; cbn [leaks]; [lia|]. destruct (_ || _)%bool; lia. Qed.
Lemma bal_trans l1 h1 l2 h2 a b c : bal l1 h1 a b -> bal l2 h2 b c -> bal (l1 + l2) (h1 + h2) a c.
Proof. intros (p & T & R) (q & T2 & R2). exists (p ++ q). rewrite T, T2, app_assoc, leaks_app. split; [reflexivity|lia]. Qed.
Lemma bal_wk l h l' h' a b : bal l h a b -> l' <= l -> h <= h' -> bal l' h' a b.
Proof. intros (p & T & R) L H. exists p. split; [exact T|lia]. Qed.
Lemma bal_rt k k' : rt k k' -> bal 0 0 k k'.
Proof. intros [T R]. exists []. rewrite T, R. cbn. split; [reflexivity|lia]. Qed.
Lemma bal_nxt k : bal 0 0 k (nxt k).
Proof.
  unfold bal. rewrite nxt_toks, nxt_rec. destruct (k_toks k) as [|t q]; cbn [tl].
  - exists []. cbn. split; [reflexivity|lia].
  - exists [t]. pose proof (leaks_nonneg [t]). split; [reflexivity|lia].
Qed.
Lemma okt_bal l h k k' : bal l h k k' -> okt k -> okt k'.
Proof. intros (p & T & _) [A B]. rewrite T in A, B. split; [apply (noanon_app _ _ A)|apply (adj_r _ _ B)]. Qed.
Lemma okt_rt k k' : rt k k' -> okt k -> okt k'.
Proof. intros [T _] O. unfold okt. rewrite T. exact O. Qed.
Definition stt (k : comp) : Prop := hok (k_toks k).
Lemma stt_rt k k' : rt k k' -> stt k -> stt k'.
Proof. intros [T _] O. unfold stt. rewrite T. exact O. Qed.
Lemma stt_nxt k x q : okt k -> k_toks k = x :: q -> ~ ig x -> stt (nxt k).
Proof. intros [_ A] T N. unfold stt. rewrite nxt_toks, T in *. apply (adj_hd x); auto. Qed.

Lemma tree_bal n d k v k' : expression_tree (compiler n) d k = Ok (v, k') -> v <> ANull -> noerr k' -> okt k -> stt k -> bal 0 0 k k' /\ tidy v.
Proof.
  intros H V N [L A] Hd. destruct (tree_none _ _ _ _ _ H V N L) as (e & T & G & O & _). destruct (proj2 (m_tree n d) _ _ _ H N L) as [_ R]. unfold zero in R. split.
  - exists (text e). pose proof (leaks_nonneg (text e)). split; [exact T|lia].
  - apply (optimize_tidy _ _ O), expandp_tidy, tree_tidy; [exact G|]. unfold stt in Hd. rewrite T in A, Hd. apply atoms_ok; [exact G|apply (adj_l _ _ A)|apply (hok_app _ _ (text_some _ G) Hd)].
Qed.
Lemma expr_bal n d k k' : compile_expression (compiler n) d k = Ok (true, k') -> noerr k' -> okt k -> stt k -> bal 0 0 k k'.
Proof.
  intros H N O Hd. unfold compile_expression in H. kb H. destruct x; cbn [negb] in H; [|discriminate]. apply push_rec_inv in E; [|reflexivity]. subst.
  kb H. destruct x as [|t root c0 c1]. { apply give_up_inv in H. discriminate. }
  kb H. kb H. apply pop_rec_inv in E1. injection H as -> <-. subst k2. change (noerr k1) in N.
  assert (noerr k0) as N0 by exact (w_emit _ errs_prims _ _ _ _ E0 N).
  destruct (tree_bal _ _ _ _ _ E ltac:(discriminate) N0 O Hd) as [(p & T & R) Td]. ksin T. ksin R.
  destruct (proj2 (back_emit (ANode t root c0 c1) ltac:(discriminate) Td) _ _ _ E0 N) as [T2 R2]. exists p. ks. rewrite T2, R2. split; [exact T|lia].
Qed.

(** [m], when it succeeds: from a place where no bracket may follow (if [b]) to
    a place where none may follow. *)
Definition tri (b : bool) (lo hi : Z) (m : K bool) : Prop :=
  pres errs m /\ forall k k', m k = Ok (true, k') -> noerr k' -> okt k -> (b = true -> stt k) -> bal lo hi k k' /\ stt k'.
Definition nt (m : K bool) : Prop := pres errs m /\ forall k k', m k <> Ok (true, k').

Lemma t_weak lo hi m : tri false lo hi m -> tri true lo hi m.
Proof. intros [P H]. split; [exact P|]. intros k k' G N O _. apply (H _ _ G N O). discriminate. Qed.
Lemma t_le b lo hi lo' hi' m : tri b lo hi m -> lo' <= lo -> hi <= hi' -> tri b lo' hi' m.
Proof. intros [P H] L1 L2. split; [exact P|]. intros k k' G N O S. destruct (H _ _ G N O S) as [B S']. split; [eapply bal_wk; eauto|exact S']. Qed.
Lemma t_rt {A} b lo hi (m : K A) f : pres errs m -> pres rt m -> (forall a, tri b lo hi (f a)) -> tri b lo hi (kbind m f).
Proof.
  intros P R F. split; [apply (pb _ errs_prims); [exact P|intro a; apply (F a)]|].
  intros k k' G N O S. kb G. pose proof (R _ _ _ E) as Q. destruct (proj2 (F x) _ _ G N (okt_rt _ _ Q O) (fun e => stt_rt _ _ Q (S e))) as [B S'].
  split; [|exact S']. exact (bal_trans _ _ _ _ _ _ _ (bal_rt _ _ Q) B).
Qed.
Lemma t_need b t lo hi m : (t =? TK_IDENTIFIER) || (t =? TK_STRING) || (t =? TK_BRACKET_CLOSE) = false -> t <> TK_INVALID -> tri true lo hi m -> tri b lo hi (need t m).
Proof.
  intros G I [P H]. split; [apply (w_need _ errs_prims), P|]. intros k k' R N O _. apply need_inv in R; [|exact I]. destruct R as (x & q & T & Y & R).
  pose proof (bal_nxt k) as B. destruct (H _ _ R N (okt_bal _ _ _ _ B O) (fun _ => stt_nxt _ _ _ O T (not_ig _ _ Y G))) as [B2 S].
  split; [exact (bal_trans _ _ _ _ _ _ _ B B2)|exact S].
Qed.
Lemma t_need_leak b t lo hi m : t = TK_VAR \/ t = TK_RETURN -> tri true lo hi m -> tri b lo (hi - 1) (need t m).
Proof.
  intros V [P H]. split; [apply (w_need _ errs_prims), P|]. intros k k' R N O _. apply need_inv in R; [|destruct V as [-> | ->]; tyne]. destruct R as (x & q & T & Y & R).
  pose proof (bal_nxt k) as B. destruct (H _ _ R N (okt_bal _ _ _ _ B O)) as [B2 S].
  { intros _. apply (stt_nxt _ _ _ O T). apply (not_ig _ _ Y). destruct V as [-> | ->]; reflexivity. }
  split; [|exact S]. destruct B2 as (p & T2 & R2). rewrite nxt_toks, T in T2. cbn [tl] in T2. rewrite nxt_rec in R2. exists (x :: p). rewrite T, T2.
  split; [reflexivity|]. cbn [leaks]. replace ((tk_type x =? TK_VAR) || (tk_type x =? TK_RETURN))%bool with true; [lia|]. rewrite Y. destruct V as [-> | ->]; reflexivity.
Qed.
Lemma t_need_in b n t lo hi m : (t =? TK_IDENTIFIER) || (t =? TK_STRING) || (t =? TK_BRACKET_CLOSE) = false -> t <> TK_INVALID -> tri true lo hi m -> tri b lo hi (need_in n t m).
Proof.
  intros G I [P H]. split; [apply (w_need_in _ errs_prims), P|]. intros k k' R N O _. apply need_in_inv in R; [|exact I]. destruct R as (x & q & T & Y & R).
  pose proof (bal_nxt k) as B. destruct (H _ _ R N (okt_bal _ _ _ _ B O) (fun _ => stt_nxt _ _ _ O T (not_ig _ _ Y G))) as [B2 S].
  split; [exact (bal_trans _ _ _ _ _ _ _ B B2)|exact S].
Qed.
Lemma t_name b lo hi m : tri false lo hi m -> tri b lo hi (need TK_IDENTIFIER m).
Proof.
  intros [P H]. split; [apply (w_need _ errs_prims), P|]. intros k k' R N O _. apply need_inv in R; [|tyne]. destruct R as (x & q & T & Y & R).
  pose proof (bal_nxt k) as B. destruct (H _ _ R N (okt_bal _ _ _ _ B O) ltac:(discriminate)) as [B2 S].
  split; [exact (bal_trans _ _ _ _ _ _ _ B B2)|exact S].
Qed.
Lemma t_end : tri true (-1) (-1) (pop_recursion ;~ kret true).
Proof.
  split; [apply (w_give_up _ errs_prims)|]. intros k k' H N O S. kb H. apply pop_rec_inv in E. subst k0. injection H as <-. split; [|exact (S eq_refl)].
  exists []. ks. cbn. split; [reflexivity|lia].
Qed.
Lemma t_enter b lo hi m : tri b lo hi m -> tri b (1 + lo) (1 + hi) (enter false m).
Proof.
  intros [P H]. split; [apply (w_enter _ errs_prims), P|]. intros k k' G N O S. apply enter_inv in G; [|discriminate].
  destruct (H _ _ G N O S) as [(p & T & R) S']. split; [|exact S']. exists p. ksin T. ksin R. split; [exact T|lia].
Qed.
Lemma t_if b lo hi (c : bool) m1 m2 : tri b lo hi m1 -> tri b lo hi m2 -> tri b lo hi (if c then m1 else m2).
Proof. destruct c; auto. Qed.
Lemma t_nt b lo hi m : nt m -> tri b lo hi m.
Proof. intros [P H]. split; [exact P|]. intros k k' G. destruct (H _ _ G). Qed.
Lemma nt_give : nt (give_up false).
Proof. split; [apply (w_give_up _ errs_prims)|]. intros k k' H. apply give_up_inv in H. discriminate. Qed.
Lemma nt_false : nt (kret false).
Proof. split; [apply (prt _ errs_prims)|]. intros k k' H. discriminate. Qed.
Lemma nt_bind {A} (m : K A) f : pres errs m -> (forall a, nt (f a)) -> nt (kbind m f).
Proof.
  intros P F. split; [apply (pb _ errs_prims); [exact P|intro a; apply (F a)]|]. intros k k' H. kb H. apply (proj2 (F x) _ _ H).
Qed.
Lemma t_call b l1 h1 l2 h2 (m f g : K bool) : tri b l1 h1 m -> nt g -> tri true l2 h2 f ->
  tri b (l1 + l2) (h1 + h2) (x <~ m ;; if x : bool then f else g).
Proof.
  intros [P H] [Pg G] [Pf F]. split; [apply (pb _ errs_prims); [exact P|intros []; assumption]|]. intros k k' R N O S. kb R. destruct x; [|destruct (G _ _ R)].
  destruct (H _ _ E (Pf _ _ _ R N) O S) as [B S1]. destruct (F _ _ R N (okt_bal _ _ _ _ B O) (fun _ => S1)) as [B2 S2].
  split; [exact (bal_trans _ _ _ _ _ _ _ B B2)|exact S2].
Qed.
Lemma t_calln b l1 h1 l2 h2 (m f g : K bool) : tri b l1 h1 m -> nt g -> tri true l2 h2 f ->
  tri b (l1 + l2) (h1 + h2) (x <~ m ;; if negb x then g else f).
Proof.
  intros [P H] [Pg G] [Pf F]. split; [apply (pb _ errs_prims); [exact P|intros []; assumption]|]. intros k k' R N O S. kb R. destruct x; cbn [negb] in R; [|destruct (G _ _ R)].
  destruct (H _ _ E (Pf _ _ _ R N) O S) as [B S1]. destruct (F _ _ R N (okt_bal _ _ _ _ B O) (fun _ => S1)) as [B2 S2].
  split; [exact (bal_trans _ _ _ _ _ _ _ B B2)|exact S2].
Qed.
Lemma t_expect b : tri b 0 0 (expect TK_SEMICOLON).
Proof.
  split; [apply (w_expect _ errs_prims)|]. intros k k' H N O _. apply expect_true in H; [|tyne]. destruct H as (x & q & T & Y & ->).
  split; [apply bal_nxt|apply (stt_nxt _ _ _ O T)]. apply (not_ig _ _ Y). reflexivity.
Qed.
Lemma t_emit b lo hi v f g : v <> ANull -> tidy v -> nt g -> tri b lo hi f -> tri b lo hi (x <~ emit_expression v ;; if negb x then g else f).
Proof.
  intros V T [Pg G] [Pf F]. split; [apply (pb _ errs_prims); [apply (w_emit _ errs_prims)|intros []; assumption]|]. intros k k' R N O S. kb R. destruct x; cbn [negb] in R; [|destruct (G _ _ R)].
  pose proof (proj2 (back_emit v V T) _ _ _ E (Pf _ _ _ R N)) as Q. destruct (F _ _ R N (okt_rt _ _ Q O) (fun e => stt_rt _ _ Q (S e))) as [B S'].
  split; [|exact S']. exact (bal_trans _ _ _ _ _ _ _ (bal_rt _ _ Q) B).
Qed.

Section Body.
Variable n : nat.
Let r := compiler n.
Let W : walks errs r := compiler_walks errs errs_prims n.

Lemma t_expr d lo hi (f g : K bool) : nt g -> tri false lo hi f -> tri true lo hi (x <~ compile_expression r d ;; if negb x then g else f).
Proof.
  intros [Pg G] [Pf F]. split; [apply (pb _ errs_prims); [apply (w_compile_expr _ errs_prims _ W)|intros []; assumption]|]. intros k k' R N O S. kb R. destruct x; cbn [negb] in R; [|destruct (G _ _ R)].
  pose proof (expr_bal _ _ _ _ E (Pf _ _ _ R N) O (S eq_refl)) as B. destruct (F _ _ R N (okt_bal _ _ _ _ B O) ltac:(discriminate)) as [B2 S2].
  split; [exact (bal_trans _ _ _ _ _ _ _ B B2)|exact S2].
Qed.
Lemma t_tree d lo hi (f : ast -> K bool) (g : K bool) : nt g -> (forall v, pres errs (f v)) -> (forall v, v <> ANull -> tidy v -> tri false lo hi (f v)) ->
  tri true lo hi (v <~ expression_tree r d ;; if is_null v then g else f v).
Proof.
  intros [Pg G] Pf F. split; [apply (pb _ errs_prims); [apply (w_tree _ errs_prims _ W)|intros v; destruct (is_null v); auto]|].
  intros k k' R N O S. kb R. destruct (is_null x) eqn:Z; [destruct (G _ _ R)|]. assert (x <> ANull) as V by (intros ->; discriminate).
  destruct (tree_bal _ _ _ _ _ E V (Pf _ _ _ _ R N) O (S eq_refl)) as [B T]. destruct (proj2 (F x V T) _ _ R N (okt_bal _ _ _ _ B O) ltac:(discriminate)) as [B2 S2].
  split; [exact (bal_trans _ _ _ _ _ _ _ B B2)|exact S2].
Qed.

Hypothesis HS : tri true 0 0 (r_stmt r).

Ltac rr := match goal with
  | |- pres rt push_context => exact r_push
  | |- pres rt pop_context => exact r_pop
  | |- pres rt (emit_jz _) => apply r_jz
  | |- pres rt (emit_jump _) => apply r_jump
  | |- pres rt (modify_jump _ _) => apply r_mod
  | |- pres rt open_loop => exact r_open
  | |- pres rt close_loop => exact r_close
  | |- pres rt (add_variable _ _ _) => apply r_addv
  | |- pres rt emit_return => exact r_ret
  | |- pres rt (add_owned _) => apply r_owned
  | |- pres rt no_pop => exact r_nopop
  | _ => rz end.
Ltac nev := match goal with
  | |- nt (give_up false) => apply nt_give
  | |- nt (kret false) => apply nt_false
  | |- nt (kbind _ _) => apply nt_bind; [ew W|intros ?; nev] end.
Ltac tr := cbv beta; lazymatch goal with
  | |- tri _ (-1) (-1) (kbind pop_recursion (fun _ => kret true)) => first [apply t_end | apply t_weak, t_end]
  | |- tri _ _ _ (kbind (r_stmt r) _) => apply (t_calln _ 0 0 (-1) (-1)); [first [exact HS | apply t_weak, HS] | nev | ]
  | |- tri _ _ _ (need TK_IDENTIFIER _) => apply t_name
  | |- tri _ _ _ (need _ _) => apply t_need; [reflexivity|tyne|]
  | |- tri _ _ _ (need_in _ _ _) => apply t_need_in; [reflexivity|tyne|]
  | |- tri _ _ _ (kbind (compile_expression r _) _) => apply t_expr; [nev|]
  | |- tri _ _ _ (kbind (expression_tree r _) _) => fail
  | |- tri _ _ _ (kbind (emit_expression _) _) => fail
  | |- tri _ _ _ (kbind (kgets _) _) => apply t_rt; [ew W|rz|intros ?]
  | |- tri _ _ _ (if _ then _ else _) => apply t_if
  | |- tri _ _ _ (kbind (cerror _) _) => apply t_nt; nev
  | |- tri _ _ _ (kbind _ _) => apply t_rt; [ew W|rr|intros ?]
  end.

Lemma b_var : tri true 0 (-1) (var_declaration r).
Proof.
  unfold var_declaration. cbv zeta. apply (t_le _ (1 + -1) (1 + (-1 - 1))); [|lia|lia]. apply t_enter, (t_need_leak _ TK_VAR (-1) (-1)); [auto|]. repeat tr.
Qed.
Lemma b_return : tri true 0 (-1) (return_statement r).
Proof.
  unfold return_statement. apply (t_le _ (1 + -1) (1 + (-1 - 1))); [|lia|lia]. apply t_enter, (t_need_leak _ TK_RETURN (-1) (-1)); [auto|]. repeat tr.
Qed.
Lemma b_if : tri true 0 0 (if_statement r).
Proof. unfold if_statement. apply (t_enter _ (-1) (-1)). repeat tr. Qed.
Lemma b_while : tri true 0 0 (while_statement r).
Proof. unfold while_statement. tr. apply (t_enter _ (-1) (-1)). repeat tr. Qed.
Lemma b_break : tri true 0 0 break_statement.
Proof.
  unfold break_statement, add_op. apply t_rt; [ew W|rz|intros ?]. apply (t_enter _ (-1) (-1)). repeat tr. destruct (find_loop _) as [[[i0 x0] [|o0 o1]]|]; repeat tr.
  destruct (find_loop _) as [[[i1 x1] o2]|]; [|apply t_nt; split; [ew W|intros; discriminate]]. repeat tr.
Qed.
Lemma t_pop_end b : tri b (-1) (-1) (pop_recursion ;~ expect TK_SEMICOLON).
Proof.
  split; [apply (pb _ errs_prims); [apply (w_pop_rec _ errs_prims)|intro; apply (w_expect _ errs_prims)]|]. intros k k' H N O S. kb H. apply pop_rec_inv in E. subst k0.
  destruct (proj2 (t_expect false) _ _ H N O ltac:(discriminate)) as [(p & T & R) S']. split; [|exact S']. exists p. ksin T. ksin R. split; [exact T|lia].
Qed.
Lemma b_do : tri true 0 0 (do_statement r).
Proof. unfold do_statement, add_op. tr. apply (t_enter _ (-1) (-1)). repeat first [apply t_pop_end | tr]. Qed.
Lemma b_for : tri true 0 0 (for_statement r).
Proof.
  unfold for_statement, add_op. apply (t_enter _ (-1) (-1)). repeat tr. apply t_tree; [nev|intro; ew W|intros v V T]. repeat first [apply t_emit; [exact V|exact T|nev|] | tr].
Qed.

Definition args_bal (c : calls) : Prop := forall n0 k p k', r_args c n0 k = Ok (p, k') -> bal 0 0 k k'.
Hypothesis HA : args_bal r.

Lemma bal_step l h (m : K unit) k u k' q : m k = Ok (u, k') -> pres rt m -> bal l h k' q -> bal l h k q.
Proof. intros E P B. exact (bal_trans _ _ _ _ _ _ _ (bal_rt _ _ (P _ _ _ E)) B). Qed.

Lemma b_args n0 k p k' : args_body r n0 k = Ok (p, k') -> bal 0 0 k k'.
Proof.
  unfold args_body. intros H. cbv zeta in H.
  assert (forall m j p' j', (ty <~ kgets cur_type ;; if ty =? TK_PAREN_CLOSE then kret (m, true) else if ty =? TK_COMMA then next_tok ;~ r_args r m else cerror (bs "Expected ')' or ','.") ;~ r_args r m) j = Ok (p', j') -> bal 0 0 j j') as F.
  { clear - HA. intros m j p' j' H. kb H. injection E as <- <-. destruct (_ =? _); [injection H as <- <-; apply bal_rt; split; reflexivity|]. destruct (_ =? _).
    - kb H. rewrite next_tok_run in E. injection E as _ <-. exact (bal_trans _ _ _ _ _ _ _ (bal_nxt _) (HA _ _ _ _ H)).
    - kb H. refine (bal_step _ _ _ _ _ _ _ E _ (HA _ _ _ _ H)). unfold cerror. rz. }
  kb H. injection E as <- <-. destruct (_ =? _); [injection H as <- <-; apply bal_rt; split; reflexivity|]. destruct (_ =? _).
  - kb H. injection E as <- <-. kb H. pose proof (bal_rt _ _ (r_addv _ _ _ _ _ _ E)) as B. kb H. pose proof (bal_rt _ _ (r_move _ _ _ _ E0)) as B0. kb H.
    assert (bal 0 0 k1 k2) as B1 by (destruct x; [exact (bal_rt _ _ (r_nopop _ _ _ E1))|injection E1 as _ <-; apply bal_rt; split; reflexivity]). kb H. rewrite next_tok_run in E2. injection E2 as _ <-.
    exact (bal_trans _ _ _ _ _ _ _ B (bal_trans _ _ _ _ _ _ _ B0 (bal_trans _ _ _ _ _ _ _ B1 (bal_trans _ _ _ _ _ _ _ (bal_nxt _) (F _ _ _ _ H))))).
  - destruct (negb _); [|exact (F _ _ _ _ H)]. kb H. injection H as <- <-. apply bal_rt. revert E. refine ((_ : pres rt _) _ _ _). unfold cerror. rz.
Qed.

Lemma bal0_trans a b c : bal 0 0 a b -> bal 0 0 b c -> bal 0 0 a c.
Proof. exact (bal_trans 0 0 0 0 a b c). Qed.

Ltac adv H B := let x := fresh "x" in let k := fresh "j" in let E := fresh "E" in let B' := fresh "B" in let P := fresh "P" in
  apply kbind_inv in H; destruct H as (x & k & E & H);
  match type of E with ?m ?k0 = _ => assert (pres rt m) as P by rr end;
  pose proof (bal0_trans _ _ _ B (bal_rt _ _ (P _ _ _ E))) as B'; clear B; rename B' into B;
  try match goal with S : stt ?k0 |- _ => match type of E with _ k0 = _ => apply (stt_rt _ _ (P _ _ _ E)) in S end end; clear P;
  match type of E with kgets _ _ = _ => injection E as E E; rewrite <- ?E in H; subst k; try subst x | _ => idtac end; try clear E; cbv beta in H.

Lemma b_rest id k i k' : function_rest r id k = Ok (Some i, k') -> noerr k' -> okt k -> bal (-1) (-1) k k' /\ stt k'.
Proof.
  unfold function_rest. intros H N O. cbv zeta in H. unfold add_op in H. assert (bal 0 0 k k) as B by (apply bal_rt; split; reflexivity).
  do 4 adv H B. destruct (rev _) as [|g gs]; [discriminate|]. adv H B.
  kb H. rename E into E3. match type of E3 with _ = Ok (_, ?j) => rename j into k3 end.
  assert (noerr k3) as N3 by (revert N; refine ((_ : pres errs _) _ _ _ H); ew W). apply skip_inv in E3; [|exact N3|tyne]. destruct E3 as (t3 & q3 & T3 & Y3 & ->).
  pose proof (bal0_trans _ _ _ B (bal_nxt _)) as B3. clear B. rename B3 into B.
  do 2 adv H B.
  kb H. pose proof (bal0_trans _ _ _ B (HA _ _ _ _ E)) as B5. clear B E. rename B5 into B. match type of H with (let '(_, _) := ?z in _) _ = _ => destruct z as [argc ok] end.
  do 8 adv H B.
  kb H. match type of E with _ = Ok (_, ?j) => rename j into kc end. rename E into E8. assert (noerr kc) as N8 by (revert N; refine ((_ : pres errs _) _ _ _ H); ew W).
  apply skip_inv in E8; [|exact N8|tyne]. destruct E8 as (t8 & q8 & T8 & Y8 & ->).
  pose proof (stt_nxt _ _ _ (okt_bal _ _ _ _ B O) T8 (not_ig _ _ Y8 eq_refl)) as S8. pose proof (bal0_trans _ _ _ B (bal_nxt _)) as B8. clear B.
  kb H. match type of E with _ = Ok (?a, ?j) => rename j into k9, a into b9 end. rename E into E9. assert (noerr k9) as N9 by (revert N; refine ((_ : pres errs _) _ _ _ H); ew W).
  assert (b9 = true) as ->.
  { clear -H. do 11 kb H. injection H as H _. destruct ok, b9; cbn in H; congruence. }
  destruct (proj2 HS _ _ E9 N9 (okt_bal _ _ _ _ B8 O) (fun _ => S8)) as [B9 S9]. pose proof (bal0_trans _ _ _ B8 B9) as B. clear B8 B9 S8.
  do 10 adv H B. kb H. apply pop_rec_inv in E. injection H as _ <-. subst. split.
  - destruct B as (p & T & R). exists p. ks. split; [exact T|lia].
  - exact S9.
Qed.

Definition func_bal (c : calls) : Prop := forall k i k', r_func c false k = Ok (Some i, k') -> noerr k' -> okt k -> bal 0 0 k k' /\ stt k'.
Lemma b_func k i k' : function_body r false k = Ok (Some i, k') -> noerr k' -> okt k -> bal 0 0 k k' /\ stt k'.
Proof.
  unfold function_body. intros H N O. apply enter_inv in H; [|discriminate]. set (k0 := set_k_rec _ _) in H. assert (bal 1 1 k k0) as B0 by (exists []; split; [reflexivity|subst k0; ks; cbn; lia]).
  assert (bal 0 0 k0 k0) as B by (apply bal_rt; split; reflexivity). pose proof (okt_bal _ _ _ _ B0 O) as O0. clearbody k0. adv H B.
  kb H. destruct x0; cbn [negb] in H; [|apply give_up_inv in H; discriminate]. apply expect_true in E; [|tyne]. destruct E as (y & q & T & Y & ->).
  pose proof (bal0_trans _ _ _ B (bal_nxt _)) as B1. clear B. rename B1 into B. adv H B. destruct (_ =? _); [|kb H; apply give_up_inv in H; discriminate].
  adv H B. kb H. rewrite next_tok_run in E. injection E as _ <-. pose proof (bal0_trans _ _ _ B (bal_nxt _)) as B1. clear B. rename B1 into B. do 2 adv H B.
  destruct (b_rest _ _ _ _ H N (okt_bal _ _ _ _ B O0)) as [B2 S]. split; [|exact S]. exact (bal_trans 1 1 (-1) (-1) _ _ _ B0 (bal_trans 0 0 (-1) (-1) _ _ _ B B2)).
Qed.

Hypothesis HB : forall b, tri true (-1) (-1) (r_block r b).
Hypothesis HF : func_bal r.

Lemma b_loop b : tri true (-1) (-1) (block_loop r b).
Proof.
  unfold block_loop. apply t_rt; [ew W|rz|intros ty]. apply t_if.
  - apply (t_call _ 0 0 (-1) (-1)); [exact HS| |apply HB]. destruct b; nev.
  - apply t_if; [apply t_nt; nev|]. apply t_if; repeat tr.
Qed.
Lemma b_block b : tri true 0 0 (block r b).
Proof. unfold block. apply (t_enter _ (-1) (-1)). destruct b; [apply HB|]. repeat tr. apply HB. Qed.

Lemma b_stmt : tri true 0 0 (statement_body r).
Proof.
  unfold statement_body, add_op. cbv zeta. apply t_rt; [ew W|rz|intros st]. apply (t_enter _ (-1) (-1)).
  assert (tri true (-1) (-1) (l <~ kgets k_ctx ;; if negb (zlen l =? zlen st) then kub UbAssert else pop_recursion ;~ kret true)) as F.
  { tr. tr; [apply t_nt; split; [ew W|intros; discriminate]|tr]. }
  apply t_rt; [ew W|rz|intros ts]. destruct ts as [|t rest]; [tr|]. apply t_if; [tr|].
  apply t_if; [apply (t_le _ 0 (-1)); [exact b_var|lia|lia]|]. apply t_if; [apply (t_le _ 0 (-1)); [exact b_return|lia|lia]|].
  apply t_if; [apply (t_call _ 0 0 (-1) (-1)); [apply b_block|nev|exact F]|].
  apply t_if; [apply (t_call _ 0 0 (-1) (-1)); [apply b_if|nev|exact F]|].
  apply t_if; [apply (t_call _ 0 0 (-1) (-1)); [apply b_while|nev|exact F]|].
  apply t_if; [apply (t_call _ 0 0 (-1) (-1)); [apply b_do|nev|exact F]|].
  apply t_if; [apply (t_call _ 0 0 (-1) (-1)); [apply b_for|nev|exact F]|].
  apply t_if; [apply (t_call _ 0 0 (-1) (-1)); [apply b_break|nev|exact F]|].
  apply t_if.
  - apply (t_call _ 0 0 (-1) (-1)); [|nev|exact F]. split; [ew W|]. intros k k' H N O _. kb H. injection H as H <-. destruct x; [|discriminate]. exact (HF _ _ _ E N O).
  - tr. tr. tr. apply (t_call _ 0 0 (-1) (-1)); [apply t_expect|nev|exact F].
Qed.
End Body.

Lemma compiler_bal n : tri true 0 0 (r_stmt (compiler n)) /\ args_bal (compiler n) /\ (forall b, tri true (-1) (-1) (r_block (compiler n) b)) /\ func_bal (compiler n).
Proof.
  induction n as [|n (A & B & C & D)].
  - cbn. repeat split; try (intros ? ? ? H; discriminate H); try (intros; discriminate).
  - cbn [compiler bodies r_stmt r_args r_block r_func]. split; [|split; [|split]].
    + apply b_stmt; assumption.
    + intros n0 k p k' H. exact (b_args n B _ _ _ _ H).
    + intros b. apply b_loop; assumption.
    + intros k i k' H. exact (b_func n A B _ _ _ H).
Qed.
End WithLits.
