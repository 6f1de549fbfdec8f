(** * LeaveScope: every script, accepted or not, closes the scopes it opened *)

From Verif Require Import Base BaseFacts State MonadFacts TokenModel TokenProofs TokenProperties CsModel ExprModel CompModel RegModel KFacts ParseProofs EmitProofs LeaveSpec LeaveProofs.
From Coq Require Import ZArith List Lia Bool.
Import ListNotations.
Open Scope Z_scope.

(** Same scope: only its variables and its depth may differ, and in a loop the
    waiting breaks. *)
Definition sim (c c' : cctx) : Prop := cc_loop c' = cc_loop c /\ cc_fn c' = cc_fn c /\ (cc_loop c = false -> cc_fix c' = cc_fix c).
Definition S (k k' : comp) : Prop := Forall2 sim (k_ctx k) (k_ctx k').
Lemma sim_refl c : sim c c. Proof. repeat split. Qed.
Lemma sims_refl l : Forall2 sim l l. Proof. induction l; constructor; [apply sim_refl|assumption]. Qed.
Lemma sim_trans a b c : sim a b -> sim b c -> sim a c.
Proof. intros (A1 & A2 & A3) (B1 & B2 & B3). split; [congruence|]. split; [congruence|]. intro L. rewrite B3, A3; congruence. Qed.
Lemma sims_trans : forall a b c, Forall2 sim a b -> Forall2 sim b c -> Forall2 sim a c.
Proof. induction a; intros b c A B; inversion A; subst; inversion B; subst; constructor; [eapply sim_trans; eauto|eauto]. Qed.
Lemma S_refl k : S k k. Proof. apply sims_refl. Qed.
Lemma S_trans a b c : S a b -> S b c -> S a c. Proof. apply sims_trans. Qed.
Lemma S_like k k' : k_ctx k' = k_ctx k -> S k k'. Proof. unfold S. intros ->. apply sims_refl. Qed.

Lemma pb {A B} (x : K A) (f : A -> K B) : pres S x -> (forall a, pres S (f a)) -> pres S (kbind x f).
Proof. apply p_bind. apply S_trans. Qed.
Lemma prt {A} (a : A) : pres S (kret a). Proof. apply p_ret, S_refl. Qed.
Lemma pgt {A} (f : comp -> A) : pres S (kgets f). Proof. apply p_gets, S_refl. Qed.
Lemma plf {A} (r : res A) : pres S (klift r). Proof. apply p_lift, S_refl. Qed.
Lemma pif {A} (b : bool) (x y : K A) : pres S x -> pres S y -> pres S (if b then x else y). Proof. destruct b; auto. Qed.
Lemma pvm {A} (x : M A) : pres S (kvm x).
Proof. intros k a k' H. apply kvm_inv in H. destruct H as (s & _ & ->). apply S_like. reflexivity. Qed.
Lemma q_next : pres S next_tok.
Proof.
  intros k a k' H. rewrite next_tok_run in H. injection H as _ <-. apply S_like. unfold nxt.
  destruct (k_toks k) as [|t0 [|t r]]; [reflexivity|reflexivity|]. cbv zeta. destruct (negb _ || negb _)%bool; reflexivity.
Qed.
Lemma w_mod_cc f : (forall c, sim c (f c)) -> pres S (mod_cc f).
Proof. intros F k a k' H. apply mod_cc_inv in H. destruct H as (c & r & E & ->). unfold S. ks. rewrite E. constructor; [apply F|apply sims_refl]. Qed.

Ltac pstep :=
  match goal with
  | H : pres S ?x |- pres S ?x => exact H
  | |- pres S (kbind _ _) => apply pb; [ | intros ?]
  | |- pres S (kret _) => apply prt
  | |- pres S (kgets _) => apply pgt
  | |- pres S (klift _) => apply plf
  | |- pres S (kub _) => apply p_ub
  | |- pres S (kvm _) => apply pvm
  | |- pres S next_tok => apply q_next
  | |- pres S (kmod (set_k_rec _)) => apply p_mod; intros ?; apply S_like; reflexivity
  | |- pres S (kmod (set_k_nstat _)) => apply p_mod; intros ?; apply S_like; reflexivity
  | |- pres S (kmod (set_k_w _)) => apply p_mod; intros ?; apply S_like; reflexivity
  | |- pres S (if ?b then _ else _) => apply pif
  | |- pres S (match ?x with _ => _ end) => destruct x
  end.
Ltac pw := repeat pstep.
Ltac mcc := apply w_mod_cc; intros ?; split; [reflexivity|split; [reflexivity|intros _; reflexivity]].

Lemma w_cerror x : pres S (cerror x). Proof. unfold cerror. pw. Qed.
Lemma w_expect t : pres S (expect t). Proof. unfold expect. pw; apply w_cerror. Qed.
Lemma w_push_rec : pres S push_recursion. Proof. unfold push_recursion. pw; apply w_cerror. Qed.
Lemma w_pop_rec : pres S pop_recursion. Proof. unfold pop_recursion. pw. Qed.
Lemma w_give_up {A} (a : A) : pres S (give_up a). Proof. unfold give_up. pw. apply w_pop_rec. Qed.
Lemma w_cur_cc : pres S cur_cc. Proof. unfold cur_cc. pw. Qed.
Lemma w_no_pop : pres S no_pop. Proof. unfold no_pop. mcc. Qed.
Lemma w_move_off d : pres S (move_off d). Proof. unfold move_off. mcc. Qed.
Lemma w_grow : pres S grow_code. Proof. unfold grow_code. pw. apply w_cerror. Qed.
Lemma w_add_word w b : pres S (add_word w b). Proof. unfold add_word. pw; first [apply w_grow|apply w_move_off]. Qed.
Lemma w_lit_int v b : pres S (push_lit_int v b). Proof. unfold push_lit_int. pw; apply w_add_word. Qed.
Lemma w_lit_func v b : pres S (push_lit_func v b). Proof. unfold push_lit_func. pw; apply w_add_word. Qed.
Lemma w_lit_float v b : pres S (push_lit_float v b). Proof. unfold push_lit_float. pw; apply w_add_word. Qed.
Lemma w_lit_string v b : pres S (push_lit_string v b). Proof. unfold push_lit_string. pw; apply w_add_word. Qed.
Lemma w_alloc_static : pres S allocate_static. Proof. unfold allocate_static. pw; apply w_cerror. Qed.
Lemma w_add_var x u i : pres S (add_variable x u i).
Proof. unfold add_variable. pw; first [apply w_cur_cc | apply w_cerror | apply w_lit_int | apply w_alloc_static | apply w_add_word | mcc]. Qed.
Lemma w_lookup x : pres S (lookup_variable x). Proof. unfold lookup_variable. pw; apply w_cerror. Qed.
Lemma w_emit_jump t : pres S (emit_jump t). Proof. unfold emit_jump. pw; first [apply w_lit_int | apply w_add_word]. Qed.
Lemma w_emit_jz t : pres S (emit_jz t). Proof. unfold emit_jz. pw; first [apply w_lit_int | apply w_add_word]. Qed.
Lemma w_modify_jump a t : pres S (modify_jump a t). Proof. unfold modify_jump. pw. Qed.

(** Scopes on top: from [i] to [j] of them, the others stay. *)
Definition D (i j : nat) (k k' : comp) : Prop := forall a r, k_ctx k = a ++ r -> length a = i ->
  exists a' r', k_ctx k' = a' ++ r' /\ length a' = j /\ Forall2 sim r r'.
Lemma D_S i k k' : S k k' -> D i i k k'.
Proof.
  intros H a r E L. unfold S in H. rewrite E in H. apply Forall2_app_inv_l in H. destruct H as (a' & r' & A & B & ->). exists a', r'. split; [reflexivity|]. split; [|exact B].
  rewrite <- L. clear - A. induction A; cbn; congruence.
Qed.
Lemma S_D k k' : D 0 0 k k' -> S k k'.
Proof. intro H. destruct (H [] _ eq_refl eq_refl) as (a & r & E & L & F). destruct a; [|discriminate]. unfold S. rewrite E. exact F. Qed.
Lemma D_bind i j l {A B} (x : K A) (f : A -> K B) : pres (D i j) x -> (forall a, pres (D j l) (f a)) -> pres (D i l) (kbind x f).
Proof.
  intros X F k b k' H a r E L. apply kbind_inv in H. destruct H as (v & k1 & E1 & H). destruct (X _ _ _ E1 a r E L) as (a1 & r1 & C1 & L1 & F1).
  destruct (F _ _ _ _ H a1 r1 C1 L1) as (a2 & r2 & C2 & L2 & F2). exists a2, r2. split; [exact C2|]. split; [exact L2|]. eapply sims_trans; eauto.
Qed.
Lemma b_S i l {A B} (x : K A) (f : A -> K B) : pres S x -> (forall a, pres (D i l) (f a)) -> pres (D i l) (kbind x f).
Proof. intros X. apply D_bind. intros k a k' H. apply D_S. eapply X; eauto. Qed.
Lemma p_S i {A} (x : K A) : pres S x -> pres (D i i) x.
Proof. intros X k a k' H. apply D_S. eapply X; eauto. Qed.
Lemma p_D {A} (x : K A) : pres (D 0 0) x -> pres S x.
Proof. intros X k a k' H. apply S_D. eapply X; eauto. Qed.
Lemma d_push i : pres (D i (Datatypes.S i)) push_context.
Proof.
  unfold push_context. intros k a k' H. kb H. injection E as <- <-. injection H as _ <-. intros b r E L. ks. rewrite E. eexists (_ :: b), r. split; [reflexivity|]. split; [cbn; lia|apply sims_refl].
Qed.
Lemma d_pop i : pres (D (Datatypes.S i) i) pop_context.
Proof.
  unfold pop_context. intros k a k' H. kb H. injection E as <- <-. intros b r E L. destruct b as [|c b]; [discriminate|]. rewrite E in H. cbn [app] in H. kb H. injection E0 as _ <-.
  assert (pres S (if pop_count (cc_vars c) =? 0 then kret tt else push_lit_int (pop_count (cc_vars c)) false ;~ add_op OP_POPN false)) as P by (pw; [apply w_lit_int|apply w_add_word]).
  apply P in H. apply (D_S i) in H. apply (H b r); [reflexivity|]. cbn in L. lia.
Qed.
Lemma d_pops n : pres (D n 0) (pop_contexts n).
Proof. induction n; cbn [pop_contexts]; [apply p_S, prt|]. eapply D_bind; [apply d_pop|intros _; exact IHn]. Qed.
Lemma d_top i f : pres (D (Datatypes.S i) (Datatypes.S i)) (mod_cc f).
Proof.
  intros k a k' H. apply mod_cc_inv in H. destruct H as (c & r & E & ->). intros b q E2 L. destruct b as [|c0 b]; [discriminate|]. rewrite E2 in E. injection E as <- <-. ks.
  exists (f c0 :: b), q. split; [reflexivity|]. split; [exact L|apply sims_refl].
Qed.

Ltac pstep2 :=
  match goal with
  | |- pres S (cerror _) => apply w_cerror
  | |- pres S (expect _) => apply w_expect
  | |- pres S push_recursion => apply w_push_rec
  | |- pres S pop_recursion => apply w_pop_rec
  | |- pres S (give_up _) => apply w_give_up
  | |- pres S cur_cc => apply w_cur_cc
  | |- pres S (add_word _ _) => apply w_add_word
  | |- pres S (add_op _ _) => apply w_add_word
  | |- pres S (push_nil_op _) => apply w_add_word
  | |- pres S (push_lit_int _ _) => apply w_lit_int
  | |- pres S (push_lit_func _ _) => apply w_lit_func
  | |- pres S (push_lit_float _ _) => apply w_lit_float
  | |- pres S (push_lit_string _ _) => apply w_lit_string
  | |- pres S allocate_static => apply w_alloc_static
  | |- pres S (add_variable _ _ _) => apply w_add_var
  | |- pres S no_pop => apply w_no_pop
  | |- pres S (move_off _) => apply w_move_off
  | |- pres S (lookup_variable _) => apply w_lookup
  | |- pres S (emit_jump _) => apply w_emit_jump
  | |- pres S (emit_jz _) => apply w_emit_jz
  | |- pres S (modify_jump _ _) => apply w_modify_jump
  end.
Ltac pz := repeat first [pstep | pstep2].

Lemma w_emit_fetch x : pres S (emit_fetch x). Proof. unfold emit_fetch, add_op. pz. Qed.
Lemma w_emit_set x : pres S (emit_set x). Proof. unfold emit_set, add_op. pz. Qed.
Lemma w_emit_fse x a : pres S (emit_fse x a). Proof. unfold emit_fse, add_op, push_nil_op, add_op. pz. Qed.
Lemma w_emit_op t r c : pres S (emit_op t r c).
Proof. unfold emit_op, add_op. pw; first [apply w_emit_fetch | apply w_emit_fse | pz]. Qed.
Lemma w_emit x : pres S (emit_expression x).
Proof.
  apply (sub_all_here (fun x => pres S (emit_expression x))). apply ast_sub_ind. clear x. intros x H.
  destruct x as [ | t r c0 c1]; cbn [emit_expression].
  - pz.
  - destruct H as [H0 H1]. pose proof (sub_all_here _ _ H0) as P0. pose proof (sub_all_here _ _ H1) as P1.
    apply pb; [pz | intros ok]. destruct ok; cbn [negb]; [ | pz].
    apply pif.
    + apply pb; [pz | intros _]. apply pb; [pz | intros ok]. destruct ok; cbn [negb]; [ | pz].
      apply pif; [pz | ]. destruct c0 as [ | t0 r0 c00 c01]; [pz | ].
      destruct H0 as [_ [G0 G1]]. apply sub_all_here in G0. apply sub_all_here in G1.
      apply pb; [exact P1 | intros _].
      apply pif; [pw; first [apply w_emit_set | pz] | ].
      apply pif; [ | pz].
      apply pb; [exact G0 | intros _]. apply pb; [exact G1 | intros _]. unfold add_op. pz.
    + apply pb; [pw; exact P0 | intros b0]. apply pif; [pz | ].
      apply pb; [pw; exact P1 | intros b1]. apply pif; [pz | ]. apply w_emit_op.
Qed.
Lemma w_expand x : forall d, pres S (expand x d).
Proof.
  induction x as [ | t r a IHa b IHb]; intros d; cbn [expand]; [pz | ].
  apply pb; [pz | intros ok]. apply pif; [pz | ].
  apply pb; [ | intros x; pz]. apply pif; [pz | ].
  apply pb; [apply IHa | intros x]. apply pb; [apply IHb | intros y]. pz.
Qed.


(** ** The recursive calls *)

Record walks (r : calls) : Prop := {
  wk_expr : pres S (r_expr r);
  wk_loop : forall o v, pres S (r_loop r o v);
  wk_postfix : forall p v, pres S (r_postfix r p v);
  wk_params : pres S (r_params r);
  wk_stmt : pres S (r_stmt r);
  (* a block inside braces has its own scope *)
  wk_block : pres S (r_block r true);
  wk_braces : pres (D 1 0) (r_block r false);
  wk_func : forall b, pres S (r_func r b);
  wk_args : forall j, pres S (r_args r j)
}.

Section Calls.
Variable r : calls.
Hypothesis W : walks r.

Ltac pstep3 :=
  match goal with
  | |- pres S (r_expr _) => apply (wk_expr r W)
  | |- pres S (r_loop _ _ _) => apply (wk_loop r W)
  | |- pres S (r_postfix _ _ _) => apply (wk_postfix r W)
  | |- pres S (r_params _) => apply (wk_params r W)
  | |- pres S (r_stmt _) => apply (wk_stmt r W)
  | |- pres S (r_block _ true) => apply (wk_block r W)
  | |- pres S (r_func _ _) => apply (wk_func r W)
  | |- pres S (r_args _ _) => apply (wk_args r W)
  | |- pres S (emit_expression _) => apply w_emit
  | |- pres S (expand _ _) => apply w_expand
  end.
Ltac pq := repeat first [pstep | pstep2 | pstep3].

Lemma w_params : pres S (params_body r). Proof. unfold params_body. pq. Qed.
Lemma w_parse_call : pres S (parse_call r). Proof. unfold parse_call. pq. Qed.
Lemma w_postfix p v : pres S (postfix_body r p v). Proof. unfold postfix_body, postfix_end. pq; apply w_parse_call. Qed.
Lemma w_prefix_loop j : pres S (prefix_loop j). Proof. induction j; cbn [prefix_loop]; pq. Qed.
Lemma w_value : pres S (parse_value r). Proof. unfold parse_value. pq. Qed.
Lemma w_loop_end o v : pres S (loop_end o v). Proof. unfold loop_end. pq. Qed.
Lemma w_loop o v : pres S (loop_body r o v).
Proof. unfold loop_body, prefixes. pq; first [apply w_loop_end | apply w_prefix_loop | apply w_value]. Qed.
Lemma w_parse : pres S (parse_body r). Proof. unfold parse_body. pq. Qed.
Lemma w_tree d : pres S (expression_tree r d). Proof. unfold expression_tree. pq. Qed.
Lemma w_compile_expr d : pres S (compile_expression r d). Proof. unfold compile_expression. pq. apply w_tree. Qed.
Lemma w_need t (x : K bool) : pres S x -> pres S (need t x). Proof. intros. unfold need. pq. Qed.
Lemma w_enter {A} (a : A) (x : K A) : pres S x -> pres S (enter a x). Proof. intros. unfold enter. pq. Qed.


Lemma d_need t (x : K bool) : pres (D 0 0) x -> pres (D 0 0) (need t x).
Proof. intros X. apply p_S. apply w_need. apply p_D. exact X. Qed.
Lemma d_need_in j t (x : K bool) : pres (D j 0) x -> pres (D j 0) (need_in j t x).
Proof. intros X. unfold need_in. apply b_S; [pq|intros ok]. destruct ok; [exact X|]. eapply D_bind; [apply d_pops|intros _]. apply p_S. pq. Qed.
Lemma d_enter {A} (a : A) (x : K A) : pres (D 0 0) x -> pres (D 0 0) (enter a x).
Proof. intros X. apply p_S. apply w_enter. apply p_D. exact X. Qed.

Ltac pstep4 :=
  match goal with
  | |- pres S (enter _ _) => apply w_enter
  | |- pres S (need _ _) => apply w_need
  | |- pres S (compile_expression _ _) => apply w_compile_expr
  | |- pres S (expression_tree _ _) => apply w_tree
  end.
Ltac pe := repeat first [pstep | pstep2 | pstep3 | pstep4].
Lemma w_emit_return : pres S emit_return. Proof. unfold emit_return, add_op. pe. Qed.
Lemma w_fix_list l w : pres S (fix_list l w). Proof. induction l; cbn [fix_list]; pe. Qed.
Lemma d_open : pres (D 0 2) open_loop.
Proof. unfold open_loop. eapply D_bind; [apply d_push|intros _]. eapply D_bind; [apply d_top|intros _]. apply d_push. Qed.
Lemma d_close : pres (D 2 0) close_loop.
Proof.
  unfold close_loop, fix_breaks. eapply D_bind; [apply d_pop|intros _]. eapply D_bind; [|intros _; apply d_pop].
  apply b_S; [pe|intros c]. apply b_S; [pe|intros w]. apply b_S; [apply w_fix_list|intros _]. apply d_top.
Qed.
Ltac dstep :=
  match goal with
  | |- pres (D _ _) (kbind push_context _) => eapply D_bind; [apply d_push|intros _]
  | |- pres (D _ _) (kbind pop_context _) => eapply D_bind; [apply d_pop|intros _]
  | |- pres (D _ _) (kbind (pop_contexts _) _) => eapply D_bind; [apply d_pops|intros _]
  | |- pres (D _ _) (kbind open_loop _) => eapply D_bind; [apply d_open|intros _]
  | |- pres (D _ _) (kbind close_loop _) => eapply D_bind; [apply d_close|intros _]
  | |- pres (D _ _) (kbind _ _) => apply b_S; [solve [pe; apply w_emit_return]|intros ?]
  | |- pres (D _ _) (r_block _ false) => apply (wk_braces r W)
  | |- pres (D _ _) (need_in _ _ _) => apply d_need_in
  | |- pres (D _ _) (need _ _) => apply d_need
  | |- pres (D _ _) (enter _ _) => apply d_enter
  | |- pres (D _ _) (if ?b then _ else _) => destruct b
  | |- pres (D _ _) (kub _) => apply p_ub
  | |- pres (D _ _) _ => apply p_S; solve [pe]
  end.
Ltac dd := repeat dstep.

Lemma w_var : pres S (var_declaration r). Proof. unfold var_declaration. cbv zeta. pe. Qed.
Lemma w_return : pres S (return_statement r). Proof. unfold return_statement. pe. apply w_emit_return. Qed.
Lemma w_block_loop : pres S (block_loop r true). Proof. unfold block_loop. cbn [andb]. pe. all: rewrite ?Bool.andb_true_r; pe. Qed.
Lemma d_block_loop : pres (D 1 0) (block_loop r false).
Proof. unfold block_loop. apply b_S; [pe|intros ty]. rewrite Bool.andb_false_r. dd. Qed.
Lemma w_block b : pres S (block r b). Proof. apply p_D. unfold block. dd. Qed.
Lemma w_if : pres S (if_statement r). Proof. apply p_D. unfold if_statement. dd. Qed.
Lemma w_while : pres S (while_statement r). Proof. apply p_D. unfold while_statement. dd. Qed.
Lemma w_do : pres S (do_statement r). Proof. apply p_D. unfold do_statement. dd. Qed.
Lemma w_for : pres S (for_statement r). Proof. apply p_D. unfold for_statement. dd. Qed.

Lemma w_break : pres S break_statement.
Proof.
  unfold break_statement, add_op. apply pb; [pe|intros c]. apply w_enter. apply pb; [pe|intros l]. destruct (find_loop l) as [[[i x] [|o0 o]]|]; [pe| |pe].
  apply pb; [pe|intros _]. apply pb; [pe|intros _]. apply pb; [pe|intros j]. intros k a k' H. kb H. injection E as <- <-.
  destruct (find_loop (k_ctx k)) as [[[i2 x2] o2]|] eqn:Q; [|discriminate]. kb H. injection E as _ <-.
  assert (cc_loop x2 = true) as Lp.
  { clear - Q. revert i2 Q. induction (k_ctx k) as [|c l IH]; intros i2 Q; [discriminate|]. cbn [find_loop] in Q. destruct (cc_loop c) eqn:Lc; [injection Q as <- <- <-; exact Lc|].
    destruct (find_loop l) as [[[i1 x1] o1]|]; [|discriminate]. injection Q as <- <- <-. eapply IH; reflexivity. }
  apply find_loop_split in Q. eapply S_trans.
  2: { revert H. match goal with |- ?m ?k1 = Ok (a, k') -> _ => intro H; assert (pres S m) as P by pe; exact (P _ _ _ H) end. }
  unfold S. ks. rewrite Q. apply Forall2_app; [apply sims_refl|]. constructor; [|apply sims_refl]. split; [reflexivity|]. split; [reflexivity|]. rewrite Lp. discriminate.
Qed.
Lemma w_args j : pres S (args_body r j). Proof. unfold args_body. cbv zeta. pe. Qed.
Lemma w_owned x : pres S (add_owned x). Proof. unfold add_owned. pe. Qed.
Lemma w_skip t x : pres S (skip_or_complain t x). Proof. unfold skip_or_complain. pe. Qed.

(** A function is compiled in a chain of its own and the global scope. *)
Definition F (saved : list cctx) (k k' : comp) : Prop := forall c g, k_ctx k = [c; g] -> Forall2 sim saved (removelast saved ++ [g]) -> Forall2 sim saved (k_ctx k').
Lemma b_F saved {A B} (x : K A) (f : A -> K B) : pres S x -> (forall a, pres (F saved) (f a)) -> pres (F saved) (kbind x f).
Proof.
  intros X Y k b k' H c g E Fs. apply kbind_inv in H. destruct H as (v & k1 & E1 & H). pose proof (X _ _ _ E1) as Q. unfold S in Q. rewrite E in Q.
  inversion Q as [|? c1 ? ? Sc Q2 Ea Eb]; subst. inversion Q2 as [|? g1 ? ? Sg Q3]; subst. inversion Q3; subst. apply (Y _ _ _ _ H c1 g1); [congruence|].
  eapply sims_trans; [exact Fs|]. apply Forall2_app; [apply sims_refl|]. constructor; [exact Sg|constructor].
Qed.
Lemma sims_one g l : Forall2 sim [g] l -> exists g1, l = [g1] /\ sim g g1.
Proof. intro H. inversion H as [|? g1 ? l1 A B]; subst. inversion B; subst. eauto. Qed.
Lemma w_func_rest i : pres S (function_rest r i).
Proof.
  unfold function_rest, add_op. cbv zeta. apply pb; [pe|intros _]. apply pb; [pe|intros w0]. apply pb; [pe|intros _]. intros k a k' H. kb H. injection E as <- <-.
  destruct (rev (k_ctx k)) as [|g q] eqn:Er; [discriminate|]. kb H. injection E as _ <-. unfold S.
  assert (Forall2 sim (k_ctx k) (removelast (k_ctx k) ++ [g])) as Fs.
  { assert (k_ctx k = rev q ++ [g]) as Ec by (rewrite <- (rev_involutive (k_ctx k)), Er; reflexivity). rewrite Ec, removelast_last. apply sims_refl. }
  revert H Fs. generalize (k_ctx k) as saved. intros saved H Fs.
  match type of H with ?m ?k1 = _ => assert (pres (F saved) m) as P end; [|exact (P _ _ _ H _ _ eq_refl Fs)]. clear - W.
  apply b_F; [apply w_skip|intros _]. apply b_F; [apply w_owned|intros _]. apply b_F; [pe|intros _]. apply b_F; [pe|intros [argc ok]].
  apply b_F; [pe|intros w]. apply b_F; [pe|intros s]. apply b_F; [pe|intros fn]. apply b_F; [pe|intros fs]. apply b_F; [pe|intros _].
  apply b_F; [apply w_owned|intros _]. apply b_F; [pe|intros _]. apply b_F; [apply w_owned|intros _]. apply b_F; [apply w_skip|intros _].
  apply b_F; [pe|intros b]. apply b_F; [pe|intros _]. apply b_F; [pe|intros _]. apply b_F; [apply w_emit_return|intros _].
  apply b_F; [pe|intros w2]. apply b_F; [pe|intros s2]. apply b_F; [pe|intros cd]. apply b_F; [pe|intros _].
  intros k1 v k2 H c g E Fs. kb H. destruct (d_pop 0 _ _ _ E0 [c] [g] E eq_refl) as (a' & r' & C & L & Sg). destruct a'; [|discriminate]. cbn [app] in C.
  destruct (sims_one _ _ Sg) as (g1 & -> & Sg1). kb H. injection E1 as <- <-. kb H. injection E1 as _ <-.
  match type of H with ?m ?k3 = _ => assert (pres S m) as P by pe; pose proof (P _ _ _ H) as Q end. unfold S in Q. ksin Q. rewrite C in Q. eapply sims_trans; [|exact Q].
  assert (restore saved [g1] = removelast saved ++ [g1]) as -> by (destruct saved; reflexivity).
  eapply sims_trans; [exact Fs|]. apply Forall2_app; [apply sims_refl|]. constructor; [exact Sg1|constructor].
Qed.
Lemma w_func b : pres S (function_body r b).
Proof. unfold function_body. pe; apply w_func_rest. Qed.
Lemma w_stmt : pres S (statement_body r).
Proof.
  unfold statement_body, add_op. cbv zeta.
  pe; first [apply w_var | apply w_return | apply w_block | apply w_if | apply w_while | apply w_do | apply w_for | apply w_break].
Qed.
Lemma w_bodies : walks (bodies r).
Proof.
  constructor; cbn [bodies r_expr r_loop r_postfix r_params r_stmt r_block r_func r_args]; intros;
  [ apply w_parse | apply w_loop | apply w_postfix | apply w_params | apply w_stmt | apply w_block_loop | apply d_block_loop | apply w_func | apply w_args ].
Qed.
End Calls.

Theorem scope_walks j : walks (compiler j).
Proof. induction j; cbn [compiler]; [constructor; intros; apply p_ub | apply w_bodies; assumption]. Qed.

Lemma script_scopes fuel text fname k b k' : compile_script fuel text fname k = Ok (b, k') -> S k k'.
Proof.
  assert (pres S (compile_script fuel text fname)) as P; [|apply P]. unfold compile_script. apply w_enter. apply pb; [apply pvm|intros ts].
  apply script_tail; [apply S_refl|apply S_trans| | | | |].
  - intros. apply S_like. reflexivity.
  - intros. apply S_like. reflexivity.
  - apply w_block. apply scope_walks.
  - apply w_pop_rec.
  - apply w_give_up.
Qed.
