(** * KFacts: reasoning about the compiler's monad *)

From Verif Require Import Base State CompModel.

Ltac ks :=
  cbn [k_vm k_w k_ctx k_toks k_line k_file k_act k_rec k_nstat
       set_k_vm set_k_w set_k_ctx set_k_toks set_k_pos set_k_rec set_k_nstat].
Ltac ksin H :=
  cbn [k_vm k_w k_ctx k_toks k_line k_file k_act k_rec k_nstat
       set_k_vm set_k_w set_k_ctx set_k_toks set_k_pos set_k_rec set_k_nstat] in H.

Lemma kbind_run {A B} (m : K A) (f : A -> K B) k a k' :
  m k = Ok (a, k') -> kbind m f k = f a k'.
Proof. unfold kbind. intros ->. reflexivity. Qed.

Lemma kbind_inv {A B} (m : K A) (f : A -> K B) k b k' :
  kbind m f k = Ok (b, k') -> exists a k1, m k = Ok (a, k1) /\ f a k1 = Ok (b, k').
Proof.
  unfold kbind. destruct (m k) as [[a k1] | u]; intros H; [ | discriminate].
  exists a, k1. split; [reflexivity | exact H].
Qed.

Lemma kvm_inv {A} (m : M A) k a k' :
  kvm m k = Ok (a, k') -> exists s, m (k_vm k) = Ok (a, s) /\ k' = set_k_vm s k.
Proof.
  unfold kvm. destruct (m (k_vm k)) as [[x s] | u]; intros H; [ | discriminate].
  injection H as <- <-. exists s. split; reflexivity.
Qed.

Lemma klift_inv {A} (m : res A) k a k' :
  klift m k = Ok (a, k') -> m = Ok a /\ k' = k.
Proof.
  unfold klift. destruct m; intros H; [ | discriminate].
  injection H as <- <-. split; reflexivity.
Qed.

(** ** Relations between the states before and after *)

Definition pres (R : comp -> comp -> Prop) {A} (m : K A) : Prop :=
  forall k a k', m k = Ok (a, k') -> R k k'.

Section Pres.
Variable R : comp -> comp -> Prop.
Hypothesis Rrefl : forall k, R k k.
Hypothesis Rtrans : forall a b c, R a b -> R b c -> R a c.

Lemma p_ret {A} (a : A) : pres R (kret a).
Proof. intros k b k' H. injection H as _ <-. apply Rrefl. Qed.
Lemma p_bind {A B} (m : K A) (f : A -> K B) :
  pres R m -> (forall a, pres R (f a)) -> pres R (kbind m f).
Proof.
  intros Hm Hf k b k' H. apply kbind_inv in H. destruct H as (a & k1 & E & H).
  eapply Rtrans; [exact (Hm _ _ _ E) | exact (Hf a _ _ _ H)].
Qed.
Lemma p_ub {A} u : pres R (@kub A u).
Proof. intros k a k' H. discriminate. Qed.
Lemma p_gets {A} (f : comp -> A) : pres R (kgets f).
Proof. intros k a k' H. injection H as _ <-. apply Rrefl. Qed.
Lemma p_lift {A} (r : res A) : pres R (klift r).
Proof. intros k a k' H. apply klift_inv in H. destruct H as [_ ->]. apply Rrefl. Qed.
Lemma p_mod f : (forall k, R k (f k)) -> pres R (kmod f).
Proof. intros Hf k a k' H. injection H as _ <-. apply Hf. Qed.
End Pres.

(** The primitives through which the compiler changes its state. *)
Record prims (R : comp -> comp -> Prop) : Prop := {
  pr_refl : forall k, R k k;
  pr_trans : forall a b c, R a b -> R b c -> R a c;
  pr_next : pres R next_tok;
  pr_error : forall l f m, pres R (kvm (add_error_ex l f m));
  pr_rec : forall x k, R k (set_k_rec x k);
  pr_ctx : forall x k, R k (set_k_ctx x k);
  pr_w : forall x k, R k (set_k_w x k);
  pr_nstat : forall x k, R k (set_k_nstat x k);
  pr_code : forall c m k, R k (set_k_vm (set_cmask m (set_code c (k_vm k))) k);
  pr_static : forall n m k, R k (set_k_vm (set_smask m (set_static (v_static (k_vm k) ++ repeat (mkV 0 0) n) (k_vm k))) k);
  pr_funcs : forall l k, R k (set_k_vm (set_funcs l (k_vm k)) k);
  pr_intern : forall t, pres R (kvm (find_or_add_string t));
  pr_keep : forall i, pres R (kvm (keep_string i))
}.

Lemma set_cmask_same s : set_cmask (v_cmask s) s = s.
Proof. destruct s; reflexivity. Qed.
Lemma set_smask_same s : set_smask (v_smask s) s = s.
Proof. destruct s; reflexivity. Qed.
Lemma set_static_same s : set_static (v_static s) s = s.
Proof. destruct s; reflexivity. Qed.

Section Walk.
Variable R : comp -> comp -> Prop.
Hypothesis P : prims R.

Lemma pb {A B} (m : K A) (f : A -> K B) :
  pres R m -> (forall a, pres R (f a)) -> pres R (kbind m f).
Proof. apply p_bind. exact (pr_trans R P). Qed.
Lemma prt {A} (a : A) : pres R (kret a).
Proof. apply p_ret. exact (pr_refl R P). Qed.
Lemma pgt {A} (f : comp -> A) : pres R (kgets f).
Proof. apply p_gets. exact (pr_refl R P). Qed.
Lemma plf {A} (r : res A) : pres R (klift r).
Proof. apply p_lift. exact (pr_refl R P). Qed.
Lemma pif {A} (b : bool) (m n : K A) : pres R m -> pres R n -> pres R (if b then m else n).
Proof. destruct b; auto. Qed.
Lemma psetcode c : pres R (kvm (modify (set_code c))).
Proof.
  intros k a k' H. apply kvm_inv in H. destruct H as (s & E & ->). injection E as _ <-.
  generalize (pr_code R P c (v_cmask (k_vm k)) k).
  replace (set_cmask (v_cmask (k_vm k)) (set_code c (k_vm k))) with (set_code c (k_vm k))
    by (destruct (k_vm k); reflexivity). auto.
Qed.
Lemma psetsmask m : pres R (kvm (modify (set_smask m))).
Proof.
  intros k a k' H. apply kvm_inv in H. destruct H as (s & E & ->). injection E as _ <-.
  generalize (pr_static R P 0%nat m k). cbn [repeat].
  rewrite app_nil_r, set_static_same. auto.
Qed.
Lemma psetfuncs c : pres R (kvm (modify (set_funcs c))).
Proof.
  intros k a k' H. apply kvm_inv in H. destruct H as (s & E & ->). injection E as _ <-.
  apply (pr_funcs R P).
Qed.

Ltac pstep :=
  match goal with
  | H : pres R ?m |- pres R ?m => exact H
  | |- pres R (kbind _ _) => apply pb; [ | intros ?]
  | |- pres R (kret _) => apply prt
  | |- pres R (kgets _) => apply pgt
  | |- pres R (klift _) => apply plf
  | |- pres R (kub _) => apply p_ub
  | |- pres R next_tok => apply (pr_next R P)
  | |- pres R (kvm (add_error_ex _ _ _)) => apply (pr_error R P)
  | |- pres R (kvm (find_or_add_string _)) => apply (pr_intern R P)
  | |- pres R (kvm (keep_string _)) => apply (pr_keep R P)
  | |- pres R (kvm (modify (set_code _))) => apply psetcode
  | |- pres R (kvm (modify (set_smask _))) => apply psetsmask
  | |- pres R (kvm (modify (set_funcs _))) => apply psetfuncs
  | |- pres R (kmod (set_k_rec _)) => apply p_mod; intros ?; apply (pr_rec R P)
  | |- pres R (kmod (set_k_ctx _)) => apply p_mod; intros ?; apply (pr_ctx R P)
  | |- pres R (kmod (set_k_w _)) => apply p_mod; intros ?; apply (pr_w R P)
  | |- pres R (kmod (set_k_nstat _)) => apply p_mod; intros ?; apply (pr_nstat R P)
  | |- pres R (if ?b then _ else _) => apply pif
  | |- pres R (match ?x with _ => _ end) => destruct x
  end.
Ltac pw := repeat pstep.

Lemma w_cerror m : pres R (cerror m). Proof. unfold cerror. pw. Qed.
Lemma w_expect t : pres R (expect t).
Proof. unfold expect. pw; apply w_cerror. Qed.
Lemma w_push_rec : pres R push_recursion.
Proof. unfold push_recursion. pw; apply w_cerror. Qed.
Lemma w_pop_rec : pres R pop_recursion.
Proof. unfold pop_recursion. pw. Qed.
Lemma w_give_up {A} (a : A) : pres R (give_up a).
Proof. unfold give_up. pw. apply w_pop_rec. Qed.
Lemma w_cur_cc : pres R cur_cc. Proof. unfold cur_cc. pw. Qed.
Lemma w_mod_cc f : pres R (mod_cc f). Proof. unfold mod_cc. pw. Qed.
Lemma w_grow : pres R grow_code.
Proof.
  unfold grow_code. apply pb; [apply pgt | intros s]. apply pb; [pw; apply w_cerror | intros _].
  pw. intros k a k' H. apply kvm_inv in H. destruct H as (x & E & ->). injection E as _ <-.
  apply (pr_code R P).
Qed.
Lemma w_add_word w b : pres R (add_word w b).
Proof. unfold add_word, move_off. pw; first [apply w_grow | apply w_mod_cc]. Qed.
Lemma w_lit_int v b : pres R (push_lit_int v b).
Proof. unfold push_lit_int. pw; apply w_add_word. Qed.
Lemma w_lit_func v b : pres R (push_lit_func v b).
Proof. unfold push_lit_func. pw; apply w_add_word. Qed.
Lemma w_lit_float v b : pres R (push_lit_float v b).
Proof. unfold push_lit_float. pw; apply w_add_word. Qed.
Lemma w_lit_string v b : pres R (push_lit_string v b).
Proof. unfold push_lit_string. pw; apply w_add_word. Qed.
Lemma w_push_ctx : pres R push_context. Proof. unfold push_context. pw. Qed.
Lemma w_pop_ctx : pres R pop_context.
Proof. unfold pop_context. pw; first [apply w_lit_int | apply w_add_word]. Qed.
Lemma w_pop_ctxs n : pres R (pop_contexts n).
Proof. induction n; cbn [pop_contexts]; pw. apply w_pop_ctx. Qed.
Lemma w_alloc_static : pres R allocate_static.
Proof.
  unfold allocate_static. pw; try apply w_cerror.
  intros k x k' H. apply kvm_inv in H. destruct H as (s & E & ->). injection E as _ <-.
  apply (pr_static R P).
Qed.
Lemma w_add_var n u i : pres R (add_variable n u i).
Proof.
  unfold add_variable. pw;
    first [apply w_cur_cc | apply w_cerror | apply w_lit_int | apply w_alloc_static | apply w_add_word | apply w_mod_cc].
Qed.
Lemma w_no_pop : pres R no_pop. Proof. apply w_mod_cc. Qed.
Lemma w_move_off d : pres R (move_off d). Proof. apply w_mod_cc. Qed.
Lemma w_lookup n : pres R (lookup_variable n).
Proof. unfold lookup_variable. pw; apply w_cerror. Qed.
Lemma w_emit_jump t : pres R (emit_jump t).
Proof. unfold emit_jump. pw; first [apply w_lit_int | apply w_add_word]. Qed.
Lemma w_emit_jz t : pres R (emit_jz t).
Proof. unfold emit_jz. pw; first [apply w_lit_int | apply w_add_word]. Qed.
Lemma w_modify_jump a t : pres R (modify_jump a t).
Proof. unfold modify_jump. pw. Qed.
Lemma w_create_function : pres R (kvm create_function).
Proof.
  intros k a k' H. apply kvm_inv in H. destruct H as (s & E & ->).
  unfold create_function, mbind, gets, modify, ret, mub in E.
  destruct (u32 (zlen (v_funcs (k_vm k)) + 1) =? 0); [discriminate | ].
  injection E as _ <-. apply (pr_funcs R P).
Qed.

Ltac pstep2 :=
  match goal with
  | |- pres R (cerror _) => apply w_cerror
  | |- pres R (expect _) => apply w_expect
  | |- pres R push_recursion => apply w_push_rec
  | |- pres R pop_recursion => apply w_pop_rec
  | |- pres R (give_up _) => apply w_give_up
  | |- pres R cur_cc => apply w_cur_cc
  | |- pres R (mod_cc _) => apply w_mod_cc
  | |- pres R (add_word _ _) => apply w_add_word
  | |- pres R (add_op _ _) => apply w_add_word
  | |- pres R (push_nil_op _) => apply w_add_word
  | |- pres R (push_lit_int _ _) => apply w_lit_int
  | |- pres R (push_lit_func _ _) => apply w_lit_func
  | |- pres R (push_lit_float _ _) => apply w_lit_float
  | |- pres R (push_lit_string _ _) => apply w_lit_string
  | |- pres R push_context => apply w_push_ctx
  | |- pres R pop_context => apply w_pop_ctx
  | |- pres R (pop_contexts _) => apply w_pop_ctxs
  | |- pres R allocate_static => apply w_alloc_static
  | |- pres R (add_variable _ _ _) => apply w_add_var
  | |- pres R no_pop => apply w_no_pop
  | |- pres R (move_off _) => apply w_move_off
  | |- pres R (lookup_variable _) => apply w_lookup
  | |- pres R (emit_jump _) => apply w_emit_jump
  | |- pres R (emit_jz _) => apply w_emit_jz
  | |- pres R (modify_jump _ _) => apply w_modify_jump
  | |- pres R (kvm create_function) => apply w_create_function
  end.
Ltac pz := repeat first [pstep | pstep2].

Lemma w_emit_fetch n : pres R (emit_fetch n). Proof. unfold emit_fetch, add_op. pz. Qed.
Lemma w_emit_set n : pres R (emit_set n). Proof. unfold emit_set, add_op. pz. Qed.
Lemma w_emit_fse n a : pres R (emit_fse n a).
Proof. unfold emit_fse, add_op, push_nil_op, add_op. pz. Qed.
Lemma w_emit_op t r c : pres R (emit_op t r c).
Proof.
  unfold emit_op, add_op. pw;
  first [apply w_emit_fetch | apply w_emit_fse | pz].
Qed.
(** Every subtree. *)
Fixpoint sub_all (Q : ast -> Prop) (n : ast) : Prop :=
  Q n /\ match n with ANull => True | ANode _ _ a b => sub_all Q a /\ sub_all Q b end.
Lemma sub_all_here Q n : sub_all Q n -> Q n.
Proof. destruct n; intros H; destruct H; assumption. Qed.
Lemma ast_sub_ind (Q : ast -> Prop) :
  (forall n, match n with ANull => True | ANode _ _ a b => sub_all Q a /\ sub_all Q b end -> Q n) ->
  forall n, sub_all Q n.
Proof.
  intros H. induction n as [ | t r a IHa b IHb]; cbn [sub_all].
  - split; [apply H; exact I | exact I].
  - split; [apply H | ]; split; assumption.
Qed.

Lemma w_emit n : pres R (emit_expression n).
Proof.
  apply (sub_all_here (fun n => pres R (emit_expression n))). apply ast_sub_ind. clear n. intros n H.
  destruct n as [ | t r c0 c1]; cbn [emit_expression].
  - pz.
  - destruct H as [H0 H1]. pose proof (sub_all_here _ _ H0) as P0. pose proof (sub_all_here _ _ H1) as P1.
    apply pb; [pz | intros ok]. destruct ok; cbn [negb]; [ | pz].
    apply pif.
    + apply pb; [pz | intros _]. apply pb; [pz | intros ok]. destruct ok; cbn [negb]; [ | pz].
      apply pif; [pz | ]. destruct c0 as [ | t0 r0 c00 c01]; [pz | ].
      destruct H0 as [_ [G0 G1]]. apply sub_all_here in G0. apply sub_all_here in G1.
      apply pb; [exact P1 | intros _].
      apply pif; [pw; first [apply w_emit_set | pz] | ].
      apply pif; [ | pz].
      apply pb; [exact G0 | intros _]. apply pb; [exact G1 | intros _]. unfold add_op. pz.
    + apply pb; [pw; exact P0 | intros b0]. apply pif; [pz | ].
      apply pb; [pw; exact P1 | intros b1]. apply pif; [pz | ]. apply w_emit_op.
Qed.

Lemma w_expand n : forall d, pres R (expand n d).
Proof.
  induction n as [ | t r a IHa b IHb]; intros d; cbn [expand]; [pz | ].
  apply pb; [pz | intros ok]. apply pif; [pz | ].
  apply pb; [ | intros x; pz]. apply pif; [pz | ].
  apply pb; [apply IHa | intros x]. apply pb; [apply IHb | intros y]. pz.
Qed.

(** ** The recursive calls *)

Record walks (r : calls) : Prop := {
  wk_expr : pres R (r_expr r);
  wk_loop : forall o v, pres R (r_loop r o v);
  wk_postfix : forall p v, pres R (r_postfix r p v);
  wk_params : pres R (r_params r);
  wk_stmt : pres R (r_stmt r);
  wk_block : forall b, pres R (r_block r b);
  wk_func : forall b, pres R (r_func r b);
  wk_args : forall n, pres R (r_args r n)
}.

Section Calls.
Variable r : calls.
Hypothesis W : walks r.

Ltac pstep3 :=
  match goal with
  | |- pres R (r_expr _) => apply (wk_expr r W)
  | |- pres R (r_loop _ _ _) => apply (wk_loop r W)
  | |- pres R (r_postfix _ _ _) => apply (wk_postfix r W)
  | |- pres R (r_params _) => apply (wk_params r W)
  | |- pres R (r_stmt _) => apply (wk_stmt r W)
  | |- pres R (r_block _ _) => apply (wk_block r W)
  | |- pres R (r_func _ _) => apply (wk_func r W)
  | |- pres R (r_args _ _) => apply (wk_args r W)
  | |- pres R (emit_expression _) => apply w_emit
  | |- pres R (expand _ _) => apply w_expand
  end.
Ltac pq := repeat first [pstep | pstep2 | pstep3].

Lemma w_params : pres R (params_body r). Proof. unfold params_body. pq. Qed.
Lemma w_parse_call : pres R (parse_call r). Proof. unfold parse_call. pq. Qed.
Lemma w_postfix p v : pres R (postfix_body r p v).
Proof.
  unfold postfix_body, postfix_end. pq; apply w_parse_call.
Qed.
Lemma w_prefix_loop n : pres R (prefix_loop n).
Proof. induction n; cbn [prefix_loop]; pq. Qed.
Lemma w_value : pres R (parse_value r). Proof. unfold parse_value. pq. Qed.
Lemma w_loop_end o v : pres R (loop_end o v). Proof. unfold loop_end. pq. Qed.
Lemma w_loop o v : pres R (loop_body r o v).
Proof.
  unfold loop_body, prefixes. pq; first [apply w_loop_end | apply w_prefix_loop | apply w_value].
Qed.
Lemma w_parse : pres R (parse_body r). Proof. unfold parse_body. pq. Qed.
Lemma w_tree d : pres R (expression_tree r d). Proof. unfold expression_tree. pq. Qed.
Lemma w_compile_expr d : pres R (compile_expression r d).
Proof. unfold compile_expression. pq. apply w_tree. Qed.

Lemma w_need t (m : K bool) : pres R m -> pres R (need t m).
Proof. intros. unfold need. pq. Qed.
Lemma w_need_in n t (m : K bool) : pres R m -> pres R (need_in n t m).
Proof. intros. unfold need_in. pq. Qed.
Lemma w_enter {A} (a : A) (m : K A) : pres R m -> pres R (enter a m).
Proof. intros. unfold enter. pq. Qed.

Ltac pstep4 :=
  match goal with
  | |- pres R (enter _ _) => apply w_enter
  | |- pres R (need _ _) => apply w_need
  | |- pres R (need_in _ _ _) => apply w_need_in
  | |- pres R (compile_expression _ _) => apply w_compile_expr
  | |- pres R (expression_tree _ _) => apply w_tree
  end.
Ltac pe := repeat first [pstep | pstep2 | pstep3 | pstep4].

Lemma w_var : pres R (var_declaration r).
Proof. unfold var_declaration. cbv zeta. pe. Qed.
Lemma w_emit_return : pres R emit_return.
Proof. unfold emit_return, add_op. pe. Qed.
Lemma w_return : pres R (return_statement r).
Proof. unfold return_statement. pe. apply w_emit_return. Qed.
Lemma w_block_loop b : pres R (block_loop r b).
Proof. unfold block_loop. pe. Qed.
Lemma w_block b : pres R (block r b). Proof. unfold block. pe. Qed.
Lemma w_if : pres R (if_statement r). Proof. unfold if_statement. pe. Qed.
Lemma w_fix_list l w : pres R (fix_list l w).
Proof. induction l; cbn [fix_list]; pe. Qed.
Lemma w_fix : pres R fix_breaks. Proof. unfold fix_breaks. pe. apply w_fix_list. Qed.
Lemma w_open : pres R open_loop. Proof. unfold open_loop. pe. Qed.
Lemma w_close : pres R close_loop. Proof. unfold close_loop. pe. apply w_fix. Qed.
Lemma w_while : pres R (while_statement r).
Proof. unfold while_statement. pe; first [apply w_open | apply w_close]. Qed.
Lemma w_do : pres R (do_statement r).
Proof. unfold do_statement, add_op. pe; first [apply w_open | apply w_close]. Qed.
Lemma w_for : pres R (for_statement r).
Proof. unfold for_statement, add_op. pe; first [apply w_open | apply w_close]. Qed.
Lemma w_break : pres R break_statement.
Proof. unfold break_statement, add_op. pe. Qed.
Lemma w_args n : pres R (args_body r n). Proof. unfold args_body. cbv zeta. pe. Qed.
Lemma w_owned n : pres R (add_owned n). Proof. unfold add_owned. pe. Qed.
Lemma w_skip t m : pres R (skip_or_complain t m). Proof. unfold skip_or_complain. pe. Qed.
Lemma w_func_rest i : pres R (function_rest r i).
Proof.
  unfold function_rest, add_op. cbv zeta. pe; first [apply w_skip | apply w_owned | apply w_emit_return].
Qed.
Lemma w_func b : pres R (function_body r b).
Proof. unfold function_body. pe; apply w_func_rest. Qed.
Lemma w_stmt : pres R (statement_body r).
Proof.
  unfold statement_body, add_op. cbv zeta.
  pe; first [apply w_var | apply w_return | apply w_block | apply w_if | apply w_while | apply w_do
            | apply w_for | apply w_break].
Qed.

Lemma w_bodies : walks (bodies r).
Proof.
  constructor; cbn [bodies r_expr r_loop r_postfix r_params r_stmt r_block r_func r_args]; intros;
  [ apply w_parse | apply w_loop | apply w_postfix | apply w_params | apply w_stmt
  | apply w_block_loop | apply w_func | apply w_args ].
Qed.
End Calls.

Theorem compiler_walks n : walks (compiler n).
Proof.
  induction n; cbn [compiler]; [ | apply w_bodies; assumption].
  constructor; intros; apply p_ub.
Qed.
End Walk.
