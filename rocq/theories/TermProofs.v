(** * TermProofs: compiling ends *)

From Verif Require Import Base BaseFacts State CompModel KFacts ParseSpec ParseProofs StrModel.
From Coq Require Import Lia.

(** ** Operations on the VM never run out of steps *)

Definition nfr {A} (r : res A) : Prop := r <> Ub UbFuel.
Definition nfm {A} (m : M A) : Prop := forall s, m s <> Ub UbFuel.
Lemma nfm_bind {A B} (m : M A) (f : A -> M B) : nfm m -> (forall a, nfm (f a)) -> nfm (mbind m f).
Proof.
  intros H F s. unfold mbind. specialize (H s). destruct (m s) as [[a s'] | u]; [apply F | congruence].
Qed.
Lemma nfm_ret {A} (a : A) : nfm (ret a). Proof. intros s. discriminate. Qed.
Lemma nfm_gets {A} (f : vm -> A) : nfm (gets f). Proof. intros s. discriminate. Qed.
Lemma nfm_modify f : nfm (modify f). Proof. intros s. discriminate. Qed.
Lemma nfm_lift {A} (r : res A) : nfr r -> nfm (lift r).
Proof. intros H s. unfold lift. destruct r; [discriminate | ]. intros E. apply H. congruence. Qed.
Lemma nfr_rd {A} (l : list A) i : nfr (rd l i). Proof. unfold nfr, rd. destruct (znth l i); discriminate. Qed.
Lemma nfr_wr {A} (l : list A) i x : nfr (wr l i x).
Proof. unfold nfr, wr. repeat match goal with |- context [if ?b then _ else _] => destruct b end; discriminate. Qed.
Lemma nfr_chain t l x : nfr (find_in_chain t l x).
Proof.
  induction l as [ | i l IH]; cbn [find_in_chain]; [discriminate | ].
  destruct (tab_get t i) as [e | ]; [ | discriminate]. destruct (str_cmp _ _ =? 0); [discriminate | exact IH].
Qed.
Lemma nfm_error l f m : nfm (add_error_ex l f m).
Proof.
  unfold add_error_ex. apply nfm_bind.
  - unfold cur_ctx. apply nfm_bind; [apply nfm_gets | intros i s]. unfold get_ctx.
    destruct (znth (v_ctxs s) i) as [[c | ] | ]; discriminate.
  - intros c. apply nfm_bind; [apply nfm_gets | intros s]. apply nfm_modify.
Qed.
Lemma nfm_intern t : nfm (find_or_add_string t).
Proof.
  unfold find_or_add_string. apply nfm_bind; [apply nfm_gets | intros s].
  apply nfm_bind; [apply nfm_lift, nfr_rd | intros c].
  apply nfm_bind; [apply nfm_lift, nfr_chain | intros [i | ]]; [apply nfm_ret | ].
  destruct (tab_add _ _) as [[i tb] | ].
  - apply nfm_bind; [apply nfm_lift, nfr_wr | intros sl].
    apply nfm_bind; [apply nfm_modify | intros _]. apply nfm_bind; [apply nfm_modify | intros _]. apply nfm_ret.
  - apply nfm_bind; [apply nfm_error | intros _]. apply nfm_ret.
Qed.
Lemma nfm_keep i : nfm (keep_string i).
Proof.
  unfold keep_string. apply nfm_bind; [apply nfm_gets | intros s].
  destruct (get_str_entry s i) as [e | ]; [ | apply nfm_ret].
  apply nfm_bind; [apply nfm_lift, nfr_wr | intros sl]. apply nfm_modify.
Qed.
Lemma nfm_create : nfm create_function.
Proof.
  unfold create_function. apply nfm_bind; [apply nfm_gets | intros l].
  destruct (u32 (zlen l + 1) =? 0); [intros s; discriminate | ].
  apply nfm_bind; [apply nfm_modify | intros _]. apply nfm_ret.
Qed.

(** ** Operations that leave the tokens alone *)

Definition quiet {A} (m : K A) : Prop := forall k,
  m k <> Ub UbFuel /\ forall a k', m k = Ok (a, k') -> k_toks k' = k_toks k.

Lemma q_bind {A B} (m : K A) (f : A -> K B) : quiet m -> (forall a, quiet (f a)) -> quiet (kbind m f).
Proof.
  intros H F k. destruct (H k) as [N E]. unfold kbind. destruct (m k) as [[a k1] | u].
  - destruct (F a k1) as [N1 E1]. split; [exact N1 | ]. intros b k' X. rewrite (E1 b k' X). exact (E a k1 eq_refl).
  - split; [congruence | discriminate].
Qed.
Lemma q_ret {A} (a : A) : quiet (kret a).
Proof. intros k. split; [discriminate | ]. intros b k' H. injection H as _ <-. reflexivity. Qed.
Lemma q_gets {A} (f : comp -> A) : quiet (kgets f).
Proof. intros k. split; [discriminate | ]. intros b k' H. injection H as _ <-. reflexivity. Qed.
Lemma q_ub {A} u : u <> UbFuel -> quiet (@kub A u).
Proof. intros N k. split; [unfold kub; congruence | discriminate]. Qed.
Lemma q_lift {A} (r : res A) : nfr r -> quiet (klift r).
Proof.
  intros N k. unfold klift, nfr in *. destruct r as [a | u].
  - split; [discriminate | ]. intros b k' H. injection H as _ <-. reflexivity.
  - split; [congruence | discriminate].
Qed.
Lemma q_vm {A} (m : M A) : nfm m -> quiet (kvm m).
Proof.
  intros N k. split.
  - specialize (N (k_vm k)). unfold kvm. destruct (m (k_vm k)) as [[a s] | u]; [discriminate | congruence].
  - intros a k' H. apply kvm_inv in H. destruct H as (s & _ & ->). reflexivity.
Qed.
Lemma q_mod f : (forall k, k_toks (f k) = k_toks k) -> quiet (kmod f).
Proof. intros H k. split; [discriminate | ]. intros a k' E. injection E as _ <-. apply H. Qed.

Ltac qstep :=
  match goal with
  | H : quiet ?m |- quiet ?m => exact H
  | |- quiet (kbind _ _) => apply q_bind; [ | intros ?]
  | |- quiet (kret _) => apply q_ret
  | |- quiet (kgets _) => apply q_gets
  | |- quiet (klift (rd _ _)) => apply q_lift, nfr_rd
  | |- quiet (klift (wr _ _ _)) => apply q_lift, nfr_wr
  | |- quiet (kub _) => apply q_ub; discriminate
  | |- quiet (kvm (add_error_ex _ _ _)) => apply q_vm, nfm_error
  | |- quiet (kvm (find_or_add_string _)) => apply q_vm, nfm_intern
  | |- quiet (kvm (keep_string _)) => apply q_vm, nfm_keep
  | |- quiet (kvm create_function) => apply q_vm, nfm_create
  | |- quiet (kvm (modify _)) => apply q_vm, nfm_modify
  | |- quiet (kmod _) => apply q_mod; intros ?; reflexivity
  | |- quiet (if ?b then _ else _) => destruct b
  | |- quiet (match ?x with _ => _ end) => destruct x
  end.
Ltac qw := repeat qstep.

Lemma q_cerror m : quiet (cerror m). Proof. unfold cerror. qw. Qed.
Lemma q_push_rec : quiet push_recursion. Proof. unfold push_recursion. qw; apply q_cerror. Qed.
Lemma q_pop_rec : quiet pop_recursion. Proof. unfold pop_recursion. qw. Qed.
Lemma q_give_up {A} (a : A) : quiet (give_up a). Proof. unfold give_up. qw. apply q_pop_rec. Qed.
Lemma q_cur_cc : quiet cur_cc. Proof. unfold cur_cc. qw. Qed.
Lemma q_mod_cc f : quiet (mod_cc f). Proof. unfold mod_cc. qw. Qed.
Lemma q_grow : quiet grow_code. Proof. unfold grow_code. cbv zeta. qw; apply q_cerror. Qed.
Lemma q_add_word w b : quiet (add_word w b).
Proof. unfold add_word, move_off. qw; first [apply q_grow | apply q_mod_cc]. Qed.
Lemma q_lit_int v b : quiet (push_lit_int v b). Proof. unfold push_lit_int. qw; apply q_add_word. Qed.
Lemma q_lit_func v b : quiet (push_lit_func v b). Proof. unfold push_lit_func. qw; apply q_add_word. Qed.
Lemma q_lit_float v b : quiet (push_lit_float v b). Proof. unfold push_lit_float. qw; apply q_add_word. Qed.
Lemma q_lit_string v b : quiet (push_lit_string v b). Proof. unfold push_lit_string. qw; apply q_add_word. Qed.
Lemma q_push_ctx : quiet push_context. Proof. unfold push_context. qw. Qed.
Lemma q_pop_ctx : quiet pop_context.
Proof. unfold pop_context. qw; first [apply q_lit_int | apply q_add_word]. Qed.
Lemma q_pop_ctxs n : quiet (pop_contexts n).
Proof. induction n; cbn [pop_contexts]; qw. apply q_pop_ctx. Qed.
Lemma q_alloc : quiet allocate_static.
Proof. unfold allocate_static. cbv zeta. qw; apply q_cerror. Qed.
Lemma q_add_var n u i : quiet (add_variable n u i).
Proof.
  unfold add_variable. qw; first [apply q_cur_cc | apply q_cerror | apply q_lit_int | apply q_alloc
    | apply q_add_word | apply q_mod_cc].
Qed.
Lemma q_no_pop : quiet no_pop. Proof. apply q_mod_cc. Qed.
Lemma q_move_off d : quiet (move_off d). Proof. apply q_mod_cc. Qed.
Lemma q_lookup n : quiet (lookup_variable n). Proof. unfold lookup_variable. qw; apply q_cerror. Qed.
Lemma q_emit_jump t : quiet (emit_jump t).
Proof. unfold emit_jump. qw; first [apply q_lit_int | apply q_add_word]. Qed.
Lemma q_emit_jz t : quiet (emit_jz t).
Proof. unfold emit_jz. qw; first [apply q_lit_int | apply q_add_word]. Qed.
Lemma q_modify_jump a t : quiet (modify_jump a t).
Proof. unfold modify_jump. cbv zeta. qw. Qed.

Ltac qstep2 :=
  match goal with
  | |- quiet (cerror _) => apply q_cerror
  | |- quiet push_recursion => apply q_push_rec
  | |- quiet pop_recursion => apply q_pop_rec
  | |- quiet (give_up _) => apply q_give_up
  | |- quiet cur_cc => apply q_cur_cc
  | |- quiet (mod_cc _) => apply q_mod_cc
  | |- quiet (add_word _ _) => apply q_add_word
  | |- quiet (add_op _ _) => apply q_add_word
  | |- quiet (push_nil_op _) => apply q_add_word
  | |- quiet (push_lit_int _ _) => apply q_lit_int
  | |- quiet (push_lit_func _ _) => apply q_lit_func
  | |- quiet (push_lit_float _ _) => apply q_lit_float
  | |- quiet (push_lit_string _ _) => apply q_lit_string
  | |- quiet push_context => apply q_push_ctx
  | |- quiet pop_context => apply q_pop_ctx
  | |- quiet (pop_contexts _) => apply q_pop_ctxs
  | |- quiet (add_variable _ _ _) => apply q_add_var
  | |- quiet no_pop => apply q_no_pop
  | |- quiet (move_off _) => apply q_move_off
  | |- quiet (lookup_variable _) => apply q_lookup
  | |- quiet (emit_jump _) => apply q_emit_jump
  | |- quiet (emit_jz _) => apply q_emit_jz
  | |- quiet (modify_jump _ _) => apply q_modify_jump
  end.
Ltac qz := repeat first [qstep | qstep2].

Lemma q_emit_fetch n : quiet (emit_fetch n). Proof. unfold emit_fetch. qz. Qed.
Lemma q_emit_set n : quiet (emit_set n). Proof. unfold emit_set. qz. Qed.
Lemma q_emit_fse n a : quiet (emit_fse n a). Proof. unfold emit_fse. qz. Qed.
Lemma q_emit_op t r c : quiet (emit_op t r c).
Proof. unfold emit_op. cbv zeta. qw; first [apply q_emit_fetch | apply q_emit_fse | qz]. Qed.
Lemma q_emit n : quiet (emit_expression n).
Proof.
  apply (sub_all_here (fun n => quiet (emit_expression n))). apply ast_sub_ind. clear n. intros n H.
  destruct n as [ | t r c0 c1]; cbn [emit_expression].
  - qz.
  - destruct H as [H0 H1]. pose proof (sub_all_here _ _ H0) as P0. pose proof (sub_all_here _ _ H1) as P1.
    apply q_bind; [qz | intros ok]. destruct ok; cbn [negb]; [ | qz].
    destruct (tk_type t =? TK_ASSIGNMENT).
    + apply q_bind; [qz | intros _]. apply q_bind; [qz | intros ok]. destruct ok; cbn [negb]; [ | qz].
      destruct (is_null c1); [qz | ]. destruct c0 as [ | t0 r0 c00 c01]; [qz | ].
      destruct H0 as [_ [G0 G1]]. apply sub_all_here in G0. apply sub_all_here in G1.
      apply q_bind; [exact P1 | intros _].
      destruct (tk_type t0 =? TK_IDENTIFIER); [qw; first [apply q_emit_set | qz] | ].
      destruct (tk_type t0 =? TK_BRACKET_OPEN); [ | qz].
      apply q_bind; [exact G0 | intros _]. apply q_bind; [exact G1 | intros _]. qz.
    + apply q_bind; [qw; exact P0 | intros b0]. destruct (negb b0); [qz | ].
      apply q_bind; [qw; exact P1 | intros b1]. destruct (negb b1); [qz | ]. apply q_emit_op.
Qed.
Lemma q_expand n : forall d, quiet (expand n d).
Proof.
  induction n as [ | t r a IHa b IHb]; intros d; cbn [expand]; [qz | ].
  apply q_bind; [qz | intros ok]. destruct (negb ok); [qz | ].
  apply q_bind; [ | intros x; qz]. destruct (is_incdec (tk_type t)); [qz | ].
  apply q_bind; [apply IHa | intros x]. apply q_bind; [apply IHb | intros y]. qz.
Qed.
Lemma nfr_optimize n : nfr (optimize n).
Proof.
  unfold nfr. induction n as [ | t r a IHa b IHb]; cbn [optimize]; [discriminate | ].
  destruct (optimize a) as [d0 | u]; cbn [bind]; [ | congruence].
  destruct (optimize b) as [d1 | u]; cbn [bind]; [ | congruence].
  destruct (foldable (tk_type t)); cbn [negb]; [ | discriminate].
  destruct (negb (immediate d0) || negb (is_null d1 || immediate d1)); [discriminate | ].
  destruct d0 as [ | t0 r0 c00 c01]; [discriminate | ].
  destruct (tk_type t0 =? TK_INTEGER).
  - match goal with |- bind ?x _ <> _ => assert (X : x <> Ub UbFuel); [ | destruct x as [v | u]; cbn [bind]] end.
    + unfold fold_int, signed. repeat match goal with |- context [if ?b then _ else _] => destruct b end; discriminate.
    + destruct v; discriminate.
    + congruence.
  - match goal with |- bind ?x _ <> _ => assert (X : x <> Ub UbFuel); [ | destruct x as [v | u]; cbn [bind]] end.
    + unfold fold_float. repeat match goal with |- context [if ?b then _ else _] => destruct b end; discriminate.
    + destruct v; discriminate.
    + congruence.
Qed.
Lemma nfr_reduce o v : nfr (reduce o v).
Proof. unfold nfr, reduce. destruct v as [ | x [ | y v]], o; discriminate. Qed.
Lemma nfr_reduce_while p o : forall v, nfr (reduce_while p o v).
Proof.
  induction o as [ | t o IH]; intros v; cbn [reduce_while]; [discriminate | ].
  destruct (precedence (tk_type t) <=? p); [ | discriminate].
  pose proof (nfr_reduce (t :: o) v) as H. destruct (reduce (t :: o) v) as [[[a b] | ] | u]; cbn [bind];
    [apply IH | discriminate | exact H].
Qed.
Lemma nfr_reduce_all o : forall v, nfr (reduce_all o v).
Proof.
  induction o as [ | t o IH]; intros v; cbn [reduce_all]; [discriminate | ].
  pose proof (nfr_reduce (t :: o) v) as H. destruct (reduce (t :: o) v) as [[[a b] | ] | u]; cbn [bind];
    [apply IH | discriminate | unfold nfr in *; congruence].
Qed.
Lemma q_loop_end o v : quiet (loop_end o v).
Proof. unfold loop_end. apply q_bind; [apply q_lift, nfr_reduce_all | intros q]. qz. Qed.
Lemma q_emit_return : quiet emit_return. Proof. unfold emit_return. qz. Qed.
Lemma q_fix_list l w : quiet (fix_list l w). Proof. induction l; cbn [fix_list]; qz. Qed.
Lemma q_fix : quiet fix_breaks. Proof. unfold fix_breaks. qz. apply q_fix_list. Qed.
Lemma q_open : quiet open_loop. Proof. unfold open_loop. qz. Qed.
Lemma q_close : quiet close_loop. Proof. unfold close_loop. qz. apply q_fix. Qed.
Lemma q_owned n : quiet (add_owned n). Proof. unfold add_owned. qz. Qed.

(** ** Counting tokens *)

(** With [T] tokens left [m] ends, and [Q] holds for the result and the number
    of tokens left then. *)
Definition fin (T : nat) {A} (m : K A) (Q : A -> nat -> Prop) : Prop :=
  forall k, length (k_toks k) = T ->
    m k <> Ub UbFuel /\ forall a k', m k = Ok (a, k') -> Q a (length (k_toks k')).

Lemma f_bind {A B} T (m : K A) (f : A -> K B) Q R : fin T m Q ->
  (forall a n, Q a n -> fin n (f a) R) -> fin T (kbind m f) R.
Proof.
  intros H F k L. destruct (H k L) as [N E]. unfold kbind. destruct (m k) as [[a k1] | u].
  - destruct (F a _ (E a k1 eq_refl) k1 eq_refl) as [N1 E1]. split; assumption.
  - split; [congruence | discriminate].
Qed.
Lemma f_weak {A} T (m : K A) (Q R : A -> nat -> Prop) : fin T m Q -> (forall a n, Q a n -> R a n) -> fin T m R.
Proof. intros H I k L. destruct (H k L) as [N E]. split; [exact N | ]. intros. apply I, E. assumption. Qed.
Lemma f_quiet {A} T (m : K A) : quiet m -> fin T m (fun _ n => n = T).
Proof.
  intros H k L. destruct (H k) as [N E]. split; [exact N | ]. intros a k' X. rewrite (E a k' X). exact L.
Qed.
Lemma f_ret {A} T (a : A) (Q : A -> nat -> Prop) : Q a T -> fin T (kret a) Q.
Proof. intros H k L. split; [discriminate | ]. intros b k' E. injection E as <- <-. rewrite L. exact H. Qed.
Lemma f_qbind {A B} T (m : K A) (f : A -> K B) R : quiet m -> (forall a, fin T (f a) R) -> fin T (kbind m f) R.
Proof. intros H F. apply (f_bind _ _ _ _ _ (f_quiet T m H)). intros a n ->. apply F. Qed.
Lemma f_toks {B} T (f : list token -> K B) R : (forall ts, length ts = T -> fin T (f ts) R) ->
  fin T (kbind (kgets k_toks) f) R.
Proof. intros H k L. exact (H (k_toks k) L k L). Qed.
Lemma f_type {B} T (f : Z -> K B) R : (forall ty, (ty <> TK_INVALID -> (1 <= T)%nat) -> fin T (f ty) R) ->
  fin T (kbind (kgets cur_type) f) R.
Proof.
  intros H k L. apply (H (cur_type k)); [ | exact L]. intros N. unfold cur_type in N. rewrite <- L.
  destruct (k_toks k); [contradiction | cbn; lia].
Qed.
Lemma f_type_at {B} T c (f : Z -> K B) R :
  (forall ty, (ty <> TK_INVALID -> (1 <= T)%nat) -> ty <> c -> fin T (f ty) R) ->
  (forall k, length (k_toks k) = T -> cur_type k = c ->
    f c k <> Ub UbFuel /\ forall a k', f c k = Ok (a, k') -> R a (length (k_toks k'))) ->
  fin T (kbind (kgets cur_type) f) R.
Proof.
  intros H G k L. unfold kbind, kgets. destruct (Z.eq_dec (cur_type k) c) as [C | N].
  - rewrite C. apply G; assumption.
  - apply (H (cur_type k)); [ | exact N | exact L]. intros N'. unfold cur_type in N'. rewrite <- L.
    destruct (k_toks k); [contradiction | cbn; lia].
Qed.
Lemma f_ub {A} T u (Q : A -> nat -> Prop) : u <> UbFuel -> fin T (kub u) Q.
Proof. intros N k L. split; [unfold kub; congruence | discriminate]. Qed.
Lemma f_next T : fin T next_tok (fun _ n => n = pred T).
Proof.
  intros k L. rewrite next_tok_run. split; [discriminate | ]. intros a k' E. injection E as _ <-.
  rewrite nxt_toks, <- L. destruct (k_toks k); reflexivity.
Qed.
Lemma f_expect T t : t <> TK_INVALID ->
  fin T (expect t) (fun b n => (n <= T)%nat /\ (b = true -> (n < T)%nat)).
Proof.
  intros Nt. unfold expect. apply f_type. intros ty H. destruct (Z.eqb_spec ty t) as [-> | N]; cbn [negb].
  - apply (f_bind _ _ _ _ _ (f_next T)). intros _ n ->. apply f_ret. specialize (H Nt). split; [lia | intros _; lia].
  - apply f_qbind; [qz | intros s]. apply f_qbind; [qz | intros _]. apply f_ret. split; [lia | discriminate].
Qed.

(** What the recursive calls promise with fuel [F]. *)
Record ends (F : nat) (r : calls) : Prop := {
  e_postfix : forall T p v, (8 * T + 1 < F)%nat -> fin T (r_postfix r p v) (fun _ n => (n <= T)%nat);
  e_func : forall T b, (8 * T + 2 < F)%nat ->
    fin T (r_func r b) (fun i n => (n <= T)%nat /\ (i <> None -> (n < T)%nat));
  e_args : forall T c, (8 * T + 1 < F)%nat -> fin T (r_args r c) (fun _ n => (n <= T)%nat);
  e_loop : forall T o v, (8 * T + 3 < F)%nat ->
    fin T (r_loop r o v) (fun x n => (n <= T)%nat /\ (x <> ANull -> (1 <= length o + length v)%nat \/ (n < T)%nat));
  e_expr : forall T, (8 * T + 4 < F)%nat ->
    fin T (r_expr r) (fun x n => (n <= T)%nat /\ (x <> ANull -> (n < T)%nat));
  e_params : forall T, (8 * T + 5 < F)%nat -> fin T (r_params r) (fun _ n => (n <= T)%nat);
  e_stmt : forall T, (8 * T + 5 < F)%nat ->
    fin T (r_stmt r) (fun b n => (n <= T)%nat /\ (b = true -> (n < T)%nat));
  e_block : forall T b, (8 * T + 6 < F)%nat -> fin T (r_block r b) (fun _ n => (n <= T)%nat)
}.

Section Ends.
Variable F : nat.
Variable r : calls.
Hypothesis E : ends F r.

(** Weakened posts of the calls. *)
Ltac qgo := solve [qz | apply q_emit | apply q_expand | apply q_loop_end | apply q_open | apply q_close
  | apply q_fix | apply q_emit_return | apply q_owned | apply q_lift, nfr_optimize | apply q_lift, nfr_reduce_while
  | apply q_lift, nfr_reduce_all].
Ltac qb := apply f_qbind; [qgo | intros ?].
(** A quiet tail. *)
Ltac qend := eapply f_weak; [apply f_quiet; qgo | cbn beta; intros; subst; try (split; [lia | ]); try lia; try discriminate; auto].

Lemma f_params T : (8 * T + 5 < S F)%nat -> fin T (params_body r) (fun _ n => (n <= T)%nat).
Proof.
  intros L. unfold params_body. apply f_type. intros ty Hty.
  destruct ((ty =? TK_INVALID) || (ty =? TK_PAREN_CLOSE)).
  - eapply f_bind; [apply f_expect; discriminate | cbn beta; intros ok n [H1 H2]]. qb. apply f_ret. lia.
  - eapply f_bind; [apply (e_expr F r E); lia | cbn beta; intros p n [H1 H2]].
    destruct p as [ | t0 r0 a b].
    + qb. qend.
    + specialize (H2 ltac:(discriminate)). apply f_type. intros ty2 Hty2.
      destruct (ty2 =? TK_COMMA); [ | destruct (ty2 =? TK_PAREN_CLOSE)].
      * eapply f_bind; [apply f_next | cbn beta; intros _ n2 ->].
        eapply f_bind; [apply (e_params F r E); lia | cbn beta; intros q n3 H3]. apply f_ret. lia.
      * eapply f_bind; [apply (e_params F r E); lia | cbn beta; intros q n3 H3]. apply f_ret. lia.
      * qb. qend.
Qed.

Lemma f_parse_call T : (8 * T + 1 < S F)%nat -> (1 <= T)%nat ->
  fin T (parse_call r) (fun q n => (n <= T)%nat /\ (q <> None -> (n < T)%nat)).
Proof.
  intros L P. unfold parse_call. qb. destruct a; cbn [negb].
  - eapply f_bind; [apply f_next | cbn beta; intros _ n ->].
    eapply f_weak; [apply (e_params F r E); lia | cbn beta; intros; split; [lia | intros _; lia]].
  - apply f_ret. split; [lia | contradiction].
Qed.

Lemma f_postfix T p v : (8 * T + 1 < S F)%nat -> fin T (postfix_body r p v) (fun _ n => (n <= T)%nat).
Proof.
  intros L. unfold postfix_body. cbv zeta.
  set (later := match p with PFirst => PLater | _ => p end).
  apply f_toks. intros [ | t ts] Lt.
  - unfold postfix_end. destruct p; qend.
  - cbn [length] in Lt. destruct (negb (is_postfix (tk_type t))); [unfold postfix_end; destruct p; qend | ].
    destruct ((tk_type t =? TK_DOT) || (tk_type t =? TK_INDIRECTION)).
    + eapply f_bind; [apply f_next | cbn beta; intros _ n ->].
      apply f_toks. intros [ | i ts2] Lt2; [qb; qend | ].
      destruct (negb (tk_type i =? TK_IDENTIFIER)); [qb; qend | ].
      eapply f_bind; [apply f_expect; discriminate | cbn beta; intros ok n [H1 _]].
      destruct (tk_type t =? TK_INDIRECTION).
      * apply f_toks. intros [ | q ts3] Lt3; [qb; qend | ].
        destruct (negb (tk_type q =? TK_PAREN_OPEN)); [qb; qend | ].
        cbn [length] in Lt3.
        eapply f_bind; [apply f_parse_call; lia | cbn beta; intros ps n2 [H2 _]].
        destruct ps as [ps | ]; [ | qend].
        eapply f_weak; [apply (e_postfix F r E); lia | cbn beta; intros; lia].
      * eapply f_weak; [apply (e_postfix F r E); lia | cbn beta; intros; lia].
    + destruct (tk_type t =? TK_BRACKET_OPEN).
      * eapply f_bind; [apply f_next | cbn beta; intros _ n ->].
        eapply f_bind; [apply (e_expr F r E); lia | cbn beta; intros i n [H1 _]].
        destruct i as [ | it ir i0 i1]; [qb; qend | ].
        eapply f_bind; [apply f_expect; discriminate | cbn beta; intros ok n2 [H2 _]].
        destruct ok; cbn [negb]; [ | qend].
        eapply f_weak; [apply (e_postfix F r E); lia | cbn beta; intros; lia].
      * destruct (tk_type t =? TK_PAREN_OPEN).
        -- eapply f_bind; [apply f_parse_call; lia | cbn beta; intros ps n2 [H2 H3]].
           destruct ps as [ps | ]; [ | qend]. specialize (H3 ltac:(discriminate)).
           destruct v as [ | vt vr c0 c1]; [qend | ].
           destruct (match p with PFirst => tk_type vt =? TK_FSE | _ => false end);
             (eapply f_weak; [apply (e_postfix F r E); lia | cbn beta; intros; lia]).
        -- eapply f_bind; [apply f_next | cbn beta; intros _ n ->].
           eapply f_weak; [apply (e_postfix F r E); lia | cbn beta; intros; lia].
Qed.

Lemma f_prefix f : forall T, (T < f)%nat -> fin T (prefix_loop f) (fun _ n => (n <= T)%nat).
Proof.
  induction f as [ | f IH]; intros T L; [lia | ]. cbn [prefix_loop].
  apply f_toks. intros [ | t ts] Lt; [apply f_ret; lia | ]. cbn [length] in Lt.
  destruct (is_prefix (tk_type t)); [ | apply f_ret; lia].
  eapply f_bind; [apply f_next | cbn beta; intros _ n ->].
  eapply f_bind; [apply IH; lia | cbn beta; intros l n Hn]. apply f_ret. lia.
Qed.

Lemma f_value T : (8 * T + 3 < S F)%nat ->
  fin T (parse_value r) (fun v n => (n <= T)%nat /\ (v <> ANull -> (n < T)%nat)).
Proof.
  intros L. unfold parse_value. apply f_type. intros ty Hty.
  destruct (Z.eqb_spec ty TK_PAREN_OPEN) as [-> | Np].
  - specialize (Hty ltac:(discriminate)).
    eapply f_bind; [apply f_next | cbn beta; intros _ n ->].
    eapply f_bind; [apply (e_expr F r E); lia | cbn beta; intros v n [H1 _]].
    destruct v as [ | vt vr c0 c1].
    + qb. eapply f_weak; [apply f_quiet; qgo | cbn beta; intros; subst; split; [lia | intros; lia]].
    + apply f_type. intros ty2 _. destruct (negb (sub_ending ty2)).
      * qb. eapply f_weak; [apply f_quiet; qgo | cbn beta; intros; subst; split; [lia | intros; lia]].
      * eapply f_bind; [apply f_next | cbn beta; intros _ n2 ->]. apply f_ret. split; [lia | intros; lia].
  - apply f_toks. intros [ | t ts] Lt.
    + qb. eapply f_weak; [apply (f_ret T ANull (fun v n => n = T /\ v = ANull)); auto | ] || idtac.
      unfold give_up. qb. apply f_ret. split; [lia | contradiction].
    + cbn [length] in Lt. destruct (expr_ending ty).
      * qb. unfold give_up. qb. apply f_ret. split; [lia | contradiction].
      * destruct (ty =? TK_FUNCTION).
        -- eapply f_bind; [apply (e_func F r E); lia | cbn beta; intros i n [H1 H2]].
           destruct i as [i | ].
           ++ specialize (H2 ltac:(discriminate)). qb. apply f_ret. split; [lia | intros; lia].
           ++ qb. unfold give_up. qb. apply f_ret. split; [lia | contradiction].
        -- eapply f_bind; [apply f_next | cbn beta; intros _ n ->]. apply f_ret. split; [lia | intros; lia].
Qed.

Lemma f_loop T o v : (8 * T + 3 < S F)%nat ->
  fin T (loop_body r o v) (fun x n => (n <= T)%nat /\ (x <> ANull -> (1 <= length o + length v)%nat \/ (n < T)%nat)).
Proof.
  intros L. unfold loop_body. apply f_type. intros ty Hty.
  destruct (expr_ending ty).
  - (* nothing to parse *)
    destruct o as [ | o os]; [destruct v as [ | v vs] | ].
    + intros k Lk. destruct (q_loop_end [] [] k) as [N Q]. split; [exact N | ]. intros a k' H. rewrite (Q a k' H).
      split; [lia | ]. intros Na. exfalso. apply Na. exact (loop_end_early [] [] k a k' eq_refl H).
    + eapply f_weak; [apply f_quiet; qgo | cbn beta; intros; subst; split; [lia | intros; cbn [length]; lia]].
    + eapply f_weak; [apply f_quiet; qgo | cbn beta; intros; subst; split; [lia | intros; cbn [length]; lia]].
  - unfold prefixes.
    eapply (f_bind _ _ _ (fun _ n => (n <= T)%nat)).
    { apply f_toks. intros ts Lt. apply f_prefix. lia. }
    cbn beta. intros pre n1 H1.
    eapply f_bind; [apply f_value; lia | cbn beta; intros w n2 [H2 H3]].
    destruct (is_null w) eqn:Nw; [apply f_ret; split; [lia | contradiction] | ].
    specialize (H3 ltac:(intros ->; discriminate)).
    eapply f_bind; [apply (e_postfix F r E); lia | cbn beta; intros v2 n3 H4].
    destruct (is_null v2); [apply f_ret; split; [lia | contradiction] | ].
    apply f_toks. intros [ | op ts] Lt.
    + eapply f_weak; [apply f_quiet; qgo | cbn beta; intros; subst; split; [lia | intros; lia]].
    + cbn [length] in Lt. destruct (expr_ending (tk_type op)).
      * eapply f_weak; [apply f_quiet; qgo | cbn beta; intros; subst; split; [lia | intros; lia]].
      * destruct (precedence (tk_type op) =? -1).
        -- qb. eapply f_weak; [apply f_quiet; qgo | cbn beta; intros; subst; split; [lia | intros; lia]].
        -- qb. destruct a as [[ops' vs] | ].
           ++ eapply f_bind; [apply f_next | cbn beta; intros _ n5 ->].
              eapply f_weak; [apply (e_loop F r E); lia | cbn beta; intros x n6 [H6 _]; split; [lia | intros; lia]].
           ++ qb. eapply f_weak; [apply f_quiet; qgo | cbn beta; intros; subst; split; [lia | intros; lia]].
Qed.

Lemma f_parse T : (8 * T + 4 < S F)%nat ->
  fin T (parse_body r) (fun x n => (n <= T)%nat /\ (x <> ANull -> (n < T)%nat)).
Proof.
  intros L. unfold parse_body. qb. destruct a; cbn [negb].
  - eapply f_weak; [apply (e_loop F r E); lia | cbn beta; intros x n [H1 H2]; split; [lia | ]].
    intros N. specialize (H2 N). cbn [length] in H2. lia.
  - apply f_ret. split; [lia | contradiction].
Qed.

Lemma f_tree T d : (8 * T + 4 < F)%nat ->
  fin T (expression_tree r d) (fun x n => (n <= T)%nat /\ (x <> ANull -> (n < T)%nat)).
Proof.
  intros L. unfold expression_tree. qb. destruct a; cbn [negb]; [ | apply f_ret; split; [lia | contradiction]].
  eapply f_bind; [apply (e_expr F r E); lia | cbn beta; intros n m [H1 H2]].
  destruct n as [ | t0 r0 a b].
  - eapply (f_bind _ _ _ (fun x n => x = ANull /\ n = m)); [apply f_ret; auto | cbn beta; intros n' m' [-> ->]].
    qb. qb. apply f_ret. split; [lia | ]. destruct (has_errors a); contradiction.
  - specialize (H2 ltac:(discriminate)). apply f_qbind.
    { apply q_bind; [apply q_expand | intros e]. apply q_lift, nfr_optimize. }
    intros n'. qb. qb. apply f_ret. split; [lia | intros; lia].
Qed.

Definition uses (T : nat) (b : bool) (n : nat) : Prop := (n <= T)%nat /\ (b = true -> (n < T)%nat).

Lemma f_expression T d : (8 * T + 4 < F)%nat -> fin T (compile_expression r d) (uses T).
Proof.
  intros L. unfold compile_expression, uses. qb. destruct a; cbn [negb]; [ | apply f_ret; split; [lia | discriminate]].
  eapply f_bind; [apply f_tree; lia | cbn beta; intros n m [H1 H2]].
  destruct n as [ | t0 r0 a b].
  - unfold give_up. qb. apply f_ret. split; [lia | discriminate].
  - specialize (H2 ltac:(discriminate)). qb. qb. apply f_ret. split; [lia | intros; lia].
Qed.

Lemma f_give_up {A} T (a : A) (Q : A -> nat -> Prop) : Q a T -> fin T (give_up a) Q.
Proof. intros H. unfold give_up. qb. apply f_ret. exact H. Qed.
Lemma f_need T t (m : K bool) Q : t <> TK_INVALID -> (forall n, (n < T)%nat -> fin n m Q) ->
  (forall n, (n <= T)%nat -> Q false n) -> fin T (need t m) Q.
Proof.
  intros N H G. unfold need. eapply f_bind; [apply f_expect; exact N | cbn beta; intros b n [H1 H2]].
  destruct b; [apply H; auto | apply f_give_up; auto].
Qed.
Lemma f_need_in T i t (m : K bool) Q : t <> TK_INVALID -> (forall n, (n < T)%nat -> fin n m Q) ->
  (forall n, (n <= T)%nat -> Q false n) -> fin T (need_in i t m) Q.
Proof.
  intros N H G. unfold need_in. eapply f_bind; [apply f_expect; exact N | cbn beta; intros b n [H1 H2]].
  destruct b; [apply H; auto | ]. qb. apply f_give_up; auto.
Qed.
Lemma f_enter {A} T (a : A) (m : K A) Q : fin T m Q -> Q a T -> fin T (enter a m) Q.
Proof. intros H G. unfold enter. qb. destruct a0; cbn [negb]; [exact H | apply f_ret; exact G]. Qed.
Lemma uses_false T n : (n <= T)%nat -> uses T false n.
Proof. intros H. split; [exact H | discriminate]. Qed.
Lemma uses_true T n : (n < T)%nat -> uses T true n.
Proof. intros H. split; [lia | intros _; exact H]. Qed.

Ltac nd := first [apply f_need | apply f_need_in]; [discriminate | | intros; apply uses_false; lia].
Ltac fal := apply f_give_up; apply uses_false; lia.
Ltac tru := apply f_ret; apply uses_true; lia.
Ltac ent := apply f_enter; [ | apply uses_false; lia].

Lemma f_var T : (8 * T + 5 < S F)%nat -> fin T (var_declaration r) (uses T).
Proof.
  intros L. unfold var_declaration. cbv zeta. ent. nd. intros n1 L1.
  apply f_type. intros ty _. destruct (negb (ty =? TK_IDENTIFIER)); [qb; fal | ].
  qb. nd. intros n2 L2. apply f_type. intros ty2 _. destruct (ty2 =? TK_ASSIGNMENT).
  - nd. intros n3 L3. eapply f_bind; [apply f_expression; lia | intros b n4 [H1 H2]].
    destruct b; cbn [negb]; [ | fal]. qb. nd. intros n5 L5. qb. tru.
  - qb. nd. intros n5 L5. qb. tru.
Qed.
Lemma f_return T : (8 * T + 5 < S F)%nat -> fin T (return_statement r) (uses T).
Proof.
  intros L. unfold return_statement. ent. nd. intros n1 L1.
  eapply f_bind; [apply f_expression; lia | intros b n4 [H1 H2]].
  destruct b; cbn [negb]; [ | fal]. qb. nd. intros n5 L5. qb. tru.
Qed.
Lemma f_block_loop T b : (8 * T + 6 < S F)%nat -> fin T (block_loop r b) (fun _ n => (n <= T)%nat).
Proof.
  intros L. unfold block_loop. apply f_type. intros ty _.
  destruct (negb (ty =? TK_CURLY_CLOSE) && negb (ty =? TK_INVALID)).
  - eapply f_bind; [apply (e_stmt F r E); lia | cbn beta; intros ok n [H1 H2]]. destruct ok.
    + specialize (H2 eq_refl). eapply f_weak; [apply (e_block F r E); lia | cbn beta; intros; lia].
    + qb. apply f_give_up. lia.
  - destruct ((ty =? TK_CURLY_CLOSE) && b); [qb; apply f_ret; lia | ].
    destruct b; [qb; apply f_ret; lia | ]. qb. apply f_need; [discriminate | | intros; lia].
    intros n H. qb. apply f_ret. lia.
Qed.
Lemma f_block T : (8 * T + 5 < S F)%nat -> fin T (block r false) (uses T).
Proof.
  intros L. unfold block. ent. nd. intros n1 L1. qb.
  eapply f_weak; [apply (e_block F r E); lia | cbn beta; intros b n H]. split; [lia | intros; lia].
Qed.
Lemma f_if T : (8 * T + 5 < S F)%nat -> fin T (if_statement r) (uses T).
Proof.
  intros L. unfold if_statement. ent. nd. intros n1 L1. nd. intros n2 L2.
  eapply f_bind; [apply f_expression; lia | intros b n3 [H1 H2]].
  destruct b; cbn [negb]; [ | fal]. qb. nd. intros n4 L4. qb.
  eapply f_bind; [apply (e_stmt F r E); lia | cbn beta; intros ok n5 [H3 H4]].
  destruct ok; cbn [negb]; [ | qb; fal]. qb. qb. qb. apply f_type. intros ty _.
  destruct (ty =? TK_ELSE).
  - nd. intros n6 L6. qb. qb. qb. qb.
    eapply f_bind; [apply (e_stmt F r E); lia | cbn beta; intros ok n7 [H5 H6]].
    destruct ok; cbn [negb]; [ | qb; fal]. qb. qb. qb. qb. tru.
  - qb. tru.
Qed.
Lemma f_while T : (8 * T + 5 < S F)%nat -> fin T (while_statement r) (uses T).
Proof.
  intros L. unfold while_statement. qb. ent. qb. nd. intros n1 L1. nd. intros n2 L2.
  eapply f_bind; [apply f_expression; lia | intros b n3 [H1 H2]].
  destruct b; cbn [negb]; [ | qb; fal]. qb. nd. intros n4 L4. qb.
  eapply f_bind; [apply (e_stmt F r E); lia | cbn beta; intros ok n5 [H3 H4]].
  destruct ok; cbn [negb]; [ | qb; fal]. qb. qb. qb. qb. qb. qb. tru.
Qed.
Lemma f_do T : (8 * T + 5 < S F)%nat -> fin T (do_statement r) (uses T).
Proof.
  intros L. unfold do_statement. qb. ent. qb. nd. intros n1 L1. qb.
  eapply f_bind; [apply (e_stmt F r E); lia | cbn beta; intros ok n5 [H3 H4]].
  destruct ok; cbn [negb]; [ | qb; fal]. qb. nd. intros n2 L2. nd. intros n3 L3.
  eapply f_bind; [apply f_expression; lia | intros b n4 [H1 H2]].
  destruct b; cbn [negb]; [ | qb; fal]. nd. intros n6 L6. qb. qb. qb. qb.
  eapply f_weak; [apply f_expect; discriminate | cbn beta; intros b n [G1 G2]]. split; [lia | intros; lia].
Qed.
Lemma f_for T : (8 * T + 5 < S F)%nat -> fin T (for_statement r) (uses T).
Proof.
  intros L. unfold for_statement. ent. qb. nd. intros n1 L1. nd. intros n2 L2.
  eapply f_bind; [apply (e_stmt F r E); lia | cbn beta; intros ok n5 [H3 H4]].
  destruct ok; cbn [negb]; [ | qb; fal]. qb.
  eapply f_bind; [apply f_expression; lia | intros b n4 [H1 H2]].
  destruct b; cbn [negb]; [ | qb; fal]. qb. nd. intros n6 L6.
  eapply f_bind; [apply f_tree; lia | cbn beta; intros x n7 [G1 G2]].
  destruct (is_null x); [qb; fal | ]. nd. intros n8 L8. qb.
  eapply f_bind; [apply (e_stmt F r E); lia | cbn beta; intros ok n9 [H5 H6]].
  destruct ok; cbn [negb]; [ | qb; fal]. qb.
  apply f_qbind; [qgo | intros b3]. destruct (negb b3); [qb; fal | ].
  qb. qb. qb. qb. qb. qb. tru.
Qed.
Lemma f_break T : fin T break_statement (uses T).
Proof.
  unfold break_statement. qb. ent. qb. destruct (find_loop a0) as [[[i x] [ | o os]] | ]; [qb; fal | | qb; fal].
  qb. qb. qb. qb. destruct (find_loop a4) as [[[i' x'] o'] | ]; [ | apply f_ub; discriminate].
  qb. nd. intros n1 L1. nd. intros n2 L2. qb. tru.
Qed.
Lemma f_args T c : (8 * T + 1 < S F)%nat -> fin T (args_body r c) (fun _ n => (n <= T)%nat).
Proof.
  intros L. unfold args_body. cbv zeta. apply (f_type_at T TK_PAREN_CLOSE).
  - intros ty Hty Np.
    destruct (Z.eqb_spec ty TK_INVALID) as [ | Ni]; [apply f_ret; lia | ]. specialize (Hty Ni).
    destruct (ty =? TK_IDENTIFIER).
    + qb. qb. qb. qb. eapply f_bind; [apply f_next | cbn beta; intros _ n ->].
      apply f_type. intros ty2 Hty2. destruct (ty2 =? TK_PAREN_CLOSE); [apply f_ret; lia | ].
      destruct (ty2 =? TK_COMMA).
      * eapply f_bind; [apply f_next | cbn beta; intros _ n ->].
        eapply f_weak; [apply (e_args F r E); lia | cbn beta; intros; lia].
      * qb. eapply f_weak; [apply (e_args F r E); lia | cbn beta; intros; lia].
    + destruct (Z.eqb_spec ty TK_PAREN_CLOSE) as [-> | _]; [contradiction | ]. cbn [negb].
      qb. apply f_ret. lia.
  - intros k Lk C. change (TK_PAREN_CLOSE =? TK_INVALID) with false.
    change (TK_PAREN_CLOSE =? TK_IDENTIFIER) with false. change (TK_PAREN_CLOSE =? TK_PAREN_CLOSE) with true.
    cbn [negb]. unfold kbind, kgets. rewrite C. change (TK_PAREN_CLOSE =? TK_PAREN_CLOSE) with true.
    split; [discriminate | ]. intros a k' H. injection H as _ <-. lia.
Qed.

Lemma f_skip T t m : fin T (skip_or_complain t m) (fun _ n => (n <= T)%nat).
Proof.
  unfold skip_or_complain. apply f_type. intros ty _. destruct (ty =? t).
  - eapply f_weak; [apply f_next | cbn beta; intros; lia].
  - qend.
Qed.
Lemma f_func_rest T i : (8 * T + 5 < F)%nat -> fin T (function_rest r i) (fun _ n => (n <= T)%nat).
Proof.
  intros L. unfold function_rest. cbv zeta. qb. qb. qb. qb. destruct (rev a2) as [ | g l]; [apply f_ub; discriminate | ].
  qb. eapply f_bind; [apply f_skip | cbn beta; intros _ n1 H1]. qb. qb.
  eapply f_bind; [apply (e_args F r E); lia | cbn beta; intros [argc ok] n2 H2].
  qb. qb. qb. qb. qb. qb. qb. qb.
  eapply f_bind; [apply f_skip | cbn beta; intros _ n3 H3].
  eapply f_bind; [apply (e_stmt F r E); lia | cbn beta; intros b n4 [H4 _]].
  qb. qb. qb. qb. qb. qb. qb. qb. qb. qb. qb. apply f_ret. lia.
Qed.
Lemma f_func T b : (8 * T + 2 < S F)%nat ->
  fin T (function_body r b) (fun i n => (n <= T)%nat /\ (i <> None -> (n < T)%nat)).
Proof.
  intros L. unfold function_body. apply f_enter; [ | split; [lia | contradiction]]. qb.
  eapply f_bind; [apply f_expect; discriminate | cbn beta; intros ok n [H1 H2]].
  destruct ok; cbn [negb]; [specialize (H2 eq_refl) | apply f_give_up; split; [lia | contradiction]].
  destruct b.
  - eapply f_weak; [apply f_func_rest; lia | cbn beta; intros; split; [lia | intros; lia]].
  - apply f_type. intros ty _. destruct (ty =? TK_IDENTIFIER).
    + qb. eapply f_bind; [apply f_next | cbn beta; intros _ n2 ->]. qb. qb.
      eapply f_weak; [apply f_func_rest; lia | cbn beta; intros; split; [lia | intros; lia]].
    + qb. apply f_give_up. split; [lia | contradiction].
Qed.

Lemma f_stmt T : (8 * T + 5 < S F)%nat -> fin T (statement_body r) (uses T).
Proof.
  intros L. unfold statement_body. cbv zeta. apply f_qbind; [qgo | intros start]. ent.
  assert (After : forall m, fin T m (uses T) ->
    fin T (b <~ m ;; if b : bool then
      l <~ kgets k_ctx ;; if negb (zlen l =? zlen start) then kub UbAssert else pop_recursion ;~ kret true
      else kret false) (uses T)).
  { intros m H. eapply f_bind; [exact H | intros b n [H1 H2]]. destruct b; [ | apply f_ret; apply uses_false; lia].
    specialize (H2 eq_refl). qb. destruct (negb (zlen a =? zlen start)); [apply f_ub; discriminate | ].
    qb. tru. }
  apply f_toks. intros [ | t ts] Lt.
  { qb. apply f_ret. apply uses_false. lia. }
  cbn [length] in Lt.
  destruct (tk_type t =? TK_INVALID); [qb; apply f_ret; apply uses_false; lia | ].
  destruct (tk_type t =? TK_VAR); [apply f_var; exact L | ].
  destruct (tk_type t =? TK_RETURN); [apply f_return; exact L | ].
  destruct (tk_type t =? TK_CURLY_OPEN); [apply After, f_block; exact L | ].
  destruct (tk_type t =? TK_IF); [apply After, f_if; exact L | ].
  destruct (tk_type t =? TK_WHILE); [apply After, f_while; exact L | ].
  destruct (tk_type t =? TK_DO); [apply After, f_do; exact L | ].
  destruct (tk_type t =? TK_FOR); [apply After, f_for; exact L | ].
  destruct (tk_type t =? TK_BREAK); [apply After, f_break | ].
  destruct ((tk_type t =? TK_FUNCTION) && match ts with n :: _ => tk_type n =? TK_IDENTIFIER | [] => false end).
  - apply After. eapply f_bind; [apply (e_func F r E); lia | cbn beta; intros i n [H1 H2]].
    apply f_ret. split; [lia | ]. destruct i; [intros _; apply H2; discriminate | discriminate].
  - eapply f_bind; [apply f_expression; lia | intros b n [H1 H2]]. destruct b; cbn [negb].
    2:{ apply f_ret. apply uses_false. lia. }
    specialize (H2 eq_refl). qb. qb.
    eapply f_bind; [apply f_expect; discriminate | cbn beta; intros ok n2 [H3 H4]].
    destruct ok; [ | fal]. qb. destruct (negb (zlen a1 =? zlen start)); [apply f_ub; discriminate | ]. qb. tru.
Qed.

Lemma ends_bodies : ends (S F) (bodies r).
Proof.
  constructor; cbn [bodies r_expr r_loop r_postfix r_params r_stmt r_block r_func r_args]; intros.
  - apply f_postfix; assumption.
  - apply f_func; assumption.
  - apply f_args; assumption.
  - apply f_loop; assumption.
  - apply f_parse; assumption.
  - apply f_params; assumption.
  - apply f_stmt; assumption.
  - apply f_block_loop; assumption.
Qed.
End Ends.

Theorem compiler_ends n : ends n (compiler n).
Proof.
  induction n as [ | n IH]; cbn [compiler]; [constructor; intros; lia | apply ends_bodies; exact IH].
Qed.

(** ** More fuel changes nothing *)

Definition same {A} (m m' : K A) : Prop := forall k, m k = Ub UbFuel \/ m' k = m k.
Lemma s_refl {A} (m : K A) : same m m. Proof. intros k. right. reflexivity. Qed.
Lemma s_bind {A B} (m m' : K A) (f f' : A -> K B) : same m m' -> (forall a, same (f a) (f' a)) ->
  same (kbind m f) (kbind m' f').
Proof.
  intros H G k. unfold kbind. destruct (H k) as [E | E]; rewrite E; [left; reflexivity | ].
  destruct (m k) as [[a k1] | u]; [apply G | right; reflexivity].
Qed.

Record sames (r r' : calls) : Prop := {
  s_expr : same (r_expr r) (r_expr r');
  s_loop : forall o v, same (r_loop r o v) (r_loop r' o v);
  s_postfix : forall p v, same (r_postfix r p v) (r_postfix r' p v);
  s_params : same (r_params r) (r_params r');
  s_stmt : same (r_stmt r) (r_stmt r');
  s_block : forall b, same (r_block r b) (r_block r' b);
  s_func : forall b, same (r_func r b) (r_func r' b);
  s_args : forall n, same (r_args r n) (r_args r' n)
}.

Section Same.
Variables r r' : calls.
Hypothesis S : sames r r'.

Lemma s_need t (m m' : K bool) : same m m' -> same (need t m) (need t m').
Proof. intros H. unfold need. apply s_bind; [apply s_refl | intros b]. destruct b; [exact H | apply s_refl]. Qed.
Lemma s_need_in n t (m m' : K bool) : same m m' -> same (need_in n t m) (need_in n t m').
Proof. intros H. unfold need_in. apply s_bind; [apply s_refl | intros b]. destruct b; [exact H | apply s_refl]. Qed.
Lemma s_enter {A} (a : A) (m m' : K A) : same m m' -> same (enter a m) (enter a m').
Proof. intros H. unfold enter. apply s_bind; [apply s_refl | intros b]. destruct (negb b); [apply s_refl | exact H]. Qed.

Ltac ss := repeat match goal with
  | |- same ?m ?m => apply s_refl
  | |- same (kbind _ _) (kbind _ _) => apply s_bind; [ | intros ?]
  | |- same (need _ _) (need _ _) => apply s_need
  | |- same (need_in _ _ _) (need_in _ _ _) => apply s_need_in
  | |- same (enter _ _) (enter _ _) => apply s_enter
  | |- same (r_expr _) _ => apply (s_expr r r' S)
  | |- same (r_loop _ _ _) _ => apply (s_loop r r' S)
  | |- same (r_postfix _ _ _) _ => apply (s_postfix r r' S)
  | |- same (r_params _) _ => apply (s_params r r' S)
  | |- same (r_stmt _) _ => apply (s_stmt r r' S)
  | |- same (r_block _ _) _ => apply (s_block r r' S)
  | |- same (r_func _ _) _ => apply (s_func r r' S)
  | |- same (r_args _ _) _ => apply (s_args r r' S)
  | |- same (if ?b then _ else _) _ => destruct b
  | |- same (match ?x with _ => _ end) _ => destruct x
  end.

Lemma s_parse_call : same (parse_call r) (parse_call r'). Proof. unfold parse_call. ss. Qed.
Lemma s_tree d : same (expression_tree r d) (expression_tree r' d). Proof. unfold expression_tree. ss. Qed.
Lemma s_expression d : same (compile_expression r d) (compile_expression r' d).
Proof. unfold compile_expression. ss. apply s_tree. Qed.
Lemma s_value : same (parse_value r) (parse_value r'). Proof. unfold parse_value. ss. Qed.
Lemma s_func_rest i : same (function_rest r i) (function_rest r' i).
Proof. unfold function_rest. cbv zeta. ss. Qed.
Lemma s_block' b : same (block r b) (block r' b). Proof. unfold block. ss. Qed.

Lemma s_bodies : sames (bodies r) (bodies r').
Proof.
  constructor; cbn [bodies r_expr r_loop r_postfix r_params r_stmt r_block r_func r_args]; intros.
  - unfold parse_body. ss.
  - unfold loop_body. ss. apply s_value.
  - unfold postfix_body. cbv zeta. ss; apply s_parse_call.
  - unfold params_body. ss.
  - unfold statement_body. cbv zeta. ss; try apply s_expression; try apply s_block'.
    + unfold var_declaration. cbv zeta. ss. apply s_expression.
    + unfold return_statement. ss. apply s_expression.
    + unfold if_statement. ss. apply s_expression.
    + unfold while_statement. ss. apply s_expression.
    + unfold do_statement. ss. apply s_expression.
    + unfold for_statement. ss; [apply s_expression | apply s_tree].
  - unfold block_loop. ss.
  - unfold function_body. ss; apply s_func_rest.
  - unfold args_body. cbv zeta. ss.
Qed.
End Same.

Lemma sames_step n : sames (compiler n) (compiler (S n)).
Proof.
  induction n as [ | n IH].
  - constructor; intros; left; reflexivity.
  - change (sames (bodies (compiler n)) (bodies (compiler (S n)))). apply s_bodies. exact IH.
Qed.
Lemma same_trans {A} (a b c : K A) : same a b -> same b c -> same a c.
Proof. intros H G k. destruct (H k) as [E | E]; [left; exact E | ]. destruct (G k) as [F | F]; [left | right]; congruence. Qed.
Lemma sames_trans a b c : sames a b -> sames b c -> sames a c.
Proof.
  intros H G. constructor; intros; eapply same_trans; first [apply H | apply G].
Qed.
Theorem compiler_same n m : (n <= m)%nat -> sames (compiler n) (compiler m).
Proof.
  induction 1 as [ | m L IH]; [constructor; intros; apply s_refl | ].
  apply (sames_trans _ _ _ IH). apply sames_step.
Qed.
