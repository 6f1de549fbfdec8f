(** * ParseProofs: the expression parser groups as ParseSpec says *)

From Verif Require Import Base BaseFacts State CompModel KFacts ParseSpec.
From Coq Require Import Lia.

(** ** Precedence levels and tiers *)

Lemma rank_cases t n : rank t n ->
  (n = 0%nat /\ precedence t = 5) \/ (n = 1%nat /\ precedence t = 6) \/ (n = 2%nat /\ precedence t = 8) \/
  (n = 3%nat /\ precedence t = 9) \/ (n = 4%nat /\ precedence t = 13) \/ (n = 5%nat /\ precedence t = 14) \/
  (n = 6%nat /\ precedence t = 15).
Proof.
  intros (l & E & H).
  destruct n as [ | [ | [ | [ | [ | [ | [ | n]]]]]]]; cbn in E; try (destruct n; discriminate);
  injection E as <-; cbn [In] in H;
  repeat match type of H with _ \/ _ => destruct H as [H | H] end; try contradiction; subst t; cbn; intuition.
Qed.

Lemma rank_order a b m n : rank a m -> rank b n -> (precedence a <= precedence b <-> (m <= n)%nat).
Proof.
  intros Ha Hb. apply rank_cases in Ha. apply rank_cases in Hb.
  intuition lia.
Qed.

Lemma rank_fun t m n : rank t m -> rank t n -> m = n.
Proof.
  intros Ha Hb. apply rank_cases in Ha. apply rank_cases in Hb. intuition lia.
Qed.

Lemma rank_of t : precedence t <> -1 -> exists n, rank t n.
Proof.
  unfold precedence. intros H.
  repeat match type of H with
  | (if ?b then _ else _) <> _ => destruct b eqn:?
  end; try (exfalso; apply H; reflexivity);
  repeat match goal with E : (_ || _) = true |- _ => apply orb_prop in E; destruct E as [E | E] end;
  repeat match goal with E : (_ =? _) = true |- _ => apply Z.eqb_eq in E end; subst t;
  solve [ exists 0%nat; eexists; split; [reflexivity | cbn; tauto]
        | exists 1%nat; eexists; split; [reflexivity | cbn; tauto]
        | exists 2%nat; eexists; split; [reflexivity | cbn; tauto]
        | exists 3%nat; eexists; split; [reflexivity | cbn; tauto]
        | exists 4%nat; eexists; split; [reflexivity | cbn; tauto]
        | exists 5%nat; eexists; split; [reflexivity | cbn; tauto]
        | exists 6%nat; eexists; split; [reflexivity | cbn; tauto] ].
Qed.

Lemma rank_prec t n : rank t n -> precedence t <> -1.
Proof. intros H. apply rank_cases in H. intuition lia. Qed.

(** ** Classes of tokens *)

Lemma expr_ending_iff t : expr_ending t = true <-> ender t.
Proof.
  unfold expr_ending, sub_ending, ender. cbn [In]. rewrite !orb_true_iff, !Z.eqb_eq. intuition.
Qed.
Lemma sub_ending_iff t : sub_ending t = true <-> closer t.
Proof.
  unfold sub_ending, closer. cbn [In]. rewrite !orb_true_iff, !Z.eqb_eq. intuition.
Qed.
Lemma is_prefix_iff t : is_prefix t = true <-> prefix_op t.
Proof.
  unfold is_prefix, prefix_op. cbn [In]. rewrite !orb_true_iff, !Z.eqb_eq. intuition.
Qed.
Lemma not_iff b (P : Prop) : (b = true <-> P) -> (b = false <-> ~ P).
Proof. intros H. destruct b; intuition discriminate. Qed.

(** ** Running the primitives *)

(** nkiCompilerNextToken as a function. *)
Definition nxt (k : comp) : comp :=
  match k_toks k with
  | [] => k
  | _ :: r =>
    let k1 := set_k_toks r k in
    match r with
    | [] => k1
    | t :: _ =>
      if negb (s32 (k_line k) =? tk_line t) || negb (k_file k =? tk_file t) then
        let k2 := set_k_pos (u32 (tk_line t)) (tk_file t) (u32 (tk_actual t)) k1 in
        set_k_vm (set_markers
          (v_markers (k_vm k) ++ [mkMk (k_w k) (tk_file t) (u32 (tk_line t)) (u32 (tk_actual t))])
          (k_vm k)) k2
      else k1
    end
  end.
Lemma next_tok_run k : next_tok k = Ok (tt, nxt k).
Proof.
  unfold next_tok, nxt, kbind, kgets, kmod, kret, kvm, modify.
  destruct (k_toks k) as [ | t0 [ | t r]]; [reflexivity | reflexivity | ]. ks.
  destruct (negb (s32 (k_line k) =? tk_line t) || negb (k_file k =? tk_file t)); reflexivity.
Qed.
Lemma nxt_toks k : k_toks (nxt k) = tl (k_toks k).
Proof.
  unfold nxt. destruct (k_toks k) as [ | t0 [ | t r]] eqn:E; [exact E | reflexivity | ].
  destruct (negb (s32 (k_line k) =? tk_line t) || negb (k_file k =? tk_file t)); reflexivity.
Qed.

Lemma push_rec_inv k b k' : push_recursion k = Ok (b, k') ->
  b = true -> k' = set_k_rec (k_rec k + 1) k.
Proof.
  unfold push_recursion, kbind, kgets, kmod, kret. destruct (256 <? k_rec k).
  - destruct (cerror _ k) as [[u k1] | u]; intros H -> ; discriminate.
  - intros H _. injection H as _ <-. reflexivity.
Qed.
Lemma pop_rec_inv k u k' : pop_recursion k = Ok (u, k') -> k' = set_k_rec (k_rec k - 1) k.
Proof.
  unfold pop_recursion, kbind, kgets, kmod, kub. destruct (k_rec k =? 0); intros H; [discriminate | ].
  injection H as _ <-. reflexivity.
Qed.
Lemma give_up_inv {A} (a b : A) k k' : give_up a k = Ok (b, k') -> b = a.
Proof.
  unfold give_up. intros H. apply kbind_inv in H. destruct H as (? & ? & _ & H). injection H as <- _. reflexivity.
Qed.
Lemma cerror_inv m k u k' : cerror m k = Ok (u, k') -> exists s, k' = set_k_vm s k.
Proof.
  unfold cerror, kbind, kgets. intros H. apply kvm_inv in H. destruct H as (s & _ & ->). exists s. reflexivity.
Qed.
Lemma expect_inv t k b k' : expect t k = Ok (b, k') -> t <> TK_INVALID ->
  b = true -> exists x r, k_toks k = x :: r /\ tk_type x = t /\ k' = nxt k.
Proof.
  unfold expect. intros H N ->. apply kbind_inv in H. destruct H as (c & k1 & E & H).
  injection E as <- <-. unfold cur_type in H.
  destruct (k_toks k) as [ | x r] eqn:T.
  - destruct (Z.eqb_spec TK_INVALID t) as [<- | _]; [contradiction | ]. cbn [negb] in H.
    apply kbind_inv in H. destruct H as (? & ? & _ & H).
    apply kbind_inv in H. destruct H as (? & ? & _ & H). discriminate.
  - destruct (Z.eqb_spec (tk_type x) t) as [E | N'].
    + cbn [negb] in H. unfold kbind in H. rewrite next_tok_run in H. injection H as <-.
      exists x, r. repeat split. exact E.
    + cbn [negb] in H. apply kbind_inv in H. destruct H as (? & ? & _ & H).
      apply kbind_inv in H. destruct H as (? & ? & _ & H). discriminate.
Qed.

(** ** What is consumed is a prefix of the tokens *)

Definition eats (k k' : comp) : Prop := exists l, k_toks k = l ++ k_toks k'.
Lemma eats_same k k' : k_toks k' = k_toks k -> eats k k'.
Proof. intros E. exists []. rewrite E. reflexivity. Qed.
Lemma eats_trans a b c : eats a b -> eats b c -> eats a c.
Proof. intros [l E] [m F]. exists (l ++ m). rewrite E, F, app_assoc. reflexivity. Qed.

Lemma eats_prims : prims eats.
Proof.
  constructor; intros; try (apply eats_same; reflexivity).
  - eapply eats_trans; eassumption.
  - intros k a k' H. rewrite next_tok_run in H. injection H as _ <-. exists (firstn 1 (k_toks k)).
    rewrite nxt_toks. destruct (k_toks k); reflexivity.
  - intros k a k' H. apply kvm_inv in H. destruct H as (s & _ & ->). apply eats_same. reflexivity.
  - intros k a k' H. apply kvm_inv in H. destruct H as (s & _ & ->). apply eats_same. reflexivity.
  - intros k a k' H. apply kvm_inv in H. destruct H as (s & _ & ->). apply eats_same. reflexivity.
Qed.

(** ** Stacks of the parser *)

Definition leq (e : expr) (n : nat) : Prop := forall m, infix_at e m -> (m <= n)%nat.
Definition lss (e : expr) (n : nat) : Prop := forall m, infix_at e m -> (m < n)%nat.
Definition above (e : expr) (ops : list token) : Prop :=
  match ops with [] => True | o :: _ => exists n, rank (tk_type o) n /\ lss e n end.
Definition higher (n : nat) (ops : list token) : Prop :=
  match ops with [] => True | o :: _ => exists m, rank (tk_type o) m /\ (n < m)%nat end.

Inductive below : list token -> list expr -> Prop :=
| B0 : below [] []
| B1 o e ops es n : below ops es -> grouped e -> rank (tk_type o) n -> leq e n -> higher n ops ->
    below (o :: ops) (e :: es).

Fixpoint stext (ops : list token) (es : list expr) : list token :=
  match ops, es with
  | o :: ops, e :: es => stext ops es ++ text e ++ [o]
  | _, _ => []
  end.

Lemma below_len ops es : below ops es -> length ops = length es.
Proof. induction 1; cbn; congruence. Qed.

Lemma tree_full e : grouped e -> tree e <> ANull.
Proof.
  induction e; cbn [tree grouped]; intros H; try discriminate.
  - apply IHe. apply H.
  - destruct (bare e && names_fse (tree e)); discriminate.
Qed.

Lemma reduce_while_sound n t : rank t n ->
  forall ops es e ops' vs, below ops es -> grouped e -> above e ops -> leq e n ->
  reduce_while (precedence t) ops (tree e :: map tree es) = Ok (Some (ops', vs)) ->
  exists e' es', vs = tree e' :: map tree es' /\ below ops' es' /\ grouped e' /\ leq e' n /\
    higher n ops' /\ stext ops' es' ++ text e' = stext ops es ++ text e.
Proof.
  intros Hn. induction ops as [ | o ops IH]; intros es e ops' vs B G A L H; cbn [reduce_while] in H.
  - injection H as <- <-. exists e, es. repeat split; assumption.
  - inversion B as [ | o0 e1 ops0 es1 m B1 G1 R1 L1 H1]; subst.
    destruct (Z.leb_spec (precedence (tk_type o)) (precedence t)) as [Le | Gt].
    + cbn [reduce map bind] in H.
      assert (Hm : (m <= n)%nat) by (apply (rank_order (tk_type o) t); assumption).
      destruct A as (m' & Rm' & Ls). rewrite (rank_fun _ _ _ Rm' R1) in Ls.
      change (ANode o false (tree e1) (tree e)) with (tree (EInfix e1 o e)) in H.
      destruct (IH es1 (EInfix e1 o e) ops' vs) as (e' & es' & Hv & B' & G' & L' & T' & Tx).
      * exact B1.
      * cbn [grouped]. split; [exact G1 | ]. split; [exact G | ]. exists m. repeat split; assumption.
      * unfold above, higher in *. destruct ops as [ | o2 ops2]; [exact I | ].
        destruct H1 as (q & Rq & Lq). exists q. split; [exact Rq | ].
        intros x Hx. cbn [infix_at] in Hx. rewrite (rank_fun _ _ _ Hx R1). exact Lq.
      * intros x Hx. cbn [infix_at] in Hx. rewrite (rank_fun _ _ _ Hx R1). exact Hm.
      * exact H.
      * exists e', es'. repeat split; try assumption. rewrite Tx. cbn [stext text].
        rewrite <- !app_assoc. reflexivity.
    + injection H as <- <-. exists e, (e1 :: es1). repeat split; try assumption.
      cbn [higher]. exists m. split; [exact R1 | ].
      destruct (Nat.lt_ge_cases n m) as [X | X]; [exact X | ].
      apply (rank_order (tk_type o) t m n R1 Hn) in X. lia.
Qed.

Lemma reduce_all_sound ops : forall es e vs, below ops es -> grouped e -> above e ops ->
  reduce_all ops (tree e :: map tree es) = Ok (Some vs) ->
  exists e', vs = [tree e'] /\ grouped e' /\ text e' = stext ops es ++ text e.
Proof.
  induction ops as [ | o ops IH]; intros es e vs B G A H; cbn [reduce_all] in H.
  - injection H as <-. inversion B; subst. exists e. repeat split. exact G.
  - inversion B as [ | o0 e1 ops0 es1 m B1 G1 R1 L1 H1]; subst.
    cbn [reduce map bind] in H.
    destruct A as (m' & Rm' & Ls). rewrite (rank_fun _ _ _ Rm' R1) in Ls.
    change (ANode o false (tree e1) (tree e)) with (tree (EInfix e1 o e)) in H.
    destruct (IH es1 (EInfix e1 o e) vs) as (e' & Hv & G' & Tx).
    + exact B1.
    + cbn [grouped]. split; [exact G1 | ]. split; [exact G | ]. exists m. repeat split; assumption.
    + unfold above, higher in *. destruct ops as [ | o2 ops2]; [exact I | ].
      destruct H1 as (q & Rq & Lq). exists q. split; [exact Rq | ].
      intros x Hx. cbn [infix_at] in Hx. rewrite (rank_fun _ _ _ Hx R1). exact Lq.
    + exact H.
    + exists e'. repeat split; try assumption. rewrite Tx. cbn [stext text].
      rewrite <- !app_assoc. reflexivity.
Qed.

Lemma reduce_all_short ops : forall vals vs, length vals = length ops ->
  reduce_all ops vals = Ok (Some vs) -> vs = [].
Proof.
  induction ops as [ | o ops IH]; intros vals vs L H; cbn [reduce_all] in H.
  - injection H as <-. destruct vals; [reflexivity | discriminate].
  - destruct vals as [ | v2 [ | v1 vals]]; cbn [reduce bind] in H; try discriminate.
    apply (IH (ANode o false v1 v2 :: vals)); [ | exact H]. cbn in L |- *. lia.
Qed.

(** ** The parser is sound *)

Definition yields (k : comp) (v : ast) (k' : comp) (pre : list token) (e : expr) : Prop :=
  grouped e /\ tree e = v /\ exists s, text e = pre ++ s /\ k_toks k = s ++ k_toks k'.

Record sound (r : calls) : Prop := {
  sd_walks : walks eats r;
  sd_expr : forall k v k', r_expr r k = Ok (v, k') ->
    v = ANull \/ exists e, yields k v k' [] e /\ ender (cur_type k');
  sd_loop : forall ops es k v k', below ops es ->
    r_loop r ops (map tree es) k = Ok (v, k') ->
    v = ANull \/ exists e, yields k v k' (stext ops es) e /\ ender (cur_type k');
  sd_postfix : forall p e k v k', grouped e -> tight e ->
    (bare e = true <-> p = PFirst) ->
    r_postfix r p (tree e) k = Ok (v, k') ->
    v = ANull \/ exists e', yields k v k' (text e) e' /\ tight e';
  sd_params : forall k q k', r_params r k = Ok (Some q, k') ->
    exists a c, args_grouped a /\ (forall t, param_chain t q = chain t a) /\
      k_toks k = args_text a ++ c :: k_toks k' /\ tk_type c = TK_PAREN_CLOSE /\
      (cur_type k = TK_PAREN_CLOSE -> a = NoArgs);
  sd_func : forall k i k', r_func r true k = Ok (Some i, k') ->
    exists f l, tk_type f = TK_FUNCTION /\ k_toks k = f :: l ++ k_toks k'
}.

Section Sound.
Variable r : calls.
Hypothesis S : sound r.

Lemma tok_split (k : comp) : k_toks k = [] \/ exists t l, k_toks k = t :: l.
Proof. destruct (k_toks k) as [ | t l]; [left; reflexivity | right; exists t, l; reflexivity]. Qed.

Lemma parse_sound k v k' : parse_body r k = Ok (v, k') ->
  v = ANull \/ exists e, yields k v k' [] e /\ ender (cur_type k').
Proof.
  unfold parse_body. intros H. apply kbind_inv in H. destruct H as (ok & k1 & E & H).
  destruct ok; cbn [negb] in H.
  - apply push_rec_inv in E; [ | reflexivity]. subst k1.
    destruct (sd_loop r S [] [] _ v k' B0 H) as [Hn | (e & (G & T & s & X & Y) & En)]; [left; exact Hn | right].
    exists e. split; [ | exact En]. split; [exact G | ]. split; [exact T | ]. exists s. split; assumption.
  - injection H as <- _. left. reflexivity.
Qed.

Lemma loop_end_sound ops es e k v k' : below ops es -> grouped e -> above e ops ->
  loop_end ops (tree e :: map tree es) k = Ok (v, k') ->
  v = ANull \/ exists e', grouped e' /\ tree e' = v /\ text e' = stext ops es ++ text e /\ k_toks k' = k_toks k.
Proof.
  unfold loop_end. intros B G A H. apply kbind_inv in H. destruct H as (q & k1 & E & H).
  apply klift_inv in E. destruct E as [E ->]. destruct q as [vs | ].
  - destruct (reduce_all_sound ops es e vs B G A E) as (e' & -> & G' & T).
    apply kbind_inv in H. destruct H as (u & k2 & E2 & H). apply pop_rec_inv in E2. injection H as <- <-.
    right. exists e'. repeat split; try assumption. subst k2. reflexivity.
  - apply kbind_inv in H. destruct H as (u & k2 & E2 & H). apply give_up_inv in H. left. exact H.
Qed.

Lemma loop_end_early ops vals k v k' : length vals = length ops ->
  loop_end ops vals k = Ok (v, k') -> v = ANull.
Proof.
  unfold loop_end. intros L H. apply kbind_inv in H. destruct H as (q & k1 & E & H).
  apply klift_inv in E. destruct E as [E ->]. destruct q as [vs | ].
  - rewrite (reduce_all_short ops vals vs L E) in H.
    apply kbind_inv in H. destruct H as (u & k2 & E2 & H). apply give_up_inv in H. exact H.
  - apply kbind_inv in H. destruct H as (u & k2 & E2 & H). apply give_up_inv in H. exact H.
Qed.

Lemma prefix_sound n : forall k l k', prefix_loop n k = Ok (l, k') ->
  k_toks k = l ++ k_toks k' /\ Forall (fun t => prefix_op (tk_type t)) l /\ ~ prefix_op (cur_type k').
Proof.
  induction n as [ | n IH]; intros k l k' H; cbn [prefix_loop] in H; [discriminate | ].
  unfold kbind at 1, kgets in H. destruct (k_toks k) as [ | t ts] eqn:T.
  - injection H as <- <-. rewrite T. split; [reflexivity | ]. split; [constructor | ].
    unfold cur_type. rewrite T. cbn. intuition discriminate.
  - destruct (is_prefix (tk_type t)) eqn:Pt.
    + apply kbind_inv in H. destruct H as (u & k1 & E & H). rewrite next_tok_run in E. injection E as _ <-.
      apply kbind_inv in H. destruct H as (m & k2 & E & H). injection H as <- <-.
      apply IH in E. destruct E as (E & F & N). rewrite nxt_toks, T in E. cbn [tl] in E.
      split; [cbn; rewrite E; reflexivity | ]. split; [ | exact N].
      constructor; [apply is_prefix_iff; exact Pt | exact F].
    + injection H as <- <-. rewrite T. split; [reflexivity | ]. split; [constructor | ].
      unfold cur_type. rewrite T. apply (not_iff _ _ (is_prefix_iff _)). exact Pt.
Qed.

Fixpoint wrap (l : list token) (e : expr) : expr :=
  match l with [] => e | t :: l => EPre t (wrap l e) end.
Lemma wrap_tree l e : tree (wrap l e) = wrap_prefix l (tree e).
Proof. induction l; cbn; [reflexivity | ]. rewrite IHl. reflexivity. Qed.
Lemma wrap_text l e : text (wrap l e) = l ++ text e.
Proof. induction l; cbn; [reflexivity | ]. rewrite IHl. reflexivity. Qed.
Lemma wrap_infix l e : ~ is_infix e -> ~ is_infix (wrap l e).
Proof. destruct l; cbn; auto. Qed.
Lemma wrap_grouped l e : grouped e -> ~ is_infix e ->
  Forall (fun t => prefix_op (tk_type t)) l -> grouped (wrap l e).
Proof.
  intros G N. induction 1; cbn [wrap grouped]; [exact G | ].
  split; [assumption | ]. split; [assumption | ]. apply wrap_infix. exact N.
Qed.

Lemma value_sound k v k' : ~ prefix_op (cur_type k) -> parse_value r k = Ok (v, k') ->
  v = ANull \/ exists e, grouped e /\ tree e = v /\ bare e = true /\ tight e /\ k_toks k = text e ++ k_toks k'.
Proof.
  intros NP H. unfold parse_value in H. unfold kbind at 1, kgets in H.
  destruct (Z.eqb_spec (cur_type k) TK_PAREN_OPEN) as [Po | Npo].
  - apply kbind_inv in H. destruct H as (u & k1 & E & H). rewrite next_tok_run in E. injection E as _ <-.
    apply kbind_inv in H. destruct H as (w & k2 & E & H).
    destruct (sd_expr r S _ _ _ E) as [-> | (e & (G & T & s & X & Y) & En)].
    + apply kbind_inv in H. destruct H as (u2 & k3 & E2 & H). apply give_up_inv in H. left. exact H.
    + destruct w as [ | wt wr w0 w1]; [left; exfalso; exact (tree_full e G T) | ].
      unfold kbind at 1, kgets in H. destruct (sub_ending (cur_type k2)) eqn:Se; cbn [negb] in H.
      * apply kbind_inv in H. destruct H as (u2 & k3 & E2 & H). rewrite next_tok_run in E2. injection E2 as _ <-.
        injection H as <- <-.
        unfold cur_type in Po, Se. destruct (k_toks k) as [ | o l] eqn:Tk; [discriminate | ].
        destruct (k_toks k2) as [ | c l2] eqn:Tk2; [discriminate | ].
        rewrite nxt_toks, Tk in Y. cbn [tl] in Y.
        right. exists (EGroup o e c). cbn [grouped tree bare text]. cbn [app] in X. subst s.
        repeat split; try assumption.
        -- apply sub_ending_iff. exact Se.
        -- intros F; exact F.
        -- intros F; exact F.
        -- rewrite nxt_toks, Tk2. cbn [tl]. rewrite Y. cbn [app]. rewrite <- app_assoc. reflexivity.
      * apply kbind_inv in H. destruct H as (u2 & k3 & E2 & H). apply give_up_inv in H. left. exact H.
  - unfold kbind at 1, kgets in H. destruct (k_toks k) as [ | t l] eqn:Tk.
    + apply kbind_inv in H. destruct H as (u2 & k3 & E2 & H). apply give_up_inv in H. left. exact H.
    + destruct (expr_ending (cur_type k)) eqn:Ee.
      * apply kbind_inv in H. destruct H as (u2 & k3 & E2 & H). apply give_up_inv in H. left. exact H.
      * destruct (Z.eqb_spec (cur_type k) TK_FUNCTION) as [Fn | Nf].
        -- apply kbind_inv in H. destruct H as (i & k2 & E & H). destruct i as [i | ].
           ++ unfold kbind at 1, kgets in H. injection H as <- <-.
              destruct (sd_func r S _ _ _ E) as (f & m & Hf & Y).
              right. exists (EFunc (f :: m) (made TK_FUNCTION (u_to_str i) (s32 (cur_line k2)))).
              cbn [grouped tree bare text]. repeat split; try assumption; try (intros F; exact F).
              rewrite <- Tk, Y. reflexivity.
           ++ apply kbind_inv in H. destruct H as (u2 & k3 & E2 & H). apply give_up_inv in H. left. exact H.
        -- apply kbind_inv in H. destruct H as (u & k1 & E & H). rewrite next_tok_run in E. injection E as _ <-.
           injection H as <- <-. right. exists (EAtom t). cbn [grouped tree bare text].
           assert (Ct : cur_type k = tk_type t) by (unfold cur_type; rewrite Tk; reflexivity).
           rewrite Ct in *.
           repeat split; try assumption; try (intros F; exact F).
           ++ apply (not_iff _ _ (expr_ending_iff _)). exact Ee.
           ++ rewrite nxt_toks, Tk. reflexivity.
Qed.

Lemma loop_sound ops es k v k' : below ops es ->
  loop_body r ops (map tree es) k = Ok (v, k') ->
  v = ANull \/ exists e, yields k v k' (stext ops es) e /\ ender (cur_type k').
Proof.
  intros B H. unfold loop_body in H. unfold kbind at 1, kgets in H.
  destruct (expr_ending (cur_type k)) eqn:Ee.
  - left. apply (loop_end_early ops (map tree es) k v k'); [ | exact H].
    rewrite map_length. symmetry. apply below_len. exact B.
  - apply kbind_inv in H. destruct H as (pre & k1 & E1 & H). unfold prefixes in E1.
    unfold kbind at 1, kgets in E1. apply prefix_sound in E1. destruct E1 as (T1 & F1 & N1).
    apply kbind_inv in H. destruct H as (w & k2 & E2 & H).
    destruct (value_sound k1 w k2 N1 E2) as [-> | (e0 & G0 & T0 & B0' & Ti0 & X0)];
      [cbn [is_null] in H; injection H as <- _; left; reflexivity | ].
    destruct (is_null w) eqn:Nw; [injection H as <- _; left; reflexivity | ].
    apply kbind_inv in H. destruct H as (v2 & k3 & E3 & H). rewrite <- T0 in E3.
    destruct (sd_postfix r S PFirst e0 k2 v2 k3 G0 Ti0 (conj (fun _ => eq_refl) (fun _ => B0')) E3)
      as [-> | (e1 & (G1 & T1' & s & X1 & Y1) & Ti1)];
      [cbn [is_null] in H; injection H as <- _; left; reflexivity | ].
    destruct (is_null v2) eqn:Nv2; [injection H as <- _; left; reflexivity | ].
    rewrite <- T1', <- wrap_tree in H. set (e := wrap pre e1) in *.
    assert (G : grouped e) by (apply wrap_grouped; [exact G1 | exact (proj1 Ti1) | exact F1]).
    assert (Ni : ~ is_infix e) by (apply wrap_infix; exact (proj1 Ti1)).
    assert (Lt : forall n, leq e n /\ lss e n).
    { intros n. split; intros m Hm; exfalso; destruct e; try contradiction; apply Ni; exact I. }
    assert (A : above e ops).
    { unfold above. destruct B as [ | o x ops es n BB GG RR LL HH]; [exact I | ]. exists n. split; [exact RR | apply Lt]. }
    assert (Tx : k_toks k = text e ++ k_toks k3).
    { unfold e. rewrite wrap_text, T1, X0, Y1, X1, <- !app_assoc. reflexivity. }
    assert (Done : ender (cur_type k3) ->
      loop_end ops (tree e :: map tree es) k3 = Ok (v, k') ->
      v = ANull \/ exists e, yields k v k' (stext ops es) e /\ ender (cur_type k')).
    { intros En HL. destruct (loop_end_sound ops es e k3 v k' B G A HL) as [-> | (e' & G' & T' & X' & Y')];
        [left; reflexivity | right].
      exists e'. split; [ | unfold cur_type in *; rewrite Y'; exact En].
      split; [exact G' | ]. split; [exact T' | ]. exists (text e). split; [exact X' | ]. rewrite Y'. exact Tx. }
    unfold kbind at 1, kgets in H. cbn [map] in H. destruct (k_toks k3) as [ | o l] eqn:Tk3.
    + apply Done; [ | exact H]. unfold cur_type. rewrite Tk3. left. reflexivity.
    + destruct (expr_ending (tk_type o)) eqn:Eo.
      * apply Done; [ | exact H]. unfold cur_type. rewrite Tk3. apply expr_ending_iff. exact Eo.
      * destruct (Z.eqb_spec (precedence (tk_type o)) (-1)) as [Np | Hp].
        -- apply kbind_inv in H. destruct H as (u2 & k4 & E4 & H). apply give_up_inv in H. left. exact H.
        -- destruct (rank_of _ Hp) as [n Rn].
           apply kbind_inv in H. destruct H as (q & k4 & E4 & H). apply klift_inv in E4. destruct E4 as [E4 ->].
           destruct q as [[ops' vs] | ].
           ++ destruct (reduce_while_sound n (tk_type o) Rn ops es e ops' vs B G A (proj1 (Lt n)) E4)
                as (e' & es' & -> & B' & G' & L' & H' & X').
              apply kbind_inv in H. destruct H as (u & k5 & E5 & H). rewrite next_tok_run in E5. injection E5 as _ <-.
              change (tree e' :: map tree es') with (map tree (e' :: es')) in H.
              destruct (sd_loop r S (o :: ops') (e' :: es') _ v k' (B1 o e' ops' es' n B' G' Rn L' H') H)
                as [-> | (e2 & (G2 & T2 & s2 & X2 & Y2) & En2)]; [left; reflexivity | right].
              exists e2. split; [ | exact En2]. split; [exact G2 | ]. split; [exact T2 | ].
              exists (text e ++ o :: s2). split.
              ** rewrite X2. cbn [stext]. rewrite (app_assoc (stext ops' es')), X', <- !app_assoc. reflexivity.
              ** rewrite Tx, <- app_assoc. f_equal. cbn [app]. f_equal.
                 rewrite nxt_toks, Tk3 in Y2. exact Y2.
           ++ apply kbind_inv in H. destruct H as (u2 & k4 & E5 & H). apply give_up_inv in H. left. exact H.
Qed.

Lemma params_sound k q k' : params_body r k = Ok (Some q, k') ->
  exists a c, args_grouped a /\ (forall t, param_chain t q = chain t a) /\
    k_toks k = args_text a ++ c :: k_toks k' /\ tk_type c = TK_PAREN_CLOSE /\
    (cur_type k = TK_PAREN_CLOSE -> a = NoArgs).
Proof.
  intros H. unfold params_body in H. unfold kbind at 1, kgets in H.
  destruct ((cur_type k =? TK_INVALID) || (cur_type k =? TK_PAREN_CLOSE)) eqn:C.
  - apply kbind_inv in H. destruct H as (ok & k1 & E1 & H).
    apply kbind_inv in H. destruct H as (u & k2 & E2 & H). destruct ok; [ | discriminate].
    injection H as <- <-. apply pop_rec_inv in E2. subst k2.
    apply expect_inv in E1; [ | discriminate | reflexivity]. destruct E1 as (c & l & Tk & Tc & ->).
    exists NoArgs, c. split; [exact I | ]. split; [reflexivity | ]. split; [ | split; [exact Tc | reflexivity]].
    ks. rewrite nxt_toks, Tk. reflexivity.
  - apply orb_false_elim in C. destruct C as [C1 C2]. apply Z.eqb_neq in C1, C2.
    apply kbind_inv in H. destruct H as (p & k1 & E1 & H).
    destruct (sd_expr r S _ _ _ E1) as [-> | (e & (G & T & s & X & Y) & En)].
    + apply kbind_inv in H. destruct H as (u & k2 & E2 & H). apply give_up_inv in H. discriminate.
    + destruct p as [ | pt pr p0 p1]; [exfalso; exact (tree_full e G T) | ].
      cbn [app] in X. subst s.
      unfold kbind at 1, kgets in H. destruct (Z.eqb_spec (cur_type k1) TK_COMMA) as [Cm | Nc].
      * apply kbind_inv in H. destruct H as (u & k2 & E2 & H). rewrite next_tok_run in E2. injection E2 as _ <-.
        apply kbind_inv in H. destruct H as (q' & k3 & E3 & H). destruct q' as [q' | ]; [ | discriminate].
        injection H as <- <-. destruct (sd_params r S _ _ _ E3) as (a & c & Ga & Pa & Xa & Tc & _).
        unfold cur_type in Cm. destruct (k_toks k1) as [ | cm l] eqn:Tk1; [discriminate | ].
        rewrite nxt_toks, Tk1 in Xa. cbn [tl] in Xa.
        exists (Arg e cm a), c. split; [cbn [args_grouped]; auto | ].
        split; [intros t; cbn [param_chain chain]; rewrite Pa, T; reflexivity | ].
        split; [ | split; [exact Tc | intros F; contradiction]].
        rewrite Y, Xa. cbn [args_text]. rewrite <- !app_assoc. reflexivity.
      * destruct (Z.eqb_spec (cur_type k1) TK_PAREN_CLOSE) as [Pc | Np].
        -- apply kbind_inv in H. destruct H as (q' & k3 & E3 & H). destruct q' as [q' | ]; [ | discriminate].
           injection H as <- <-. destruct (sd_params r S _ _ _ E3) as (a & c & Ga & Pa & Xa & Tc & Na).
           specialize (Na Pc). subst a. exists (LastArg e), c.
           split; [exact G | ].
           split; [intros t; cbn [param_chain chain]; rewrite Pa, T; reflexivity | ].
           split; [ | split; [exact Tc | intros F; contradiction]].
           rewrite Y, Xa. reflexivity.
        -- apply kbind_inv in H. destruct H as (u & k2 & E2 & H). apply give_up_inv in H. discriminate.
Qed.

Lemma call_sound k q k' : parse_call r k = Ok (Some q, k') -> cur_type k = TK_PAREN_OPEN ->
  exists o a c, args_grouped a /\ (forall t, param_chain t q = chain t a) /\
    k_toks k = o :: args_text a ++ c :: k_toks k' /\ tk_type o = TK_PAREN_OPEN /\ tk_type c = TK_PAREN_CLOSE.
Proof.
  intros H Po. unfold parse_call in H. apply kbind_inv in H. destruct H as (ok & k1 & E1 & H).
  destruct ok; cbn [negb] in H; [ | discriminate].
  apply push_rec_inv in E1; [ | reflexivity]. subst k1.
  apply kbind_inv in H. destruct H as (u & k2 & E2 & H). rewrite next_tok_run in E2. injection E2 as _ <-.
  destruct (sd_params r S _ _ _ H) as (a & c & Ga & Pa & Xa & Tc & _).
  rewrite nxt_toks in Xa. ksin Xa.
  unfold cur_type in Po. destruct (k_toks k) as [ | o l] eqn:Tk; [discriminate | ]. cbn [tl] in Xa.
  exists o, a, c. repeat split; try assumption. rewrite Xa. reflexivity.
Qed.

Lemma postfix_sound p e k v k' : grouped e -> tight e -> (bare e = true <-> p = PFirst) ->
  postfix_body r p (tree e) k = Ok (v, k') ->
  v = ANull \/ exists e', yields k v k' (text e) e' /\ tight e'.
Proof.
  intros G Ti Bp H. unfold postfix_body in H. cbv zeta in H. unfold kbind at 1, kgets in H.
  assert (Stop : postfix_end p (tree e) k = Ok (v, k') ->
    v = ANull \/ exists e', yields k v k' (text e) e' /\ tight e').
  { intros HS. unfold postfix_end in HS. destruct p; try discriminate;
    (injection HS as <- <-; right; exists e; split; [ | exact Ti];
     split; [exact G | ]; split; [reflexivity | ]; exists []; rewrite app_nil_r; split; reflexivity). }
  assert (Later : (match p with PFirst => PLater | q => q end) <> PFirst) by (destruct p; discriminate).
  set (later := match p with PFirst => PLater | q => q end) in *.
  destruct (k_toks k) as [ | t l] eqn:Tk; [apply Stop; exact H | ].
  destruct (is_postfix (tk_type t)) eqn:Pf; cbn [negb] in H; [ | apply Stop; exact H]. clear Stop.
  (* going on with a longer expression *)
  assert (Go : forall q e1 k1 s, q <> PFirst -> grouped e1 -> tight e1 -> bare e1 = false ->
    text e1 = text e ++ s -> k_toks k = s ++ k_toks k1 ->
    r_postfix r q (tree e1) k1 = Ok (v, k') ->
    v = ANull \/ exists e', yields k v k' (text e) e' /\ tight e').
  { intros q e1 k1 s Hq G1 Ti1 B1 X1 Y1 HP.
    destruct (sd_postfix r S q e1 k1 v k' G1 Ti1) as [-> | (e2 & (G2 & T2 & s2 & X2 & Y2) & Ti2)].
    - rewrite B1. split; [discriminate | intros ->; contradiction].
    - exact HP.
    - left. reflexivity.
    - right. exists e2. split; [ | exact Ti2]. split; [exact G2 | ]. split; [exact T2 | ].
      exists (s ++ s2). split; [rewrite X2, X1, app_assoc; reflexivity | ].
      rewrite Y1, Y2, app_assoc. reflexivity. }
  destruct ((tk_type t =? TK_DOT) || (tk_type t =? TK_INDIRECTION)) eqn:Dot.
  - (* . and -> *)
    apply kbind_inv in H. destruct H as (u & k1 & E1 & H). rewrite next_tok_run in E1. injection E1 as _ <-.
    unfold kbind at 1, kgets in H. rewrite nxt_toks, Tk in H. cbn [tl] in H.
    destruct l as [ | i l].
    + apply kbind_inv in H. destruct H as (u2 & k4 & E5 & H). apply give_up_inv in H. left. exact H.
    + destruct (Z.eqb_spec (tk_type i) TK_IDENTIFIER) as [Id | Ni]; cbn [negb] in H.
      2:{ apply kbind_inv in H. destruct H as (u2 & k4 & E5 & H). apply give_up_inv in H. left. exact H. }
      apply kbind_inv in H. destruct H as (ok & k2 & E2 & H).
      assert (K2 : k2 = nxt (nxt k)).
      { unfold expect in E2. unfold kbind at 1, kgets in E2. unfold cur_type in E2.
        rewrite nxt_toks, Tk in E2. cbn [tl] in E2. rewrite Id, Z.eqb_refl in E2. cbn [negb] in E2.
        unfold kbind in E2. rewrite next_tok_run in E2. injection E2 as _ <-. reflexivity. }
      assert (T2 : k_toks k2 = l) by (rewrite K2, !nxt_toks, Tk; reflexivity).
      destruct (Z.eqb_spec (tk_type t) TK_INDIRECTION) as [Ar | Na].
      * unfold kbind at 1, kgets in H. rewrite T2 in H. destruct l as [ | o l].
        -- apply kbind_inv in H. destruct H as (u2 & k4 & E5 & H). apply give_up_inv in H. left. exact H.
        -- destruct (Z.eqb_spec (tk_type o) TK_PAREN_OPEN) as [Po | Npo]; cbn [negb] in H.
           2:{ apply kbind_inv in H. destruct H as (u2 & k4 & E5 & H). apply give_up_inv in H. left. exact H. }
           apply kbind_inv in H. destruct H as (ps & k3 & E3 & H). destruct ps as [ps | ].
           2:{ apply give_up_inv in H. left. exact H. }
           destruct (call_sound _ _ _ E3) as (o' & a & c & Ga & Pa & Xa & _ & Tc).
           { unfold cur_type. rewrite T2. exact Po. }
           rewrite T2 in Xa. injection Xa as <- Xa.
           rewrite Pa in H.
           apply (Go later (EMethod e t i o a c) k3 ([t; i; o] ++ args_text a ++ [c])); try assumption.
           ++ cbn [grouped]. repeat split; try assumption; apply Ti.
           ++ split; intros F; exact F.
           ++ reflexivity.
           ++ reflexivity.
           ++ cbn [app]. rewrite Tk, Xa, <- app_assoc. reflexivity.
      * assert (Dt : tk_type t = TK_DOT).
        { rewrite orb_false_r in Dot. apply Z.eqb_eq in Dot. exact Dot. }
        apply (Go later (EField e t i) k2 [t; i]); try assumption.
        -- cbn [grouped]. repeat split; try assumption; apply Ti.
        -- split; intros F; exact F.
        -- reflexivity.
        -- reflexivity.
        -- rewrite Tk, T2. reflexivity.
  - apply orb_false_elim in Dot. destruct Dot as [Nd Na]. apply Z.eqb_neq in Nd, Na.
    destruct (Z.eqb_spec (tk_type t) TK_BRACKET_OPEN) as [Br | Nb].
    + apply kbind_inv in H. destruct H as (u & k1 & E1 & H). rewrite next_tok_run in E1. injection E1 as _ <-.
      apply kbind_inv in H. destruct H as (i & k2 & E2 & H).
      destruct (sd_expr r S _ _ _ E2) as [-> | (ei & (Gi & Ti' & s & X & Y) & En)].
      * apply kbind_inv in H. destruct H as (u2 & k4 & E5 & H). apply give_up_inv in H. left. exact H.
      * cbn [app] in X. subst s. rewrite nxt_toks, Tk in Y. cbn [tl] in Y.
        destruct i as [ | it ir i0 i1]; [exfalso; exact (tree_full ei Gi Ti') | ].
        apply kbind_inv in H. destruct H as (ok & k3 & E3 & H). destruct ok; cbn [negb] in H.
        2:{ apply give_up_inv in H. left. exact H. }
        apply expect_inv in E3; [ | discriminate | reflexivity]. destruct E3 as (c & l3 & Tk3 & Tc & ->).
        rewrite <- Ti' in H.
        apply (Go later (EIndex e t ei c) (nxt k2) ([t] ++ text ei ++ [c])); try assumption.
        -- cbn [grouped]. repeat split; try assumption; apply Ti.
        -- split; intros F; exact F.
        -- reflexivity.
        -- reflexivity.
        -- rewrite nxt_toks, Tk3. cbn [tl app]. rewrite Tk, Y, Tk3, <- app_assoc. reflexivity.
    + destruct (Z.eqb_spec (tk_type t) TK_PAREN_OPEN) as [Po | Npo].
      * apply kbind_inv in H. destruct H as (ps & k3 & E3 & H). destruct ps as [ps | ].
        2:{ apply give_up_inv in H. left. exact H. }
        destruct (call_sound _ _ _ E3) as (o' & a & c & Ga & Pa & Xa & _ & Tc).
        { unfold cur_type. rewrite Tk. exact Po. }
        rewrite Tk in Xa. injection Xa as <- Xa.
        assert (Gc : grouped (ECall e t a c)) by (cbn [grouped]; repeat split; try assumption; apply Ti).
        assert (Tcc : tight (ECall e t a c)) by (split; intros F; exact F).
        assert (Yc : k_toks k = ([t] ++ args_text a ++ [c]) ++ k_toks k3).
        { cbn [app]. rewrite Tk, Xa, <- app_assoc. reflexivity. }
        destruct (tree e) as [ | vt vr c0 c1] eqn:Te; [exfalso; exact (tree_full e G Te) | ].
        rewrite Pa in H.
        destruct (match p with PFirst => tk_type vt =? TK_FSE | _ => false end) eqn:Cf.
        -- assert (Hp : p = PFirst) by (destruct p; [reflexivity | discriminate | discriminate]). subst p.
           assert (Be : bare e = true) by (apply Bp; reflexivity).
           apply (Go (if negb (is_null c0) || negb (is_null c1) then PBad else PLater) (ECall e t a c) k3
             ([t] ++ args_text a ++ [c])); try assumption.
           ++ destruct (negb (is_null c0) || negb (is_null c1)); discriminate.
           ++ reflexivity.
           ++ reflexivity.
           ++ cbn [tree]. rewrite Be, Te. cbn [names_fse token_of]. rewrite Cf. cbn [andb]. exact H.
        -- apply (Go later (ECall e t a c) k3 ([t] ++ args_text a ++ [c])); try assumption.
           ++ reflexivity.
           ++ reflexivity.
           ++ cbn [tree]. rewrite Te. cbn [names_fse].
              replace (bare e && (tk_type vt =? TK_FSE)) with false; [exact H | ].
              destruct (bare e) eqn:Be; [ | reflexivity].
              rewrite (proj1 Bp eq_refl) in Cf. symmetry. exact Cf.
      * assert (Inc : In (tk_type t) [TK_INCREMENT; TK_DECREMENT]).
        { unfold is_postfix in Pf. apply Z.eqb_neq in Nd, Na, Nb, Npo. rewrite Nd, Na, Nb, Npo in Pf.
          cbn [orb] in Pf. rewrite ?orb_false_r, ?orb_true_iff, ?Z.eqb_eq in Pf.
          destruct Pf as [F | F]; rewrite F; cbn; tauto. }
        apply kbind_inv in H. destruct H as (u & k1 & E1 & H). rewrite next_tok_run in E1. injection E1 as _ <-.
        apply (Go later (EIncDec e t) (nxt k) [t]); try assumption.
        -- cbn [grouped]. repeat split; try assumption; apply Ti.
        -- split; intros F; exact F.
        -- reflexivity.
        -- reflexivity.
        -- rewrite nxt_toks, Tk. reflexivity.
Qed.

Lemma func_sound k i k' : function_body r true k = Ok (Some i, k') ->
  exists f l, tk_type f = TK_FUNCTION /\ k_toks k = f :: l ++ k_toks k'.
Proof.
  intros H. unfold function_body, enter in H. apply kbind_inv in H. destruct H as (ok & k1 & E1 & H).
  destruct ok; cbn [negb] in H; [ | discriminate]. apply push_rec_inv in E1; [ | reflexivity]. subst k1.
  apply kbind_inv in H. destruct H as (id & k2 & E2 & H). apply kvm_inv in E2. destruct E2 as (s & _ & ->).
  apply kbind_inv in H. destruct H as (ok & k3 & E3 & H). destruct ok; cbn [negb] in H.
  2:{ apply give_up_inv in H. discriminate. }
  apply expect_inv in E3; [ | discriminate | reflexivity]. destruct E3 as (f & l & Tk & Tf & ->). ksin Tk.
  pose proof (w_func_rest eats eats_prims r (sd_walks r S) id _ _ _ H) as [m Y].
  rewrite nxt_toks in Y. ksin Y. rewrite Tk in Y. cbn [tl] in Y.
  exists f, m. split; [exact Tf | ]. rewrite Tk, Y. reflexivity.
Qed.

Lemma bodies_sound : sound (bodies r).
Proof.
  constructor; cbn [bodies r_expr r_loop r_postfix r_params r_func].
  - apply w_bodies; [exact eats_prims | exact (sd_walks r S)].
  - apply parse_sound.
  - apply loop_sound.
  - apply postfix_sound.
  - apply params_sound.
  - apply func_sound.
Qed.
End Sound.

Theorem compiler_sound n : sound (compiler n).
Proof.
  induction n as [ | n IH]; cbn [compiler]; [ | apply bodies_sound; exact IH].
  constructor; try (cbn; intros; discriminate). apply (compiler_walks eats eats_prims 0).
Qed.
