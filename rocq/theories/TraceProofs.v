(** * TraceProofs: which functions the parser compiles while reading an expression

    ParseProofs shows that the parser groups tokens correctly.  The same proof
    is done here with the compiler's steps recorded: each function written in
    an expression is compiled when the parser meets it. *)

From Verif Require Import Base BaseFacts State TokenModel CompModel KFacts ParseSpec ParseProofs.
From Coq Require Import Lia.

(** What the parser reads: a token, or a whole function, for which it makes a
    token. *)
Inductive atom := Tok (t : token) | Lit (ts : list token) (t : token).

Fixpoint atoms (e : expr) : list atom :=
  match e with
  | EAtom t => [Tok t]
  | EFunc ts t => [Lit ts t]
  | EGroup o e c => [Tok o] ++ atoms e ++ [Tok c]
  | EPre o e => [Tok o] ++ atoms e
  | EIncDec e o => atoms e ++ [Tok o]
  | EIndex e o i c => atoms e ++ [Tok o] ++ atoms i ++ [Tok c]
  | EField e d n => atoms e ++ [Tok d; Tok n]
  | ECall e o a c => atoms e ++ [Tok o] ++ args_atoms a ++ [Tok c]
  | EMethod e d n o a c => atoms e ++ [Tok d; Tok n; Tok o] ++ args_atoms a ++ [Tok c]
  | EInfix a o b => atoms a ++ [Tok o] ++ atoms b
  end
with args_atoms (a : args) : list atom :=
  match a with
  | NoArgs => []
  | LastArg e => atoms e
  | Arg e c r => atoms e ++ [Tok c] ++ args_atoms r
  end.

Fixpoint flat (l : list atom) : list token :=
  match l with [] => [] | Tok t :: l => t :: flat l | Lit ts _ :: l => ts ++ flat l end.
Lemma flat_app a b : flat (a ++ b) = flat a ++ flat b.
Proof. induction a as [|[t|ts t] a IH]; cbn [flat app]; [reflexivity|rewrite IH; reflexivity|rewrite IH, app_assoc; reflexivity]. Qed.
Scheme expr_mi2 := Induction for expr Sort Prop with args_mi2 := Induction for args Sort Prop.
Combined Scheme expr_args_mi2 from expr_mi2, args_mi2.
Lemma atoms_text : (forall e, flat (atoms e) = text e) /\ (forall a, flat (args_atoms a) = args_text a).
Proof.
  apply expr_args_mi2; intros; cbn [atoms args_atoms text args_text]; repeat (rewrite flat_app || cbn [flat app]); rewrite ?app_nil_r; congruence.
Qed.

(** The steps of the compiler while it reads: [N] bounds the nesting. *)
Inductive reads (N : nat) : comp -> comp -> list atom -> Prop :=
| reads_nil k : reads N k k []
| reads_rec x k : reads N k (set_k_rec x k) []
| reads_next k t l : k_toks k = t :: l -> reads N k (nxt k) [Tok t]
| reads_func n k i k' ts : (n < N)%nat -> function_body (compiler n) true k = Ok (Some i, k') -> k_toks k = ts ++ k_toks k' ->
    reads N k k' [Lit ts (made TK_FUNCTION (u_to_str i) (s32 (cur_line k')))]
| reads_app a b c s t : reads N a b s -> reads N b c t -> reads N a c (s ++ t).
Lemma reads_toks N k k' s : reads N k k' s -> k_toks k = flat s ++ k_toks k'.
Proof.
  induction 1 as [k|x k|k t l T|n k i k' ts L H T|a b c s t _ IH1 _ IH2]; cbn [flat app]; [reflexivity|reflexivity|rewrite nxt_toks, T; reflexivity|rewrite app_nil_r; exact T|].
  rewrite flat_app, IH1, IH2, app_assoc. reflexivity.
Qed.

(** No call of a parenthesized built-in operator that has operands already, as
    in [(len(x))(y)]: the model takes that as undefined. *)
Definition childless (n : ast) : Prop := match n with ANode _ _ ANull ANull => True | _ => False end.
Fixpoint sane (e : expr) : Prop :=
  match e with
  | EAtom _ | EFunc _ _ => True
  | EGroup _ e _ | EPre _ e | EIncDec e _ | EField e _ _ => sane e
  | EIndex e _ i _ => sane e /\ sane i
  | ECall e _ a _ => sane e /\ args_sane a /\ (bare e && names_fse (tree e) = true -> childless (tree e))%bool
  | EMethod e _ _ _ a _ => sane e /\ args_sane a
  | EInfix a _ b => sane a /\ sane b
  end
with args_sane (a : args) : Prop :=
  match a with
  | NoArgs => True
  | LastArg e => sane e
  | Arg e _ r => sane e /\ args_sane r
  end.
Definition neat (e : expr) : Prop := grouped e /\ sane e.
Definition args_neat (a : args) : Prop := args_grouped a /\ args_sane a.

Inductive tbelow : list token -> list expr -> Prop :=
| TB0 : tbelow [] []
| TB1 o e ops es n : tbelow ops es -> neat e -> rank (tk_type o) n -> leq e n -> higher n ops ->
    tbelow (o :: ops) (e :: es).
Lemma tbelow_len ops es : tbelow ops es -> length ops = length es.
Proof. induction 1; cbn; congruence. Qed.

Fixpoint satoms (ops : list token) (es : list expr) : list atom :=
  match ops, es with
  | o :: ops, e :: es => satoms ops es ++ atoms e ++ [Tok o]
  | _, _ => []
  end.

Lemma reduce_while_sound n t : rank t n ->
  forall ops es e ops' vs, tbelow ops es -> neat e -> above e ops -> leq e n ->
  reduce_while (precedence t) ops (tree e :: map tree es) = Ok (Some (ops', vs)) ->
  exists e' es', vs = tree e' :: map tree es' /\ tbelow ops' es' /\ neat e' /\ leq e' n /\
    higher n ops' /\ satoms ops' es' ++ atoms e' = satoms ops es ++ atoms e.
Proof.
  intros Hn. induction ops as [ | o ops IH]; intros es e ops' vs B G A L H; cbn [reduce_while] in H.
  - injection H as <- <-. exists e, es. destruct G. repeat split; assumption.
  - inversion B as [ | o0 e1 ops0 es1 m B1 G1 R1 L1 H1]; subst.
    destruct (Z.leb_spec (precedence (tk_type o)) (precedence t)) as [Le | Gt].
    + cbn [reduce map bind] in H.
      assert (Hm : (m <= n)%nat) by (apply (rank_order (tk_type o) t); assumption).
      destruct A as (m' & Rm' & Ls). rewrite (rank_fun _ _ _ Rm' R1) in Ls.
      change (ANode o false (tree e1) (tree e)) with (tree (EInfix e1 o e)) in H.
      destruct (IH es1 (EInfix e1 o e) ops' vs) as (e' & es' & Hv & B' & G' & L' & T' & Tx).
      * exact B1.
      * destruct G1, G. split; [|split; assumption]. cbn [grouped]. split; [assumption|]. split; [assumption|]. exists m. repeat split; assumption.
      * unfold above, higher in *. destruct ops as [ | o2 ops2]; [exact I | ].
        destruct H1 as (q & Rq & Lq). exists q. split; [exact Rq | ].
        intros x Hx. cbn [infix_at] in Hx. rewrite (rank_fun _ _ _ Hx R1). exact Lq.
      * intros x Hx. cbn [infix_at] in Hx. rewrite (rank_fun _ _ _ Hx R1). exact Hm.
      * exact H.
      * exists e', es'. destruct G'. repeat split; try assumption. rewrite Tx. cbn [satoms atoms].
        rewrite <- !app_assoc. reflexivity.
    + injection H as <- <-. exists e, (e1 :: es1). destruct G. repeat split; try assumption.
      cbn [higher]. exists m. split; [exact R1 | ].
      destruct (Nat.lt_ge_cases n m) as [X | X]; [exact X | ].
      apply (rank_order (tk_type o) t m n R1 Hn) in X. lia.
Qed.

Lemma reduce_all_sound ops : forall es e vs, tbelow ops es -> neat e -> above e ops ->
  reduce_all ops (tree e :: map tree es) = Ok (Some vs) ->
  exists e', vs = [tree e'] /\ neat e' /\ atoms e' = satoms ops es ++ atoms e.
Proof.
  induction ops as [ | o ops IH]; intros es e vs B G A H; cbn [reduce_all] in H.
  - injection H as <-. inversion B; subst. exists e. repeat split; apply G.
  - inversion B as [ | o0 e1 ops0 es1 m B1 G1 R1 L1 H1]; subst.
    cbn [reduce map bind] in H.
    destruct A as (m' & Rm' & Ls). rewrite (rank_fun _ _ _ Rm' R1) in Ls.
    change (ANode o false (tree e1) (tree e)) with (tree (EInfix e1 o e)) in H.
    destruct (IH es1 (EInfix e1 o e) vs) as (e' & Hv & G' & Tx).
    + exact B1.
    + destruct G1, G. split; [|split; assumption]. cbn [grouped]. split; [assumption|]. split; [assumption|]. exists m. repeat split; assumption.
    + unfold above, higher in *. destruct ops as [ | o2 ops2]; [exact I | ].
      destruct H1 as (q & Rq & Lq). exists q. split; [exact Rq | ].
      intros x Hx. cbn [infix_at] in Hx. rewrite (rank_fun _ _ _ Hx R1). exact Lq.
    + exact H.
    + exists e'. destruct G'. repeat split; try assumption. rewrite Tx. cbn [satoms atoms].
      rewrite <- !app_assoc. reflexivity.
Qed.

(** ** The parser is sound *)

Section Reads.
Variable N : nat.

Definition yields (k : comp) (v : ast) (k' : comp) (pre : list atom) (e : expr) : Prop :=
  neat e /\ tree e = v /\ exists s, atoms e = pre ++ s /\ reads N k k' s.

Record sound (r : calls) : Prop := {
  sd_walks : walks eats r;
  sd_expr : forall k v k', r_expr r k = Ok (v, k') ->
    v = ANull \/ exists e, yields k v k' [] e /\ ender (cur_type k');
  sd_loop : forall ops es k v k', tbelow ops es ->
    r_loop r ops (map tree es) k = Ok (v, k') ->
    v = ANull \/ exists e, yields k v k' (satoms ops es) e /\ ender (cur_type k');
  sd_postfix : forall p e k v k', neat e -> tight e ->
    (bare e = true <-> p = PFirst) ->
    r_postfix r p (tree e) k = Ok (v, k') ->
    v = ANull \/ exists e', yields k v k' (atoms e) e' /\ tight e';
  sd_bad : forall v k v' k', r_postfix r PBad v k = Ok (v', k') -> v' = ANull;
  sd_params : forall k q k', r_params r k = Ok (Some q, k') ->
    exists a c, args_neat a /\ (forall t, param_chain t q = chain t a) /\
      reads N k k' (args_atoms a ++ [Tok c]) /\ tk_type c = TK_PAREN_CLOSE /\
      (cur_type k = TK_PAREN_CLOSE -> a = NoArgs);
  sd_func : forall k i k', r_func r true k = Ok (Some i, k') ->
    exists f l, tk_type f = TK_FUNCTION /\ reads N k k' [Lit (f :: l) (made TK_FUNCTION (u_to_str i) (s32 (cur_line k')))]
}.

Section Sound.
Variable n0 : nat.
Hypothesis HnN : (n0 < N)%nat.
Let r := compiler n0.
Hypothesis S : sound r.

Lemma parse_sound k v k' : parse_body r k = Ok (v, k') ->
  v = ANull \/ exists e, yields k v k' [] e /\ ender (cur_type k').
Proof.
  unfold parse_body. intros H. apply kbind_inv in H. destruct H as (ok & k1 & E & H).
  destruct ok; cbn [negb] in H.
  - apply push_rec_inv in E; [ | reflexivity]. subst k1.
    destruct (sd_loop r S [] [] _ v k' TB0 H) as [Hn | (e & (G & T & s & X & Y) & En)]; [left; exact Hn | right].
    exists e. split; [ | exact En]. split; [exact G | ]. split; [exact T | ]. exists s. split; [assumption|]. exact (reads_app _ _ _ _ _ _ (reads_rec _ _ _) Y).
  - injection H as <- _. left. reflexivity.
Qed.

Lemma loop_end_sound ops es e k v k' : tbelow ops es -> neat e -> above e ops ->
  loop_end ops (tree e :: map tree es) k = Ok (v, k') ->
  v = ANull \/ exists e', neat e' /\ tree e' = v /\ atoms e' = satoms ops es ++ atoms e /\ k' = set_k_rec (k_rec k - 1) k.
Proof.
  unfold loop_end. intros B G A H. apply kbind_inv in H. destruct H as (q & k1 & E & H).
  apply klift_inv in E. destruct E as [E ->]. destruct q as [vs | ].
  - destruct (reduce_all_sound ops es e vs B G A E) as (e' & -> & G' & T).
    apply kbind_inv in H. destruct H as (u & k2 & E2 & H). apply pop_rec_inv in E2. injection H as <- <-.
    right. exists e'. destruct G'. repeat split; try assumption.
  - apply kbind_inv in H. destruct H as (u & k2 & E2 & H). apply give_up_inv in H. left. exact H.
Qed.

Lemma prefix_sound n : forall k l k', prefix_loop n k = Ok (l, k') ->
  reads N k k' (map Tok l) /\ Forall (fun t => prefix_op (tk_type t)) l /\ ~ prefix_op (cur_type k').
Proof.
  induction n as [ | n IH]; intros k l k' H; cbn [prefix_loop] in H; [discriminate | ].
  unfold kbind at 1, kgets in H. destruct (k_toks k) as [ | t ts] eqn:T.
  - injection H as <- <-. split; [constructor | ]. split; [constructor | ].
    unfold cur_type. rewrite T. cbn. intuition discriminate.
  - destruct (is_prefix (tk_type t)) eqn:Pt.
    + apply kbind_inv in H. destruct H as (u & k1 & E & H). rewrite next_tok_run in E. injection E as _ <-.
      apply kbind_inv in H. destruct H as (m & k2 & E & H). injection H as <- <-.
      apply IH in E. destruct E as (E & F & Np).
      split; [exact (reads_app _ _ _ _ _ _ (reads_next _ _ _ _ T) E) | ]. split; [ | exact Np].
      constructor; [apply is_prefix_iff; exact Pt | exact F].
    + injection H as <- <-. split; [constructor | ]. split; [constructor | ].
      unfold cur_type. rewrite T. apply (not_iff _ _ (is_prefix_iff _)). exact Pt.
Qed.

Lemma wrap_atoms l e : atoms (wrap l e) = map Tok l ++ atoms e.
Proof. induction l; cbn; [reflexivity | ]. rewrite IHl. reflexivity. Qed.
Lemma wrap_sane l e : sane e -> sane (wrap l e).
Proof. induction l; cbn; auto. Qed.

Lemma value_sound k v k' : ~ prefix_op (cur_type k) -> parse_value r k = Ok (v, k') ->
  v = ANull \/ exists e, neat e /\ tree e = v /\ bare e = true /\ tight e /\ reads N k k' (atoms e).
Proof.
  intros NP H. unfold parse_value in H. unfold kbind at 1, kgets in H.
  destruct (Z.eqb_spec (cur_type k) TK_PAREN_OPEN) as [Po | Npo].
  - apply kbind_inv in H. destruct H as (u & k1 & E & H). rewrite next_tok_run in E. injection E as _ <-.
    apply kbind_inv in H. destruct H as (w & k2 & E & H).
    destruct (sd_expr r S _ _ _ E) as [-> | (e & (G & T & s & X & Y) & En)].
    + apply kbind_inv in H. destruct H as (u2 & k3 & E2 & H). apply give_up_inv in H. left. exact H.
    + destruct w as [ | wt wr w0 w1]; [left; exfalso; exact (tree_full e (proj1 G) T) | ].
      unfold kbind at 1, kgets in H. destruct (sub_ending (cur_type k2)) eqn:Se; cbn [negb] in H.
      * apply kbind_inv in H. destruct H as (u2 & k3 & E2 & H). rewrite next_tok_run in E2. injection E2 as _ <-.
        injection H as <- <-.
        unfold cur_type in Po, Se. destruct (k_toks k) as [ | o l] eqn:Tk; [discriminate | ].
        destruct (k_toks k2) as [ | c l2] eqn:Tk2; [discriminate | ].
        right. exists (EGroup o e c). unfold neat. cbn [grouped sane tree bare atoms]. destruct G as [G G']. cbn [app] in X. subst s.
        repeat split; try assumption.
        -- apply sub_ending_iff. exact Se.
        -- intros F; exact F.
        -- intros F; exact F.
        -- exact (reads_app _ _ _ _ _ _ (reads_next _ _ _ _ Tk) (reads_app _ _ _ _ _ _ Y (reads_next _ _ _ _ Tk2))).
      * apply kbind_inv in H. destruct H as (u2 & k3 & E2 & H). apply give_up_inv in H. left. exact H.
  - unfold kbind at 1, kgets in H. destruct (k_toks k) as [ | t l] eqn:Tk.
    + apply kbind_inv in H. destruct H as (u2 & k3 & E2 & H). apply give_up_inv in H. left. exact H.
    + destruct (expr_ending (cur_type k)) eqn:Ee.
      * apply kbind_inv in H. destruct H as (u2 & k3 & E2 & H). apply give_up_inv in H. left. exact H.
      * destruct (Z.eqb_spec (cur_type k) TK_FUNCTION) as [Fn | Nf].
        -- apply kbind_inv in H. destruct H as (i & k2 & E & H). destruct i as [i | ].
           ++ unfold kbind at 1, kgets in H. injection H as <- <-.
              destruct (sd_func r S _ _ _ E) as (f & m & Hf & Y).
              right. exists (EFunc (f :: m) (made TK_FUNCTION (u_to_str i) (s32 (cur_line k2)))).
              unfold neat. cbn [grouped sane tree bare atoms]. repeat split; try assumption; try (intros F; exact F).
           ++ apply kbind_inv in H. destruct H as (u2 & k3 & E2 & H). apply give_up_inv in H. left. exact H.
        -- apply kbind_inv in H. destruct H as (u & k1 & E & H). rewrite next_tok_run in E. injection E as _ <-.
           injection H as <- <-. right. exists (EAtom t). unfold neat. cbn [grouped sane tree bare atoms].
           assert (Ct : cur_type k = tk_type t) by (unfold cur_type; rewrite Tk; reflexivity).
           rewrite Ct in *.
           repeat split; try assumption; try (intros F; exact F).
           ++ apply (not_iff _ _ (expr_ending_iff _)). exact Ee.
           ++ exact (reads_next _ _ _ _ Tk).
Qed.

Lemma loop_sound ops es k v k' : tbelow ops es ->
  loop_body r ops (map tree es) k = Ok (v, k') ->
  v = ANull \/ exists e, yields k v k' (satoms ops es) e /\ ender (cur_type k').
Proof.
  intros B H. unfold loop_body in H. unfold kbind at 1, kgets in H.
  destruct (expr_ending (cur_type k)) eqn:Ee.
  - left. apply (ParseProofs.loop_end_early ops (map tree es) k v k'); [ | exact H].
    rewrite map_length. symmetry. apply tbelow_len. exact B.
  - apply kbind_inv in H. destruct H as (pre & k1 & E1 & H). unfold prefixes in E1.
    unfold kbind at 1, kgets in E1. apply prefix_sound in E1. destruct E1 as (T1 & F1 & N1).
    apply kbind_inv in H. destruct H as (w & k2 & E2 & H).
    destruct (value_sound k1 w k2 N1 E2) as [-> | (e0 & G0 & T0 & B0' & Ti0 & X0)];
      [cbn [is_null] in H; injection H as <- _; left; reflexivity | ].
    destruct (is_null w) eqn:Nw; [injection H as <- _; left; reflexivity | ].
    apply kbind_inv in H. destruct H as (v2 & k3 & E3 & H). rewrite <- T0 in E3.
    destruct (sd_postfix r S PFirst e0 k2 v2 k3 G0 Ti0 (conj (fun _ => eq_refl) (fun _ => B0')) E3)
      as [-> | (e1 & (G1 & T1' & s & X1 & Y1) & Ti1)];
      [cbn [is_null] in H; injection H as <- _; left; reflexivity | ].
    destruct (is_null v2) eqn:Nv2; [injection H as <- _; left; reflexivity | ].
    rewrite <- T1', <- wrap_tree in H. set (e := wrap pre e1) in *.
    assert (G : neat e) by (split; [apply wrap_grouped; [exact (proj1 G1) | exact (proj1 Ti1) | exact F1]|apply wrap_sane, G1]).
    assert (Ni : ~ is_infix e) by (apply wrap_infix; exact (proj1 Ti1)).
    assert (Lt : forall n, leq e n /\ lss e n).
    { intros n. split; intros m Hm; exfalso; destruct e; try contradiction; apply Ni; exact I. }
    assert (A : above e ops).
    { unfold above. destruct B as [ | o x ops es n BB GG RR LL HH]; [exact I | ]. exists n. split; [exact RR | apply Lt]. }
    assert (Tx : reads N k k3 (atoms e)).
    { unfold e. rewrite wrap_atoms, X1. exact (reads_app _ _ _ _ _ _ T1 (reads_app _ _ _ _ _ _ X0 Y1)). }
    assert (Done : ender (cur_type k3) ->
      loop_end ops (tree e :: map tree es) k3 = Ok (v, k') ->
      v = ANull \/ exists e, yields k v k' (satoms ops es) e /\ ender (cur_type k')).
    { intros En HL. destruct (loop_end_sound ops es e k3 v k' B G A HL) as [-> | (e' & G' & T' & X' & Y')];
        [left; reflexivity | right].
      exists e'. split; [ | subst k'; exact En].
      split; [exact G' | ]. split; [exact T' | ]. exists (atoms e). split; [exact X' | ]. subst k'. rewrite <- (app_nil_r (atoms e)). exact (reads_app _ _ _ _ _ _ Tx (reads_rec _ _ _)). }
    unfold kbind at 1, kgets in H. cbn [map] in H. destruct (k_toks k3) as [ | o l] eqn:Tk3.
    + apply Done; [ | exact H]. unfold cur_type. rewrite Tk3. left. reflexivity.
    + destruct (expr_ending (tk_type o)) eqn:Eo.
      * apply Done; [ | exact H]. unfold cur_type. rewrite Tk3. apply expr_ending_iff. exact Eo.
      * destruct (Z.eqb_spec (precedence (tk_type o)) (-1)) as [Np | Hp].
        -- apply kbind_inv in H. destruct H as (u2 & k4 & E4 & H). apply give_up_inv in H. left. exact H.
        -- destruct (rank_of _ Hp) as [n Rn].
           apply kbind_inv in H. destruct H as (q & k4 & E4 & H). apply klift_inv in E4. destruct E4 as [E4 ->].
           destruct q as [[ops' vs] | ].
           ++ destruct (reduce_while_sound n (tk_type o) Rn ops es e ops' vs B G A (proj1 (Lt n)) E4)
                as (e' & es' & -> & B' & G' & L' & H' & X').
              apply kbind_inv in H. destruct H as (u & k5 & E5 & H). rewrite next_tok_run in E5. injection E5 as _ <-.
              change (tree e' :: map tree es') with (map tree (e' :: es')) in H.
              destruct (sd_loop r S (o :: ops') (e' :: es') _ v k' (TB1 o e' ops' es' n B' G' Rn L' H') H)
                as [-> | (e2 & (G2 & T2 & s2 & X2 & Y2) & En2)]; [left; reflexivity | right].
              exists e2. split; [ | exact En2]. split; [exact G2 | ]. split; [exact T2 | ].
              exists (atoms e ++ Tok o :: s2). split.
              ** rewrite X2. cbn [satoms]. rewrite (app_assoc (satoms ops' es')), X', <- !app_assoc. reflexivity.
              ** exact (reads_app _ _ _ _ _ _ Tx (reads_app _ _ _ _ _ _ (reads_next _ _ _ _ Tk3) Y2)).
           ++ apply kbind_inv in H. destruct H as (u2 & k4 & E5 & H). apply give_up_inv in H. left. exact H.
Qed.

Lemma params_sound k q k' : params_body r k = Ok (Some q, k') ->
  exists a c, args_neat a /\ (forall t, param_chain t q = chain t a) /\
    reads N k k' (args_atoms a ++ [Tok c]) /\ tk_type c = TK_PAREN_CLOSE /\
    (cur_type k = TK_PAREN_CLOSE -> a = NoArgs).
Proof.
  intros H. unfold params_body in H. unfold kbind at 1, kgets in H.
  destruct ((cur_type k =? TK_INVALID) || (cur_type k =? TK_PAREN_CLOSE)) eqn:C.
  - apply kbind_inv in H. destruct H as (ok & k1 & E1 & H).
    apply kbind_inv in H. destruct H as (u & k2 & E2 & H). destruct ok; [ | discriminate].
    injection H as <- <-. apply pop_rec_inv in E2. subst k2.
    apply expect_inv in E1; [ | discriminate | reflexivity]. destruct E1 as (c & l & Tk & Tc & ->).
    exists NoArgs, c. split; [exact (conj I I) | ]. split; [reflexivity | ]. split; [ | split; [exact Tc | reflexivity]].
    exact (reads_app _ _ _ _ _ _ (reads_next _ _ _ _ Tk) (reads_rec _ _ _)).
  - apply orb_false_elim in C. destruct C as [C1 C2]. apply Z.eqb_neq in C1, C2.
    apply kbind_inv in H. destruct H as (p & k1 & E1 & H).
    destruct (sd_expr r S _ _ _ E1) as [-> | (e & (G & T & s & X & Y) & En)].
    + apply kbind_inv in H. destruct H as (u & k2 & E2 & H). apply give_up_inv in H. discriminate.
    + destruct p as [ | pt pr p0 p1]; [exfalso; exact (tree_full e (proj1 G) T) | ].
      cbn [app] in X. subst s.
      unfold kbind at 1, kgets in H. destruct (Z.eqb_spec (cur_type k1) TK_COMMA) as [Cm | Nc].
      * apply kbind_inv in H. destruct H as (u & k2 & E2 & H). rewrite next_tok_run in E2. injection E2 as _ <-.
        apply kbind_inv in H. destruct H as (q' & k3 & E3 & H). destruct q' as [q' | ]; [ | discriminate].
        injection H as <- <-. destruct (sd_params r S _ _ _ E3) as (a & c & Ga & Pa & Xa & Tc & _).
        unfold cur_type in Cm. destruct (k_toks k1) as [ | cm l] eqn:Tk1; [discriminate | ].
        exists (Arg e cm a), c. split; [destruct G, Ga; unfold args_neat; cbn [args_grouped args_sane]; auto | ].
        split; [intros t; cbn [param_chain chain]; rewrite Pa, T; reflexivity | ].
        split; [ | split; [exact Tc | intros F; contradiction]].
        cbn [args_atoms]. rewrite <- !app_assoc. exact (reads_app _ _ _ _ _ _ Y (reads_app _ _ _ _ _ _ (reads_next _ _ _ _ Tk1) Xa)).
      * destruct (Z.eqb_spec (cur_type k1) TK_PAREN_CLOSE) as [Pc | Np].
        -- apply kbind_inv in H. destruct H as (q' & k3 & E3 & H). destruct q' as [q' | ]; [ | discriminate].
           injection H as <- <-. destruct (sd_params r S _ _ _ E3) as (a & c & Ga & Pa & Xa & Tc & Na).
           specialize (Na Pc). subst a. exists (LastArg e), c.
           split; [exact G | ].
           split; [intros t; cbn [param_chain chain]; rewrite Pa, T; reflexivity | ].
           split; [ | split; [exact Tc | intros F; contradiction]].
           exact (reads_app _ _ _ _ _ _ Y Xa).
        -- apply kbind_inv in H. destruct H as (u & k2 & E2 & H). apply give_up_inv in H. discriminate.
Qed.

Lemma call_sound k q k' : parse_call r k = Ok (Some q, k') -> cur_type k = TK_PAREN_OPEN ->
  exists o a c, args_neat a /\ (forall t, param_chain t q = chain t a) /\
    (exists l, k_toks k = o :: l) /\ reads N k k' ([Tok o] ++ args_atoms a ++ [Tok c]) /\ tk_type o = TK_PAREN_OPEN /\ tk_type c = TK_PAREN_CLOSE.
Proof.
  intros H Po. unfold parse_call in H. apply kbind_inv in H. destruct H as (ok & k1 & E1 & H).
  destruct ok; cbn [negb] in H; [ | discriminate].
  apply push_rec_inv in E1; [ | reflexivity]. subst k1.
  apply kbind_inv in H. destruct H as (u & k2 & E2 & H). rewrite next_tok_run in E2. injection E2 as _ <-.
  destruct (sd_params r S _ _ _ H) as (a & c & Ga & Pa & Xa & Tc & _).
  unfold cur_type in Po. destruct (k_toks k) as [ | o l] eqn:Tk; [discriminate | ].
  exists o, a, c. split; [exact Ga|]. split; [exact Pa|]. split; [exists l; reflexivity|]. split; [|split; [exact Po|exact Tc]].
  exact (reads_app _ _ _ _ _ _ (reads_rec _ _ _) (reads_app _ _ _ _ _ _ (reads_next _ (set_k_rec _ k) _ _ Tk) Xa)).
Qed.

Lemma postfix_sound p e k v k' : neat e -> tight e -> (bare e = true <-> p = PFirst) ->
  postfix_body r p (tree e) k = Ok (v, k') ->
  v = ANull \/ exists e', yields k v k' (atoms e) e' /\ tight e'.
Proof.
  intros G Ti Bp H. unfold postfix_body in H. cbv zeta in H. unfold kbind at 1, kgets in H.
  assert (Stop : postfix_end p (tree e) k = Ok (v, k') ->
    v = ANull \/ exists e', yields k v k' (atoms e) e' /\ tight e').
  { intros HS. unfold postfix_end in HS. destruct p; try discriminate;
    (injection HS as <- <-; right; exists e; split; [ | exact Ti];
     split; [exact G | ]; split; [reflexivity | ]; exists []; rewrite app_nil_r; split; [reflexivity|constructor]). }
  assert (Later : (match p with PFirst => PLater | q => q end) <> PFirst) by (destruct p; discriminate).
  set (later := match p with PFirst => PLater | q => q end) in *.
  destruct (k_toks k) as [ | t l] eqn:Tk; [apply Stop; exact H | ].
  destruct (is_postfix (tk_type t)) eqn:Pf; cbn [negb] in H; [ | apply Stop; exact H]. clear Stop.
  (* going on with a longer expression *)
  assert (Go : forall q e1 k1 s, q <> PFirst -> neat e1 -> tight e1 -> bare e1 = false ->
    atoms e1 = atoms e ++ s -> reads N k k1 s ->
    r_postfix r q (tree e1) k1 = Ok (v, k') ->
    v = ANull \/ exists e', yields k v k' (atoms e) e' /\ tight e').
  { intros q e1 k1 s Hq G1 Ti1 B1 X1 Y1 HP.
    destruct (sd_postfix r S q e1 k1 v k' G1 Ti1) as [-> | (e2 & (G2 & T2 & s2 & X2 & Y2) & Ti2)].
    - rewrite B1. split; [discriminate | intros ->; contradiction].
    - exact HP.
    - left. reflexivity.
    - right. exists e2. split; [ | exact Ti2]. split; [exact G2 | ]. split; [exact T2 | ].
      exists (s ++ s2). split; [rewrite X2, X1, app_assoc; reflexivity | ].
      exact (reads_app _ _ _ _ _ _ Y1 Y2). }
  destruct ((tk_type t =? TK_DOT) || (tk_type t =? TK_INDIRECTION)) eqn:Dot.
  - (* . and -> *)
    apply kbind_inv in H. destruct H as (u & k1 & E1 & H). rewrite next_tok_run in E1. injection E1 as _ <-.
    unfold kbind at 1, kgets in H. rewrite nxt_toks, Tk in H. cbn [tl] in H.
    destruct l as [ | i l].
    + apply kbind_inv in H. destruct H as (u2 & k4 & E5 & H). apply give_up_inv in H. left. exact H.
    + destruct (Z.eqb_spec (tk_type i) TK_IDENTIFIER) as [Id | Ni]; cbn [negb] in H.
      2:{ apply kbind_inv in H. destruct H as (u2 & k4 & E5 & H). apply give_up_inv in H. left. exact H. }
      apply kbind_inv in H. destruct H as (ok & k2 & E2 & H).
      assert (K2 : k2 = nxt (nxt k)).
      { unfold expect in E2. unfold kbind at 1, kgets in E2. unfold cur_type in E2.
        rewrite nxt_toks, Tk in E2. cbn [tl] in E2. rewrite Id, Z.eqb_refl in E2. cbn [negb] in E2.
        unfold kbind in E2. rewrite next_tok_run in E2. injection E2 as _ <-. reflexivity. }
      assert (T2 : k_toks k2 = l) by (rewrite K2, !nxt_toks, Tk; reflexivity).
      destruct (Z.eqb_spec (tk_type t) TK_INDIRECTION) as [Ar | Na].
      * unfold kbind at 1, kgets in H. rewrite T2 in H. destruct l as [ | o l].
        -- apply kbind_inv in H. destruct H as (u2 & k4 & E5 & H). apply give_up_inv in H. left. exact H.
        -- destruct (Z.eqb_spec (tk_type o) TK_PAREN_OPEN) as [Po | Npo]; cbn [negb] in H.
           2:{ apply kbind_inv in H. destruct H as (u2 & k4 & E5 & H). apply give_up_inv in H. left. exact H. }
           apply kbind_inv in H. destruct H as (ps & k3 & E3 & H). destruct ps as [ps | ].
           2:{ apply give_up_inv in H. left. exact H. }
           destruct (call_sound _ _ _ E3) as (o' & a & c & Ga & Pa & (lx & Lx) & Xa & _ & Tc).
           { unfold cur_type. rewrite T2. exact Po. }
           rewrite T2 in Lx. injection Lx as <- <-.
           rewrite Pa in H.
           apply (Go later (EMethod e t i o a c) k3 ([Tok t; Tok i; Tok o] ++ args_atoms a ++ [Tok c])); try assumption.
           ++ destruct G, Ga. unfold neat. cbn [grouped sane]. repeat split; try assumption; apply Ti.
           ++ split; intros F; exact F.
           ++ reflexivity.
           ++ reflexivity.
           ++ rewrite K2 in Xa. refine (reads_app _ _ _ _ _ _ (reads_next _ _ _ _ Tk) (reads_app _ _ _ _ _ _ (reads_next _ (nxt k) i (o :: l) _) Xa)). rewrite nxt_toks, Tk. reflexivity.
      * assert (Dt : tk_type t = TK_DOT).
        { rewrite orb_false_r in Dot. apply Z.eqb_eq in Dot. exact Dot. }
        apply (Go later (EField e t i) k2 [Tok t; Tok i]); try assumption.
        -- destruct G as [G G']; try destruct Gi as [Gi Gi']; unfold neat; cbn [grouped sane]. repeat split; try assumption; apply Ti.
        -- split; intros F; exact F.
        -- reflexivity.
        -- reflexivity.
        -- rewrite K2. refine (reads_app _ _ _ _ _ _ (reads_next _ _ _ _ Tk) (reads_next _ (nxt k) i l _)). rewrite nxt_toks, Tk. reflexivity.
  - apply orb_false_elim in Dot. destruct Dot as [Nd Na]. apply Z.eqb_neq in Nd, Na.
    destruct (Z.eqb_spec (tk_type t) TK_BRACKET_OPEN) as [Br | Nb].
    + apply kbind_inv in H. destruct H as (u & k1 & E1 & H). rewrite next_tok_run in E1. injection E1 as _ <-.
      apply kbind_inv in H. destruct H as (i & k2 & E2 & H).
      destruct (sd_expr r S _ _ _ E2) as [-> | (ei & (Gi & Ti' & s & X & Y) & En)].
      * apply kbind_inv in H. destruct H as (u2 & k4 & E5 & H). apply give_up_inv in H. left. exact H.
      * cbn [app] in X. subst s.
        destruct i as [ | it ir i0 i1]; [exfalso; exact (tree_full ei (proj1 Gi) Ti') | ].
        apply kbind_inv in H. destruct H as (ok & k3 & E3 & H). destruct ok; cbn [negb] in H.
        2:{ apply give_up_inv in H. left. exact H. }
        apply expect_inv in E3; [ | discriminate | reflexivity]. destruct E3 as (c & l3 & Tk3 & Tc & ->).
        rewrite <- Ti' in H.
        apply (Go later (EIndex e t ei c) (nxt k2) ([Tok t] ++ atoms ei ++ [Tok c])); try assumption.
        -- destruct G as [G G']; try destruct Gi as [Gi Gi']; unfold neat; cbn [grouped sane]. repeat split; try assumption; apply Ti.
        -- split; intros F; exact F.
        -- reflexivity.
        -- reflexivity.
        -- exact (reads_app _ _ _ _ _ _ (reads_next _ _ _ _ Tk) (reads_app _ _ _ _ _ _ Y (reads_next _ _ _ _ Tk3))).
    + destruct (Z.eqb_spec (tk_type t) TK_PAREN_OPEN) as [Po | Npo].
      * apply kbind_inv in H. destruct H as (ps & k3 & E3 & H). destruct ps as [ps | ].
        2:{ apply give_up_inv in H. left. exact H. }
        destruct (call_sound _ _ _ E3) as (o' & a & c & Ga & Pa & (lx & Lx) & Xa & _ & Tc).
        { unfold cur_type. rewrite Tk. exact Po. }
        rewrite Tk in Lx. injection Lx as <- <-.
        assert (Gc : (bare e && names_fse (tree e) = true -> childless (tree e))%bool -> neat (ECall e t a c)).
        { intro Ch. destruct G, Ga. unfold neat. cbn [grouped sane]. repeat split; try assumption; apply Ti. }
        assert (Tcc : tight (ECall e t a c)) by (split; intros F; exact F).
        destruct (tree e) as [ | vt vr c0 c1] eqn:Te; [exfalso; exact (tree_full e (proj1 G) Te) | ].
        rewrite Pa in H.
        destruct (match p with PFirst => tk_type vt =? TK_FSE | _ => false end) eqn:Cf.
        -- assert (Hp : p = PFirst) by (destruct p; [reflexivity | discriminate | discriminate]). subst p.
           assert (Be : bare e = true) by (apply Bp; reflexivity).
           destruct (negb (is_null c0) || negb (is_null c1)) eqn:Ch.
           { left. eapply (sd_bad r S); exact H. }
           destruct c0; [|discriminate Ch]. destruct c1; [|discriminate Ch].
           apply (Go PLater (ECall e t a c) k3
             ([Tok t] ++ args_atoms a ++ [Tok c])); try assumption.
           ++ apply Gc. intros _. exact I.
           ++ reflexivity.
           ++ cbn [tree]. rewrite Be, Te. cbn [names_fse token_of]. rewrite Cf. cbn [andb]. exact H.
        -- apply (Go later (ECall e t a c) k3 ([Tok t] ++ args_atoms a ++ [Tok c])); try assumption.
           ++ apply Gc. intro Q. exfalso. apply andb_prop in Q. destruct Q as [Q1 Q2]. rewrite (proj1 Bp Q1) in Cf. cbn [names_fse] in Q2. congruence.
           ++ reflexivity.
           ++ reflexivity.
           ++ cbn [tree]. rewrite Te. cbn [names_fse].
              replace (bare e && (tk_type vt =? TK_FSE)) with false; [exact H | ].
              destruct (bare e) eqn:Be; [ | reflexivity].
              rewrite (proj1 Bp eq_refl) in Cf. symmetry. exact Cf.
      * assert (Inc : In (tk_type t) [TK_INCREMENT; TK_DECREMENT]).
        { unfold is_postfix in Pf. apply Z.eqb_neq in Nd, Na, Nb, Npo. rewrite Nd, Na, Nb, Npo in Pf.
          cbn [orb] in Pf. rewrite ?orb_false_r, ?orb_true_iff, ?Z.eqb_eq in Pf.
          destruct Pf as [F | F]; rewrite F; cbn; tauto. }
        apply kbind_inv in H. destruct H as (u & k1 & E1 & H). rewrite next_tok_run in E1. injection E1 as _ <-.
        apply (Go later (EIncDec e t) (nxt k) [Tok t]); try assumption.
        -- destruct G as [G G']; try destruct Gi as [Gi Gi']; unfold neat; cbn [grouped sane]. repeat split; try assumption; apply Ti.
        -- split; intros F; exact F.
        -- reflexivity.
        -- reflexivity.
        -- exact (reads_next _ _ _ _ Tk).
Qed.

Lemma bad_sound v k v' k' : postfix_body r PBad v k = Ok (v', k') -> v' = ANull.
Proof.
  intro H. unfold postfix_body in H. cbv zeta in H. pose proof (sd_bad r S) as B.
  repeat (first [ discriminate H | apply give_up_inv in H; exact H | eapply B; exact H
    | match type of H with
      | kbind _ _ _ = _ => apply kbind_inv in H; destruct H as (? & ? & _ & H)
      | context [match ?x with _ => _ end] => destruct x
      end ]).
Qed.

Lemma func_sound k i k' : function_body r true k = Ok (Some i, k') ->
  exists f l, tk_type f = TK_FUNCTION /\ reads N k k' [Lit (f :: l) (made TK_FUNCTION (u_to_str i) (s32 (cur_line k')))].
Proof.
  intros H. pose proof H as H0. unfold function_body, enter in H. apply kbind_inv in H. destruct H as (ok & k1 & E1 & H).
  destruct ok; cbn [negb] in H; [ | discriminate]. apply push_rec_inv in E1; [ | reflexivity]. subst k1.
  apply kbind_inv in H. destruct H as (id & k2 & E2 & H). apply kvm_inv in E2. destruct E2 as (s & _ & ->).
  apply kbind_inv in H. destruct H as (ok & k3 & E3 & H). destruct ok; cbn [negb] in H.
  2:{ apply give_up_inv in H. discriminate. }
  apply expect_inv in E3; [ | discriminate | reflexivity]. destruct E3 as (f & l & Tk & Tf & ->). ksin Tk.
  pose proof (w_func_rest eats eats_prims r (sd_walks r S) id _ _ _ H) as [m Y].
  rewrite nxt_toks in Y. ksin Y. rewrite Tk in Y. cbn [tl] in Y.
  exists f, m. split; [exact Tf | ]. apply (reads_func N n0); [exact HnN|exact H0|]. rewrite Tk, Y. reflexivity.
Qed.

Lemma bodies_sound : sound (bodies r).
Proof.
  constructor; cbn [bodies r_expr r_loop r_postfix r_params r_func].
  - apply w_bodies; [exact eats_prims | exact (sd_walks r S)].
  - apply parse_sound.
  - apply loop_sound.
  - apply postfix_sound.
  - apply bad_sound.
  - apply params_sound.
  - apply func_sound.
Qed.
End Sound.

Theorem compiler_traced n : (n <= N)%nat -> sound (compiler n).
Proof.
  induction n as [ | n IH]; cbn [compiler]; intro L; [ | apply bodies_sound; [exact L|apply IH; lia]].
  constructor; try (cbn; intros; discriminate). apply (compiler_walks eats eats_prims 0).
Qed.
End Reads.
