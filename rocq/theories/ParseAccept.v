(** * ParseAccept: every correctly grouped expression is accepted *)

From Verif Require Import Base BaseFacts State CompModel KFacts ParseSpec ParseProofs.
From Coq Require Import Lia.

(** ** For all large enough fuel *)

Definition ev (P : nat -> Prop) : Prop := exists n0, forall n, (n0 <= n)%nat -> P n.
Lemma ev_all (P : nat -> Prop) : (forall n, P n) -> ev P.
Proof. intros H. exists 0%nat. intros n _. apply H. Qed.
Lemma ev_map (P Q : nat -> Prop) : (forall n, P n -> Q n) -> ev P -> ev Q.
Proof. intros H [n0 E]. exists n0. intros n L. apply H. apply E. exact L. Qed.
Lemma ev_map2 (P Q R : nat -> Prop) : (forall n, P n -> Q n -> R n) -> ev P -> ev Q -> ev R.
Proof.
  intros H [n0 E] [n1 F]. exists (n0 + n1)%nat. intros n L. apply H; [apply E | apply F]; lia.
Qed.
Lemma ev_S (P : nat -> Prop) : ev (fun n => P (S n)) -> ev P.
Proof. intros [n0 E]. exists (S n0). intros [ | n] L; [lia | ]. apply E. lia. Qed.

(** ** Skipping a text *)

Fixpoint past (l : list token) (k : comp) : comp :=
  match l with [] => k | _ :: l => past l (nxt k) end.
Lemma past_app a : forall b k, past (a ++ b) k = past b (past a k).
Proof. induction a as [ | t a IH]; intros b k; cbn; [reflexivity | ]. apply IH. Qed.
Lemma past_toks l : forall k rest, k_toks k = l ++ rest -> k_toks (past l k) = rest.
Proof.
  induction l as [ | t l IH]; intros k rest H; cbn; [exact H | ]. apply IH. rewrite nxt_toks, H. reflexivity.
Qed.
Lemma nxt_set_rec x k : nxt (set_k_rec x k) = set_k_rec x (nxt k).
Proof.
  unfold nxt. ks. destruct (k_toks k) as [ | t0 [ | t r]]; try reflexivity.
  destruct (negb (s32 (k_line k) =? tk_line t) || negb (k_file k =? tk_file t)); reflexivity.
Qed.
Lemma nxt_rec k : k_rec (nxt k) = k_rec k.
Proof.
  unfold nxt. destruct (k_toks k) as [ | t0 [ | t r]]; try reflexivity.
  destruct (negb (s32 (k_line k) =? tk_line t) || negb (k_file k =? tk_file t)); reflexivity.
Qed.
Lemma past_set_rec x l : forall k, past l (set_k_rec x k) = set_k_rec x (past l k).
Proof. induction l as [ | t l IH]; intros k; cbn; [reflexivity | ]. rewrite nxt_set_rec. apply IH. Qed.
Lemma past_rec l : forall k, k_rec (past l k) = k_rec k.
Proof. induction l as [ | t l IH]; intros k; cbn; [reflexivity | ]. rewrite IH. apply nxt_rec. Qed.
Lemma set_rec_same x k : k_rec k = x -> set_k_rec x k = k.
Proof. intros <-. destruct k; reflexivity. Qed.
Lemma set_rec_twice x y k : set_k_rec x (set_k_rec y k) = set_k_rec x k.
Proof. destruct k; reflexivity. Qed.
Lemma past_one t k rest : k_toks k = t :: rest -> nxt k = past [t] k.
Proof. reflexivity. Qed.

(** ** Running the primitives *)

Lemma push_rec_run k : k_rec k <= 256 -> push_recursion k = Ok (true, set_k_rec (k_rec k + 1) k).
Proof.
  intros H. unfold push_recursion, kbind, kgets, kmod, kret.
  destruct (Z.ltb_spec 256 (k_rec k)); [lia | ]. reflexivity.
Qed.
Lemma pop_rec_run k : k_rec k <> 0 -> pop_recursion k = Ok (tt, set_k_rec (k_rec k - 1) k).
Proof.
  intros H. unfold pop_recursion, kbind, kgets, kmod, kub.
  destruct (Z.eqb_spec (k_rec k) 0); [contradiction | ]. reflexivity.
Qed.
Lemma expect_run t k x rest : k_toks k = x :: rest -> tk_type x = t -> expect t k = Ok (true, nxt k).
Proof.
  intros T E. unfold expect, kbind, kgets, cur_type. rewrite T, E, Z.eqb_refl. cbn [negb].
  rewrite next_tok_run. reflexivity.
Qed.
Lemma cur_type_run k x rest : k_toks k = x :: rest -> cur_type k = tk_type x.
Proof. intros T. unfold cur_type. rewrite T. reflexivity. Qed.

(** ** Tokens that may follow *)

Definition stops (rest : list token) : Prop :=
  match rest with [] => True | t :: _ => is_postfix (tk_type t) = false end.
Definition finis (rest : list token) : Prop :=
  match rest with [] => True | t :: _ => ender (tk_type t) end.
Lemma finis_stops rest : finis rest -> stops rest.
Proof.
  destruct rest as [ | t r]; [trivial | ]. cbn [finis stops]. unfold ender. cbn [In].
  intros H. repeat (destruct H as [H | H]; [rewrite <- H; reflexivity | ]). contradiction.
Qed.
Lemma rank_stops t n rest : rank (tk_type t) n -> stops (t :: rest).
Proof.
  intros (l & E & H). cbn [stops].
  destruct n as [ | [ | [ | [ | [ | [ | [ | n]]]]]]]; cbn in E; try (destruct n; discriminate);
  injection E as <-; cbn [In] in H;
  repeat match type of H with _ \/ _ => destruct H as [H | H] end; try contradiction; rewrite <- H; reflexivity.
Qed.
Lemma rank_goes t n : rank t n -> expr_ending t = false.
Proof.
  intros (l & E & H).
  destruct n as [ | [ | [ | [ | [ | [ | [ | n]]]]]]]; cbn in E; try (destruct n; discriminate);
  injection E as <-; cbn [In] in H;
  repeat match type of H with _ \/ _ => destruct H as [H | H] end; try contradiction; rewrite <- H; reflexivity.
Qed.

(** ** Pending operators *)

(** [red n s s']: reducing some operators of tier at most [n] turns [s] into [s']. *)
Inductive red (n : nat) : list token -> list ast -> list token -> list ast -> Prop :=
| R0 ops vals : red n ops vals ops vals
| R1 o m os v2 v1 vs ops vals : rank (tk_type o) m -> (m <= n)%nat ->
    red n os (ANode o false v1 v2 :: vs) ops vals ->
    red n (o :: os) (v2 :: v1 :: vs) ops vals.
Lemma red_trans n a b c d e f : red n a b c d -> red n c d e f -> red n a b e f.
Proof. induction 1; intros H2; [exact H2 | ]. econstructor; eauto. Qed.
Lemma red_while n t a b c d : rank t n -> red n a b c d ->
  reduce_while (precedence t) a b = reduce_while (precedence t) c d.
Proof.
  intros Rt. induction 1 as [ | o m os v2 v1 vs ops vals Ro L _ IH]; [reflexivity | ].
  cbn [reduce_while]. destruct (Z.leb_spec (precedence (tk_type o)) (precedence t)) as [_ | Gt].
  - cbn [reduce bind]. exact IH.
  - apply (rank_order _ _ _ _ Ro Rt) in L. lia.
Qed.
Lemma red_all n a b c d : red n a b c d -> reduce_all a b = reduce_all c d.
Proof.
  induction 1 as [ | o m os v2 v1 vs ops vals Ro L _ IH]; [reflexivity | ].
  cbn [reduce_all reduce bind]. exact IH.
Qed.

(** ** Pieces of the parser *)

(** A value and its postfix operators. *)
Definition pv (r : calls) : K ast :=
  v <~ parse_value r ;; if is_null v then kret ANull else r_postfix r PFirst v.
(** What follows a value. *)
Definition after (r : calls) (ops : list token) (vals : list ast) : K ast :=
  ts <~ kgets k_toks ;;
  match ts with
  | [] => loop_end ops vals
  | o :: _ =>
    if expr_ending (tk_type o) then loop_end ops vals
    else if precedence (tk_type o) =? -1 then
      cerror (bs "Unknown operator: " ++ tk_str o) ;~ give_up ANull
    else
      q <~ klift (reduce_while (precedence (tk_type o)) ops vals) ;;
      match q with
      | None => cerror (bs "Expression parse failure.") ;~ give_up ANull
      | Some (ops', vs) => next_tok ;~ r_loop r (o :: ops') vs
      end
  end.

Lemma loop_run r ops vals k k1 k2 pre v2 : expr_ending (cur_type k) = false ->
  prefixes k = Ok (pre, k1) -> pv r k1 = Ok (v2, k2) -> v2 <> ANull ->
  loop_body r ops vals k = after r ops (wrap_prefix pre v2 :: vals) k2.
Proof.
  intros Ee Ep Ev Nv. unfold loop_body. unfold kbind at 1, kgets at 1. rewrite Ee.
  unfold kbind at 1. rewrite Ep. unfold pv in Ev. apply kbind_inv in Ev. destruct Ev as (v & k3 & E1 & E2).
  unfold kbind at 1. rewrite E1. destruct (is_null v) eqn:Nu.
  - injection E2 as <- _. contradiction.
  - unfold kbind at 1. rewrite E2. destruct v2 as [ | a b c d]; [contradiction | ]. reflexivity.
Qed.

Lemma after_end r ops vals k : finis (k_toks k) -> after r ops vals k = loop_end ops vals k.
Proof.
  intros F. unfold after, kbind at 1, kgets at 1. destruct (k_toks k) as [ | o l]; [reflexivity | ].
  cbn [finis] in F. apply expr_ending_iff in F. rewrite F. reflexivity.
Qed.
Lemma after_op r ops vals k o rest n ops' vs : k_toks k = o :: rest -> rank (tk_type o) n ->
  reduce_while (precedence (tk_type o)) ops vals = Ok (Some (ops', vs)) ->
  after r ops vals k = r_loop r (o :: ops') vs (nxt k).
Proof.
  intros T Rk E. unfold after, kbind at 1, kgets at 1. rewrite T, (rank_goes _ _ Rk).
  destruct (Z.eqb_spec (precedence (tk_type o)) (-1)) as [X | _]; [exfalso; exact (rank_prec _ _ Rk X) | ].
  unfold kbind at 1, klift. rewrite E. unfold kbind. rewrite next_tok_run. reflexivity.
Qed.

Lemma prefixes_run pre : forall k t rest f, k_toks k = pre ++ t :: rest ->
  Forall (fun t => prefix_op (tk_type t)) pre -> ~ prefix_op (tk_type t) -> (length pre < f)%nat ->
  prefix_loop f k = Ok (pre, past pre k).
Proof.
  induction pre as [ | o pre IH]; intros k t rest f T F N L; (destruct f as [ | f]; [cbn in L; lia | ]);
    cbn [prefix_loop past]; unfold kbind at 1, kgets at 1; rewrite T; cbn [app].
  - apply (not_iff _ _ (is_prefix_iff _)) in N. rewrite N. reflexivity.
  - inversion F as [ | o' pre' F1 F2]; subst. apply is_prefix_iff in F1. rewrite F1.
    unfold kbind at 1. rewrite next_tok_run. unfold kbind.
    rewrite (IH (nxt k) t rest f); [reflexivity | | exact F2 | exact N | cbn in L; lia].
    rewrite nxt_toks, T. reflexivity.
Qed.

(** ** Shapes of expressions *)

Lemma unwrap e : grouped e -> ~ is_infix e -> exists pre e0, e = wrap pre e0 /\ tight e0 /\ grouped e0 /\
  Forall (fun t => prefix_op (tk_type t)) pre.
Proof.
  induction e; intros G N; try (eexists []; eexists; split; [reflexivity | ]; split; [split; intros F; exact F | ];
    split; [exact G | constructor]).
  - cbn [grouped] in G. destruct G as (Po & G & N').
    destruct (IHe G N') as (pre & e0 & -> & Ti & G0 & F). exists (o :: pre), e0.
    split; [reflexivity | ]. split; [exact Ti | ]. split; [exact G0 | ]. constructor; assumption.
  - exfalso. apply N. exact I.
Qed.
Lemma wrap_depth pre e : depth (wrap pre e) = depth e.
Proof. induction pre; cbn; assumption || reflexivity. Qed.
Lemma tight_first e : grouped e -> tight e -> no_func e ->
  exists t l, text e = t :: l /\ ~ prefix_op (tk_type t) /\ expr_ending (tk_type t) = false.
Proof.
  induction e; intros G Ti Nf; cbn [grouped] in G; cbn [no_func] in Nf; try contradiction.
  - exists t, []. destruct G as (Ne & Np & _). repeat split; [exact Np | ].
    apply (not_iff _ _ (expr_ending_iff _)). exact Ne.
  - exists o, (text e ++ [c]). destruct G as (Po & _). rewrite Po. repeat split.
    unfold prefix_op. cbn. intuition discriminate.
  - exfalso. apply Ti. exact I.
  - destruct IHe as (t & l & E & N); try tauto. exists t. cbn [text]. rewrite E. eexists. split; [reflexivity | exact N].
  - destruct IHe1 as (t & l & E & N); try tauto. exists t. cbn [text]. rewrite E. eexists. split; [reflexivity | exact N].
  - destruct IHe as (t & l & E & N); try tauto. exists t. cbn [text]. rewrite E. eexists. split; [reflexivity | exact N].
  - destruct IHe as (t & l & E & N); try tauto. exists t. cbn [text]. rewrite E. eexists. split; [reflexivity | exact N].
  - destruct IHe as (t & l & E & N); try tauto. exists t. cbn [text]. rewrite E. eexists. split; [reflexivity | exact N].
  - exfalso. apply (proj1 Ti). exact I.
Qed.
Lemma no_func_wrap pre e : no_func (wrap pre e) -> no_func e.
Proof. induction pre; cbn; auto. Qed.
Lemma plain_wrap pre e : plain_calls (wrap pre e) -> plain_calls e.
Proof. induction pre; cbn; auto. Qed.

Fixpoint trees (a : args) : list ast :=
  match a with NoArgs => [] | LastArg e => [tree e] | Arg e _ r => tree e :: trees r end.
Lemma trees_chain t a : chain t a = param_chain t (trees a).
Proof. induction a; cbn; try reflexivity. rewrite IHa. reflexivity. Qed.

(** ** What each form makes the parser do *)

Definition state_of (e : expr) : pstate := if bare e then PFirst else PLater.

Definition good (e : expr) : Prop := grouped e /\ no_func e /\ plain_calls e.
Definition good_args (a : args) : Prop := args_grouped a /\ args_no_func a /\ args_plain a.

Definition PV (e : expr) : Prop := forall k rest R, k_toks k = text e ++ rest ->
  0 < k_rec k -> k_rec k + depth e <= 257 ->
  ev (fun n => r_postfix (compiler n) (state_of e) (tree e) (past (text e) k) = R) ->
  ev (fun n => pv (compiler n) k = R).
Definition PW (e : expr) : Prop := forall pre e0, e = wrap pre e0 -> tight e0 -> PV e0.
Definition PL (e : expr) : Prop := forall ops vals k rest, k_toks k = text e ++ rest ->
  0 < k_rec k -> k_rec k + depth e <= 257 -> stops rest -> above e ops ->
  exists ops' vals', (forall n, leq e n -> red n ops' vals' ops (tree e :: vals)) /\
    forall R, ev (fun n => after (compiler n) ops' vals' (past (text e) k) = R) ->
      ev (fun n => r_loop (compiler n) ops vals k = R).
Definition PX (e : expr) : Prop := forall k rest, k_toks k = text e ++ rest ->
  0 <= k_rec k -> k_rec k + depth e <= 256 -> finis rest ->
  ev (fun n => r_expr (compiler n) k = Ok (tree e, past (text e) k)).
Definition PA (a : args) : Prop := forall k c rest, k_toks k = args_text a ++ c :: rest ->
  tk_type c = TK_PAREN_CLOSE -> 0 < k_rec k -> k_rec k + args_depth a <= 257 ->
  ev (fun n => r_params (compiler n) k =
    Ok (Some (trees a), set_k_rec (k_rec k - 1) (past (args_text a ++ [c]) k))).

Lemma depth_nn : (forall e, 0 <= depth e) /\ (forall a, 0 <= args_depth a).
Proof.
  assert (H : forall e, 0 <= depth e).
  { fix IH 1. intros e. destruct e; cbn [depth]; try lia; try (pose proof (IH e); lia);
      try (pose proof (IH e1); lia); try (pose proof (IH e2); lia). }
  split; [exact H | ]. induction a; cbn [args_depth]; try lia; pose proof (H e); lia.
Qed.

Lemma leq_top e : exists n, leq e n.
Proof.
  destruct e; try (exists 0%nat; intros m Hm; destruct Hm; fail).
  destruct (Z.eq_dec (precedence (tk_type o)) (-1)) as [E | N].
  - exists 0%nat. intros m Hm. exfalso. exact (rank_prec _ _ Hm E).
  - destruct (rank_of _ N) as [n Rn]. exists n. intros m Hm. rewrite (rank_fun _ _ _ Hm Rn). lia.
Qed.

Lemma PL_PX e : grouped e -> PL e -> PX e.
Proof.
  intros G H k rest T Rp Rm F. apply ev_S. cbn [compiler bodies r_expr].
  pose proof (proj1 depth_nn e) as Dn.
  destruct (H [] [] (set_k_rec (k_rec k + 1) k) rest) as (ops' & vals' & Rd & C).
  - exact T.
  - ks. lia.
  - ks. lia.
  - apply finis_stops. exact F.
  - exact I.
  - eapply ev_map; [ | apply (C (Ok (tree e, past (text e) k)))].
    + intros n E. unfold parse_body, kbind. rewrite push_rec_run by lia. cbn [negb]. exact E.
    + apply ev_all. intros n. rewrite after_end.
      * unfold loop_end, kbind, klift. destruct (leq_top e) as [m Lm].
        rewrite (red_all m _ _ _ _ (Rd m Lm)). cbn [reduce_all].
        assert (Rc : k_rec (past (text e) (set_k_rec (k_rec k + 1) k)) = k_rec k + 1) by (rewrite past_rec; reflexivity).
        rewrite pop_rec_run by lia. rewrite Rc. unfold kret. f_equal. f_equal.
        rewrite past_set_rec, set_rec_twice. apply set_rec_same. rewrite past_rec. lia.
      * rewrite (past_toks (text e) _ rest) by exact T. exact F.
Qed.

Lemma PV_stop e : tight e -> PV e -> forall k rest, k_toks k = text e ++ rest ->
  0 < k_rec k -> k_rec k + depth e <= 257 -> stops rest ->
  ev (fun n => pv (compiler n) k = Ok (tree e, past (text e) k)).
Proof.
  intros Ti H k rest T Rp Rm St. apply (H k rest _ T Rp Rm). apply ev_S. apply ev_all. intros n.
  cbn [compiler bodies r_postfix]. unfold postfix_body, kbind, kgets.
  rewrite (past_toks _ _ _ T).
  destruct rest as [ | t l].
  - unfold postfix_end, state_of. destruct (bare e); reflexivity.
  - cbn [stops] in St. rewrite St. cbn [negb]. unfold postfix_end, state_of. destruct (bare e); reflexivity.
Qed.

Lemma PL_unary e : grouped e -> no_func e -> ~ is_infix e -> PW e -> PL e.
Proof.
  intros G Nf Ni H ops vals k rest T Rp Rm St Ab.
  destruct (unwrap e G Ni) as (pre & e0 & Ee & Ti & G0 & F).
  specialize (H pre e0 Ee Ti). exists ops, (tree e :: vals). split; [intros; constructor | ].
  intros R C. subst e. rewrite wrap_depth in Rm. rewrite wrap_text, <- app_assoc in T. rewrite wrap_text in C.
  destruct (tight_first e0 G0 Ti (no_func_wrap _ _ Nf)) as (t & l & Et & Np & Ne).
  apply ev_S. cbn [compiler bodies r_loop].
  assert (V := PV_stop e0 Ti H (past pre k) rest (past_toks _ _ _ T)). rewrite past_rec in V.
  specialize (V Rp Rm St). revert C V. apply ev_map2. intros n C V.
  rewrite (loop_run (compiler n) ops vals k (past pre k) (past (text e0) (past pre k)) pre (tree e0)).
  - rewrite <- wrap_tree, <- past_app. exact C.
  - unfold cur_type. rewrite T. destruct pre as [ | p pre].
    + rewrite Et. exact Ne.
    + inversion F as [ | x y Fp]; subst. cbn [app]. unfold prefix_op in Fp. cbn [In] in Fp.
      repeat (destruct Fp as [Fp | Fp]; [rewrite <- Fp; reflexivity | ]). contradiction.
  - unfold prefixes, kbind, kgets.
    apply (prefixes_run pre k t (l ++ rest)); [rewrite T, Et; reflexivity | exact F | exact Np | ].
    rewrite T, app_length. lia.
  - exact V.
  - apply tree_full. exact G0.
Qed.

Lemma call_run n k o a c rest : PA a -> k_toks k = o :: args_text a ++ c :: rest ->
  tk_type c = TK_PAREN_CLOSE -> 0 < k_rec k -> k_rec k + (1 + args_depth a) <= 257 ->
  r_params (compiler n) (nxt (set_k_rec (k_rec k + 1) k)) =
    Ok (Some (trees a), set_k_rec (k_rec (nxt (set_k_rec (k_rec k + 1) k)) - 1)
      (past (args_text a ++ [c]) (nxt (set_k_rec (k_rec k + 1) k)))) ->
  parse_call (compiler n) k = Ok (Some (trees a), past ([o] ++ args_text a ++ [c]) k).
Proof.
  intros _ T Tc Rp Rm E. pose proof (proj2 depth_nn a) as Dn.
  unfold parse_call, kbind. rewrite push_rec_run by lia. cbn [negb]. rewrite next_tok_run. rewrite E.
  f_equal. f_equal. rewrite nxt_rec. ks. rewrite nxt_set_rec, past_set_rec, set_rec_twice.
  cbn [app past]. apply set_rec_same. rewrite past_rec, nxt_rec. lia.
Qed.

Lemma call_ev k o a c rest : PA a -> k_toks k = o :: args_text a ++ c :: rest ->
  tk_type c = TK_PAREN_CLOSE -> 0 < k_rec k -> k_rec k + (1 + args_depth a) <= 257 ->
  ev (fun n => parse_call (compiler n) k = Ok (Some (trees a), past ([o] ++ args_text a ++ [c]) k)).
Proof.
  intros H T Tc Rp Rm. pose proof (proj2 depth_nn a) as Dn.
  eapply ev_map; [ | apply (H (nxt (set_k_rec (k_rec k + 1) k)) c rest)].
  - intros n E. apply (call_run n k o a c rest H T Tc Rp Rm E).
  - rewrite nxt_toks. ks. rewrite T. reflexivity.
  - exact Tc.
  - rewrite nxt_rec. ks. lia.
  - rewrite nxt_rec. ks. lia.
Qed.

Lemma later_state e : match state_of e with PFirst => PLater | _ => state_of e end = PLater.
Proof. unfold state_of. destruct (bare e); reflexivity. Qed.

Lemma fse_shape e t tr c0 c1 : grouped e -> bare e = true -> grouped_fse e = false -> no_func e ->
  tree e = ANode t tr c0 c1 -> tk_type t = TK_FSE -> c0 = ANull /\ c1 = ANull.
Proof.
  intros G B F Nf T Ht. destruct e; try discriminate.
  - injection T as <- <- <- <-. split; reflexivity.
  - contradiction.
  - cbn [grouped_fse tree] in *. rewrite T in F. cbn [names_fse] in F. rewrite Ht in F. discriminate.
Qed.

Scheme expr_mut := Induction for expr Sort Prop
with args_mut := Induction for args Sort Prop.

Lemma accept_expr : forall e, good e -> (tight e -> PV e) /\ PW e /\ PL e.
Proof.
  apply (expr_mut
    (fun e => good e -> (tight e -> PV e) /\ PW e /\ PL e)
    (fun a => good_args a -> PA a)).
  - (* EAtom *)
    intros t (G & Nf & Pc). cbn [grouped] in G.
    assert (V : PV (EAtom t)).
    { intros k rest R T Rp Rm C. cbn [text past app] in *. revert C. apply ev_map. intros n C.
      unfold pv. rewrite <- C. unfold kbind at 1. unfold parse_value, kbind at 1, kgets at 1.
      destruct G as (Ne & Np & No & Nfn).
      unfold kgets. rewrite (cur_type_run _ _ _ T).
      destruct (Z.eqb_spec (tk_type t) TK_PAREN_OPEN); [contradiction | ].
      unfold kbind at 1. rewrite T.
      rewrite (proj2 (not_iff _ _ (expr_ending_iff _)) Ne).
      destruct (Z.eqb_spec (tk_type t) TK_FUNCTION); [contradiction | ].
      unfold kbind. rewrite next_tok_run. reflexivity. }
    assert (W : PW (EAtom t)).
    { intros pre e0 E Ti. destruct pre; [cbn [wrap] in E; subst e0; exact V | discriminate]. }
    split; [intros _; exact V | ]. split; [exact W | ].
    apply PL_unary; [exact G | exact Nf | intros F; exact F | exact W].
  - (* EFunc *) intros ts t (_ & Nf & _). contradiction.
  - (* EGroup *)
    intros o e IH c (G & Nf & Pc). cbn [grouped no_func plain_calls] in G, Nf, Pc. destruct G as (Po & G & Cl).
    destruct (IH (conj G (conj Nf Pc))) as (_ & _ & L). pose proof (PL_PX e G L) as X.
    assert (V : PV (EGroup o e c)).
    { intros k rest R T Rp Rm C. cbn [text depth] in *. cbn [app] in T. rewrite <- app_assoc in T. cbn [app] in T.
      assert (E1 : ev (fun n => r_expr (compiler n) (nxt k) = Ok (tree e, past (text e) (nxt k)))).
      { apply (X (nxt k) (c :: rest)).
        - rewrite nxt_toks, T. reflexivity.
        - rewrite nxt_rec. lia.
        - rewrite nxt_rec. lia.
        - cbn [finis]. unfold closer in Cl. unfold ender. cbn [In] in *. tauto. }
      revert E1 C. apply ev_map2. intros n E1 C. unfold pv. rewrite <- C. unfold kbind at 1.
      unfold parse_value, kbind at 1. unfold kgets at 1. rewrite (cur_type_run _ _ _ T), Po.
      change (TK_PAREN_OPEN =? TK_PAREN_OPEN) with true. cbv iota.
      unfold kbind at 1. rewrite next_tok_run. unfold kbind at 1. rewrite E1.
      pose proof (tree_full e G) as Tf.
      assert (T2 : k_toks (past (text e) (nxt k)) = c :: rest).
      { apply past_toks. rewrite nxt_toks, T. reflexivity. }
      destruct (tree e) as [ | vt vr v0 v1] eqn:Te; [contradiction | ].
      unfold kbind at 1, kgets. rewrite (cur_type_run _ _ _ T2).
      apply sub_ending_iff in Cl. rewrite Cl. cbn [negb]. unfold kbind. rewrite next_tok_run.
      unfold kret at 1. cbn [is_null tree state_of bare]. rewrite Te. cbn [app past].
      rewrite past_app. reflexivity. }
    assert (W : PW (EGroup o e c)).
    { intros pre e0 E Ti. destruct pre; [cbn [wrap] in E; subst e0; exact V | discriminate]. }
    split; [intros _; exact V | ]. split; [exact W | ].
    apply PL_unary; [exact (conj Po (conj G Cl)) | exact Nf | intros F; exact F | exact W].
  - (* EPre *)
    intros o e IH (G & Nf & Pc). cbn [no_func plain_calls] in Nf, Pc. pose proof G as G'.
    cbn [grouped] in G. destruct G as (Po & G & Ni).
    destruct (IH (conj G (conj Nf Pc))) as (_ & W0 & _).
    assert (W : PW (EPre o e)).
    { intros pre e0 E Ti. destruct pre as [ | p pre].
      - cbn [wrap] in E. subst e0. exfalso. apply (proj2 Ti). exact I.
      - injection E as _ E. exact (W0 pre e0 E Ti). }
    split; [intros Ti; exfalso; apply (proj2 Ti); exact I | ]. split; [exact W | ].
    apply PL_unary; [exact G' | exact Nf | intros F; exact F | exact W].
  - (* EIncDec *)
    intros e IH o (G & Nf & Pc). cbn [no_func plain_calls] in Nf, Pc. pose proof G as G'.
    cbn [grouped] in G. destruct G as (G & Ti & Io).
    destruct (IH (conj G (conj Nf Pc))) as (V0 & _ & _). specialize (V0 Ti).
    assert (V : PV (EIncDec e o)).
    { intros k rest R T Rp Rm C. cbn [text depth] in *. rewrite <- app_assoc in T. cbn [app] in T.
      apply (V0 k (o :: rest) R T Rp Rm). apply ev_S. revert C. apply ev_map. intros n C.
      cbn [compiler bodies r_postfix]. rewrite <- C. unfold postfix_body. cbv zeta. rewrite later_state.
      unfold kbind at 1, kgets at 1. rewrite (past_toks _ _ _ T).
      assert (Hp : is_postfix (tk_type o) = true /\ (tk_type o =? TK_DOT) || (tk_type o =? TK_INDIRECTION) = false /\
        (tk_type o =? TK_BRACKET_OPEN) = false /\ (tk_type o =? TK_PAREN_OPEN) = false).
      { cbn [In] in Io. destruct Io as [Io | [Io | []]]; rewrite <- Io; repeat split. }
      destruct Hp as (-> & -> & -> & ->). cbn [negb].
      unfold kbind. rewrite next_tok_run. rewrite past_app. reflexivity. }
    assert (W : PW (EIncDec e o)).
    { intros pre e0 E Ti'. destruct pre; [cbn [wrap] in E; subst e0; exact V | discriminate]. }
    split; [intros _; exact V | ]. split; [exact W | ].
    apply PL_unary; [exact G' | exact Nf | intros F; exact F | exact W].
  - (* EIndex *)
    intros e IH o i IHi c (G & Nf & Pc). pose proof G as G'. pose proof Nf as Nf'.
    cbn [no_func plain_calls] in Nf, Pc. destruct Nf as (Nf & Nfi). destruct Pc as (Pc & Pci).
    cbn [grouped] in G. destruct G as (G & Ti & To & Gi & Tc).
    destruct (IH (conj G (conj Nf Pc))) as (V0 & _ & _). specialize (V0 Ti).
    destruct (IHi (conj Gi (conj Nfi Pci))) as (_ & _ & L). pose proof (PL_PX i Gi L) as X.
    assert (V : PV (EIndex e o i c)).
    { intros k rest R T Rp Rm C. cbn [text depth] in *. rewrite <- app_assoc in T. cbn [app] in T.
      rewrite <- app_assoc in T. cbn [app] in T.
      apply (V0 k (o :: text i ++ c :: rest) R T Rp). { lia. } apply ev_S.
      set (k1 := past (text e) k) in *.
      assert (T1 : k_toks k1 = o :: text i ++ c :: rest) by (apply past_toks; exact T).
      assert (Rk : k_rec k1 = k_rec k) by apply past_rec.
      assert (E1 : ev (fun n => r_expr (compiler n) (nxt k1) = Ok (tree i, past (text i) (nxt k1)))).
      { apply (X (nxt k1) (c :: rest)).
        - rewrite nxt_toks, T1. reflexivity.
        - rewrite nxt_rec. lia.
        - rewrite nxt_rec. lia.
        - cbn [finis]. rewrite Tc. cbn. tauto. }
      revert E1 C. apply ev_map2. intros n E1 C.
      cbn [compiler bodies r_postfix]. rewrite <- C. unfold postfix_body. cbv zeta. rewrite later_state.
      unfold kbind at 1, kgets at 1. rewrite T1, To.
      change (is_postfix TK_BRACKET_OPEN) with true. change (TK_BRACKET_OPEN =? TK_DOT) with false.
      change (TK_BRACKET_OPEN =? TK_INDIRECTION) with false. change (TK_BRACKET_OPEN =? TK_BRACKET_OPEN) with true.
      cbn [negb orb]. unfold kbind at 1. rewrite next_tok_run. unfold kbind at 1. rewrite E1.
      pose proof (tree_full i Gi) as Tf.
      assert (T2 : k_toks (past (text i) (nxt k1)) = c :: rest).
      { apply past_toks. rewrite nxt_toks, T1. reflexivity. }
      cbn [tree state_of bare].
      destruct (tree i) as [ | vt vr v0 v1] eqn:Te; [contradiction | ].
      unfold kbind. rewrite (expect_run _ _ _ _ T2 Tc). cbn [negb].
      rewrite (past_app (text e)). cbn [app past]. rewrite past_app. reflexivity. }
    assert (W : PW (EIndex e o i c)).
    { intros pre e0 E Ti'. destruct pre; [cbn [wrap] in E; subst e0; exact V | discriminate]. }
    split; [intros _; exact V | ]. split; [exact W | ].
    apply PL_unary; [exact G' | exact Nf' | intros F; exact F | exact W].
  - (* EField *)
    intros e IH d i (G & Nf & Pc). cbn [no_func plain_calls] in Nf, Pc. pose proof G as G'.
    cbn [grouped] in G. destruct G as (G & Ti & Td & Tn).
    destruct (IH (conj G (conj Nf Pc))) as (V0 & _ & _). specialize (V0 Ti).
    assert (V : PV (EField e d i)).
    { intros k rest R T Rp Rm C. cbn [text depth] in *. rewrite <- app_assoc in T. cbn [app] in T.
      apply (V0 k (d :: i :: rest) R T Rp Rm). apply ev_S. revert C. apply ev_map. intros n C.
      cbn [compiler bodies r_postfix]. rewrite <- C. unfold postfix_body. cbv zeta. rewrite later_state.
      unfold kbind at 1, kgets at 1. pose proof (past_toks _ _ _ T) as T1. rewrite T1, Td.
      change (is_postfix TK_DOT) with true. change (TK_DOT =? TK_DOT) with true.
      change (TK_DOT =? TK_INDIRECTION) with false. cbn [negb orb].
      unfold kbind at 1. rewrite next_tok_run. unfold kbind at 1, kgets at 1.
      assert (T2 : k_toks (nxt (past (text e) k)) = i :: rest) by (rewrite nxt_toks, T1; reflexivity).
      rewrite T2, Tn. change (TK_IDENTIFIER =? TK_IDENTIFIER) with true. cbn [negb].
      unfold kbind. rewrite (expect_run _ _ _ _ T2 Tn). rewrite past_app. reflexivity. }
    assert (W : PW (EField e d i)).
    { intros pre e0 E Ti'. destruct pre; [cbn [wrap] in E; subst e0; exact V | discriminate]. }
    split; [intros _; exact V | ]. split; [exact W | ].
    apply PL_unary; [exact G' | exact Nf | intros F; exact F | exact W].
  - (* ECall *)
    intros e IH o a IHa c (G & Nf & Pc). pose proof G as G'. pose proof Nf as Nf'.
    cbn [no_func plain_calls] in Nf, Pc. destruct Nf as (Nf & Nfi). destruct Pc as (Pc & Gf & Pci).
    cbn [grouped] in G. destruct G as (G & Ti & To & Gi & Tc).
    destruct (IH (conj G (conj Nf Pc))) as (V0 & _ & _). specialize (V0 Ti).
    pose proof (IHa (conj Gi (conj Nfi Pci))) as X.
    assert (V : PV (ECall e o a c)).
    { intros k rest R T Rp Rm C. cbn [text depth] in *. rewrite <- app_assoc in T. cbn [app] in T.
      rewrite <- app_assoc in T. cbn [app] in T.
      apply (V0 k (o :: args_text a ++ c :: rest) R T Rp). { lia. } apply ev_S.
      set (k1 := past (text e) k) in *.
      assert (T1 : k_toks k1 = o :: args_text a ++ c :: rest) by (apply past_toks; exact T).
      assert (Rk : k_rec k1 = k_rec k) by apply past_rec.
      assert (E1 : ev (fun n => parse_call (compiler n) k1 = Ok (Some (trees a), past ([o] ++ args_text a ++ [c]) k1))).
      { apply (call_ev k1 o a c rest X T1 Tc); lia. }
      revert E1 C. apply ev_map2. intros n E1 C.
      cbn [compiler bodies r_postfix]. rewrite <- C. unfold postfix_body. cbv zeta. rewrite later_state.
      unfold kbind at 1, kgets at 1. rewrite T1, To.
      change (is_postfix TK_PAREN_OPEN) with true. change (TK_PAREN_OPEN =? TK_DOT) with false.
      change (TK_PAREN_OPEN =? TK_INDIRECTION) with false. change (TK_PAREN_OPEN =? TK_BRACKET_OPEN) with false.
      change (TK_PAREN_OPEN =? TK_PAREN_OPEN) with true.
      cbn [negb orb]. unfold kbind at 1. rewrite E1.
      pose proof (tree_full e G) as Tf.
      pose proof (fun t tr c0 c1 B => fse_shape e t tr c0 c1 G B Gf Nf) as Fs.
      cbn [tree]. unfold state_of. cbn [bare].
      destruct (tree e) as [ | vt vr v0 v1] eqn:Te; [contradiction | ].
      cbn [names_fse token_of]. rewrite trees_chain. rewrite (past_app (text e)). fold k1.
      destruct (bare e) eqn:Be; cbn [andb].
      - destruct (Z.eqb_spec (tk_type vt) TK_FSE) as [Ft | Nt]; [ | reflexivity].
        destruct (Fs vt vr v0 v1 eq_refl eq_refl Ft) as [-> ->]. reflexivity.
      - reflexivity. }
    assert (W : PW (ECall e o a c)).
    { intros pre e0 E Ti'. destruct pre; [cbn [wrap] in E; subst e0; exact V | discriminate]. }
    split; [intros _; exact V | ]. split; [exact W | ].
    apply PL_unary; [exact G' | exact Nf' | intros F; exact F | exact W].
  - (* EMethod *)
    intros e IH d i o a IHa c (G & Nf & Pc). pose proof G as G'. pose proof Nf as Nf'.
    cbn [no_func plain_calls] in Nf, Pc. destruct Nf as (Nf & Nfi). destruct Pc as (Pc & Pci).
    cbn [grouped] in G. destruct G as (G & Ti & Td & Tn & To & Gi & Tc).
    destruct (IH (conj G (conj Nf Pc))) as (V0 & _ & _). specialize (V0 Ti).
    pose proof (IHa (conj Gi (conj Nfi Pci))) as X.
    assert (V : PV (EMethod e d i o a c)).
    { intros k rest R T Rp Rm C. cbn [text depth] in *. rewrite <- app_assoc in T. cbn [app] in T.
      rewrite <- app_assoc in T. cbn [app] in T.
      apply (V0 k (d :: i :: o :: args_text a ++ c :: rest) R T Rp). { lia. } apply ev_S.
      set (k1 := past (text e) k) in *.
      assert (T1 : k_toks k1 = d :: i :: o :: args_text a ++ c :: rest) by (apply past_toks; exact T).
      assert (T2 : k_toks (nxt k1) = i :: o :: args_text a ++ c :: rest) by (rewrite nxt_toks, T1; reflexivity).
      assert (T3 : k_toks (nxt (nxt k1)) = o :: args_text a ++ c :: rest) by (rewrite nxt_toks, T2; reflexivity).
      assert (Rk : k_rec (nxt (nxt k1)) = k_rec k) by (rewrite !nxt_rec; apply past_rec).
      assert (E1 : ev (fun n => parse_call (compiler n) (nxt (nxt k1)) =
        Ok (Some (trees a), past ([o] ++ args_text a ++ [c]) (nxt (nxt k1))))).
      { apply (call_ev (nxt (nxt k1)) o a c rest X T3 Tc); lia. }
      revert E1 C. apply ev_map2. intros n E1 C.
      cbn [compiler bodies r_postfix]. rewrite <- C. unfold postfix_body. cbv zeta. rewrite later_state.
      unfold kbind at 1, kgets at 1. rewrite T1, Td.
      change (is_postfix TK_INDIRECTION) with true. change (TK_INDIRECTION =? TK_DOT) with false.
      change (TK_INDIRECTION =? TK_INDIRECTION) with true. cbn [negb orb].
      unfold kbind at 1. rewrite next_tok_run. unfold kbind at 1, kgets at 1. rewrite T2, Tn.
      change (TK_IDENTIFIER =? TK_IDENTIFIER) with true. cbn [negb].
      unfold kbind at 1. rewrite (expect_run _ _ _ _ T2 Tn). unfold kbind at 1, kgets at 1.
      rewrite T3, To. change (TK_PAREN_OPEN =? TK_PAREN_OPEN) with true. cbn [negb].
      unfold kbind. rewrite E1. rewrite (past_app (text e)). fold k1. cbn [tree]. unfold state_of. cbn [bare].
      rewrite trees_chain. reflexivity. }
    assert (W : PW (EMethod e d i o a c)).
    { intros pre e0 E Ti'. destruct pre; [cbn [wrap] in E; subst e0; exact V | discriminate]. }
    split; [intros _; exact V | ]. split; [exact W | ].
    apply PL_unary; [exact G' | exact Nf' | intros F; exact F | exact W].
  - (* EInfix *)
    intros a IHa o b IHb (G & Nf & Pc). pose proof G as G'.
    cbn [no_func plain_calls] in Nf, Pc. destruct Nf as (Nfa & Nfb). destruct Pc as (Pca & Pcb).
    cbn [grouped] in G. destruct G as (Ga & Gb & n & Rn & La & Lb).
    destruct (IHa (conj Ga (conj Nfa Pca))) as (_ & _ & A).
    destruct (IHb (conj Gb (conj Nfb Pcb))) as (_ & _ & B).
    split; [intros Ti; exfalso; apply (proj1 Ti); exact I | ].
    split; [intros pre e0 E Ti; destruct pre; [cbn [wrap] in E; subst e0; exfalso; apply (proj1 Ti); exact I | discriminate] | ].
    intros ops vals k rest T Rp Rm St Ab. cbn [text depth] in *. rewrite <- app_assoc in T. cbn [app] in T.
    assert (Hi : higher n ops).
    { unfold above, higher in *. destruct ops as [ | o' ops]; [exact I | ].
      destruct Ab as (m & Rm' & Ls). exists m. split; [exact Rm' | ]. apply Ls. exact Rn. }
    destruct (A ops vals k (o :: text b ++ rest) T Rp) as (ops1 & vals1 & Rd1 & C1).
    { lia. }
    { apply (rank_stops o n). exact Rn. }
    { unfold above, higher in *. destruct ops as [ | o' ops]; [exact I | ].
      destruct Hi as (m & Rm' & Lt). exists m. split; [exact Rm' | ]. intros x Hx. specialize (La x Hx). lia. }
    set (k1 := past (text a) k) in *.
    assert (T1 : k_toks k1 = o :: text b ++ rest) by (apply past_toks; exact T).
    assert (Rk : k_rec (nxt k1) = k_rec k) by (rewrite nxt_rec; apply past_rec).
    destruct (B (o :: ops) (tree a :: vals) (nxt k1) rest) as (ops2 & vals2 & Rd2 & C2).
    { rewrite nxt_toks, T1. reflexivity. }
    { lia. }
    { lia. }
    { exact St. }
    { cbn [above]. exists n. split; [exact Rn | exact Lb]. }
    exists ops2, vals2. split.
    + intros m Lm. assert (Nm : (n <= m)%nat) by (apply Lm; exact Rn).
      apply (red_trans m _ _ (o :: ops) (tree b :: tree a :: vals)).
      * apply Rd2. intros x Hx. specialize (Lb x Hx). lia.
      * cbn [tree]. apply (R1 m o n); [exact Rn | exact Nm | constructor].
    + intros R C. apply C1. 
      assert (Rw : reduce_while (precedence (tk_type o)) ops1 vals1 = Ok (Some (ops, tree a :: vals))).
      { rewrite (red_while n _ _ _ _ _ Rn (Rd1 n La)). destruct ops as [ | o' ops]; [reflexivity | ].
        cbn [reduce_while]. destruct Hi as (m & Rm' & Lt).
        destruct (Z.leb_spec (precedence (tk_type o')) (precedence (tk_type o))) as [Le | _]; [ | reflexivity].
        apply (rank_order _ _ _ _ Rm' Rn) in Le. lia. }
      apply (ev_map (fun n => r_loop (compiler n) (o :: ops) (tree a :: vals) (nxt k1) = R)).
      * intros q E. rewrite (after_op (compiler q) ops1 vals1 k1 o (text b ++ rest) n ops (tree a :: vals) T1 Rn Rw).
        exact E.
      * apply C2. revert C. rewrite past_app. apply ev_map. intros q E. exact E.
  - (* NoArgs *)
    intros _ k c rest T Tc Rp Rm. cbn [args_text app] in T. apply ev_S. apply ev_all. intros n.
    cbn [compiler bodies r_params]. unfold params_body, kbind at 1, kgets at 1.
    rewrite (cur_type_run _ _ _ T), Tc.
    change ((TK_PAREN_CLOSE =? TK_INVALID) || (TK_PAREN_CLOSE =? TK_PAREN_CLOSE)) with true. cbv iota.
    unfold kbind. rewrite (expect_run _ _ _ _ T Tc). rewrite pop_rec_run by (rewrite nxt_rec; lia).
    rewrite nxt_rec. reflexivity.
  - (* LastArg *)
    intros e IH (G & Nf & Pc). cbn [args_grouped args_no_func args_plain] in G, Nf, Pc.
    destruct (IH (conj G (conj Nf Pc))) as (_ & _ & L). pose proof (PL_PX e G L) as X.
    intros k c rest T Tc Rp Rm. cbn [args_text args_depth trees] in *. apply ev_S.
    assert (E1 : ev (fun n => r_expr (compiler n) k = Ok (tree e, past (text e) k))).
    { apply (X k (c :: rest) T); try lia. cbn [finis]. rewrite Tc. cbn. tauto. }
    set (k1 := past (text e) k) in *.
    assert (T1 : k_toks k1 = c :: rest) by (apply past_toks; exact T).
    assert (Rk : k_rec k1 = k_rec k) by apply past_rec.
    assert (E2 : ev (fun n => r_params (compiler n) k1 = Ok (Some [], set_k_rec (k_rec k - 1) (nxt k1)))).
    { apply ev_S. apply ev_all. intros n.
      cbn [compiler bodies r_params]. unfold params_body, kbind at 1, kgets at 1.
      rewrite (cur_type_run _ _ _ T1), Tc.
      change ((TK_PAREN_CLOSE =? TK_INVALID) || (TK_PAREN_CLOSE =? TK_PAREN_CLOSE)) with true. cbv iota.
      unfold kbind. rewrite (expect_run _ _ _ _ T1 Tc). rewrite pop_rec_run by (rewrite nxt_rec; lia).
      rewrite nxt_rec, Rk. reflexivity. }
    revert E1 E2. apply ev_map2. intros n E1 E2.
    cbn [compiler bodies r_params]. unfold params_body, kbind at 1, kgets at 1.
    assert (Hc : (cur_type k =? TK_INVALID) || (cur_type k =? TK_PAREN_CLOSE) = false).
    { destruct (expr_ending (cur_type k)) eqn:Ee.
      - exfalso. pose proof (proj1 depth_nn e) as Dn. assert (Nn : tree e <> ANull) by (apply tree_full; exact G).
        destruct n as [ | n]; [discriminate | ].
        destruct n as [ | n]; [cbn [compiler bodies r_expr] in E1; unfold parse_body, kbind in E1;
          rewrite push_rec_run in E1 by lia; cbn [negb no_calls r_loop compiler] in E1; discriminate | ].
        cbn [compiler bodies r_expr] in E1. unfold parse_body, kbind in E1.
        rewrite push_rec_run in E1 by lia. cbn [negb bodies r_loop] in E1.
        unfold loop_body, kbind at 1, kgets at 1 in E1.
        change (cur_type (set_k_rec (k_rec k + 1) k)) with (cur_type k) in E1. rewrite Ee in E1.
        apply (Nn (loop_end_early [] [] _ _ _ eq_refl E1)).
      - unfold expr_ending, sub_ending in Ee. destruct (cur_type k =? TK_INVALID), (cur_type k =? TK_PAREN_CLOSE);
          try reflexivity; cbn in Ee; rewrite ?orb_true_r in Ee; discriminate. }
    rewrite Hc. unfold kbind at 1. rewrite E1. pose proof (tree_full e G) as Tf.
    destruct (tree e) as [ | vt vr v0 v1]; [contradiction | ].
    unfold kbind at 1, kgets at 1. rewrite (cur_type_run _ _ _ T1), Tc.
    change (TK_PAREN_CLOSE =? TK_COMMA) with false. change (TK_PAREN_CLOSE =? TK_PAREN_CLOSE) with true. cbv iota.
    unfold kbind. rewrite E2. unfold kret. rewrite past_app. reflexivity.
  - (* Arg *)
    intros e IH cm a IHa (G & Nf & Pc). cbn [args_grouped args_no_func args_plain] in G, Nf, Pc.
    destruct G as (G & Tm & Ga). destruct Nf as (Nf & Nfa). destruct Pc as (Pc & Pca).
    destruct (IH (conj G (conj Nf Pc))) as (_ & _ & L). pose proof (PL_PX e G L) as X.
    pose proof (IHa (conj Ga (conj Nfa Pca))) as Y.
    intros k c rest T Tc Rp Rm. cbn [args_text args_depth trees] in *. apply ev_S.
    rewrite <- !app_assoc in T. cbn [app] in T.
    assert (E1 : ev (fun n => r_expr (compiler n) k = Ok (tree e, past (text e) k))).
    { apply (X k _ T); try lia. cbn [finis]. rewrite Tm. cbn. tauto. }
    set (k1 := past (text e) k) in *.
    assert (T1 : k_toks k1 = cm :: args_text a ++ c :: rest) by (apply past_toks; exact T).
    assert (Rk : k_rec (nxt k1) = k_rec k) by (rewrite nxt_rec; apply past_rec).
    assert (E2 : ev (fun n => r_params (compiler n) (nxt k1) =
      Ok (Some (trees a), set_k_rec (k_rec (nxt k1) - 1) (past (args_text a ++ [c]) (nxt k1))))).
    { apply (Y (nxt k1) c rest); try lia; try assumption. rewrite nxt_toks, T1. reflexivity. }
    revert E1 E2. apply ev_map2. intros n E1 E2.
    cbn [compiler bodies r_params]. unfold params_body, kbind at 1, kgets at 1.
    assert (Hc : (cur_type k =? TK_INVALID) || (cur_type k =? TK_PAREN_CLOSE) = false).
    { destruct (expr_ending (cur_type k)) eqn:Ee.
      - exfalso. pose proof (proj1 depth_nn e) as Dn. assert (Nn : tree e <> ANull) by (apply tree_full; exact G).
        destruct n as [ | n]; [discriminate | ].
        destruct n as [ | n]; [cbn [compiler bodies r_expr] in E1; unfold parse_body, kbind in E1;
          rewrite push_rec_run in E1 by lia; cbn [negb no_calls r_loop compiler] in E1; discriminate | ].
        cbn [compiler bodies r_expr] in E1. unfold parse_body, kbind in E1.
        rewrite push_rec_run in E1 by lia. cbn [negb bodies r_loop] in E1.
        unfold loop_body, kbind at 1, kgets at 1 in E1.
        change (cur_type (set_k_rec (k_rec k + 1) k)) with (cur_type k) in E1. rewrite Ee in E1.
        apply (Nn (loop_end_early [] [] _ _ _ eq_refl E1)).
      - unfold expr_ending, sub_ending in Ee. destruct (cur_type k =? TK_INVALID), (cur_type k =? TK_PAREN_CLOSE);
          try reflexivity; cbn in Ee; rewrite ?orb_true_r in Ee; discriminate. }
    rewrite Hc. unfold kbind at 1. rewrite E1. pose proof (tree_full e G) as Tf.
    destruct (tree e) as [ | vt vr v0 v1]; [contradiction | ].
    unfold kbind at 1, kgets at 1. rewrite (cur_type_run _ _ _ T1), Tm.
    change (TK_COMMA =? TK_COMMA) with true. cbv iota.
    unfold kbind. rewrite next_tok_run. rewrite E2. unfold kret. rewrite Rk. do 3 f_equal.
    rewrite <- app_assoc, (past_app (text e)). fold k1. cbn [app past]. reflexivity.
Qed.

Theorem accept e : good e -> PX e.
Proof. intros H. apply PL_PX; [apply H | ]. apply accept_expr. exact H. Qed.
