(** * StmtProofs: the code of statements, functions and whole scripts

    Every statement the compiler accepts without complaint has a text that is
    properly written, and the code written for it is of the form CodeRel
    describes. *)

From Coq Require Import Lia Wf_nat.
From Verif Require TraceProofs TextProofs.
From Verif Require Import Base BaseFacts State MonadFacts TableProofs TokenModel RegModel CsModel ExprModel CompModel KFacts ParseSpec ParseProofs RunSpec CodeRel EmitProofs DidProofs LawProofs.
Ltac Zify.zify_post_hook ::= Z.div_mod_to_equations.

(** ** What the functions defined in a text depend on *)

Definition sim (A B : env) : Prop :=
  length (e_scopes A) = length (e_scopes B) /\ outermost A = outermost B /\ e_globals A = e_globals B.
Lemma sim_refl A : sim A A. Proof. repeat split. Qed.
Lemma sim_sym A B : sim A B -> sim B A. Proof. intros (X & Y & Z). repeat split; congruence. Qed.
Lemma sim_trans A B C : sim A B -> sim B C -> sim A C. Proof. intros (X & Y & Z) (X' & Y' & Z'). repeat split; congruence. Qed.
Lemma sim_enter A B : sim A B -> sim (enter_scope A) (enter_scope B).
Proof.
  intros (X & Y & Z). unfold enter_scope. repeat split; cbn [e_scopes e_globals length]; [congruence| |exact Z].
  unfold outermost in *. cbn [e_scopes]. destruct (e_scopes A), (e_scopes B); try discriminate; [reflexivity|exact Y].
Qed.
Lemma sim_used A u : sim (used_at A u) A. Proof. repeat split. Qed.
Lemma sim_declare n A B : sim A B -> sim (declare n A) (declare n B).
Proof.
  intros (X & Y & Z). unfold declare, outermost in *. destruct (e_scopes A) as [|a [|a2 ra]] eqn:EA, (e_scopes B) as [|b [|b2 rb]] eqn:EB; try discriminate X.
  - repeat split; unfold outermost; rewrite ?EA, ?EB; auto.
  - cbn in Y. subst. repeat split; cbn; congruence.
  - repeat split; cbn [e_scopes e_globals length] in *; [congruence| |exact Z]. unfold outermost. cbn [e_scopes]. exact Y.
Qed.
Lemma sim_after s A B : sim A B -> sim (after s A) (after s B).
Proof. intro S. destruct s; cbn [after]; auto using sim_declare. Qed.

Scheme defined_mi := Minimality for defined Sort Prop with sdefined_mi := Minimality for sdefined Sort Prop with literal_mi := Minimality for literal Sort Prop.
Combined Scheme defined_all from defined_mi, sdefined_mi, literal_mi.

Definition simg (A B : env) : Prop := outermost A = outermost B /\ e_globals A = e_globals B.
Lemma sim_simg A B : sim A B -> simg A B. Proof. intros (_ & H). exact H. Qed.
Lemma simg_loop E : simg (enter_loop E) E.
Proof. split; [|reflexivity]. unfold enter_loop, enter_scope, outermost. cbn [e_scopes last]. destruct (e_scopes E); reflexivity. Qed.
Lemma literal_sim funs A B ts t : simg A B -> literal funs A ts t -> literal funs B ts t.
Proof. intros (Y & Z) H. inversion H; subst. eapply df_literal; try eassumption. rewrite Y, Z. reflexivity. Qed.
Lemma defined_both funs : (forall A s, defined funs A s -> forall B, sim A B -> defined funs B s) /\
  (forall A l, sdefined funs A l -> forall B, sim A B -> sdefined funs B l) /\ (forall A ts t, literal funs A ts t -> forall B, sim A B -> literal funs B ts t).
Proof.
  apply defined_all; unfold enter_loop.
  all: try (intros; econstructor; eauto 9 using sim_enter, sim_after; fail).
  - intros A id f n o p c s fd -> Fi D _ B S. econstructor; [reflexivity| |]; pose proof (sim_declare (tk_str n) _ _ S) as (X & Y & Z); rewrite <- Y, <- Z; assumption.
  - intros A f o p c s t fd Tf To Pw Tc Ws -> Fi D _ B (_ & Y & Z). eapply df_literal; try eassumption. rewrite Y, Z. reflexivity.
Qed.
Lemma defined_sim funs s A B : sim A B -> defined funs A s -> defined funs B s.
Proof. intros S D. exact (proj1 (defined_both funs) _ _ D _ S). Qed.
Lemma sdefined_sim funs l A B : sim A B -> sdefined funs A l -> sdefined funs B l.
Proof. intros S D. exact (proj1 (proj2 (defined_both funs)) _ _ D _ S). Qed.

(** ** What is to be shown *)

(** The functions written in an expression are among [F]. *)
Definition told (F : list (Z * fundef)) (E : env) (e : expr) : Prop :=
  forall funs, table F funs -> forall ts t, In (ts, t) (lits e) -> literal funs E ts t.
Lemma told_sim F A B e : simg A B -> told F A e -> told F B e.
Proof. intros S H funs T ts t I. eapply literal_sim; eauto. Qed.

Section Lits.
Context {LT : Lits}.

Record good (k k' : comp) (E : env) (st : stmt) (fx : list Z) (F : list (Z * fundef)) (E' : env) : Prop := {
  g_does : does k k' (stext st) fx [] F E E' (fun m ng fa lp => scode m ng fa lp E st (k_w k) (k_w k') E');
  g_written : written st;
  g_open : open_ended st = true -> cur_type k' <> TK_ELSE;
  g_after : sim E' (after st E);
  g_scopes : declares st = false -> e_scopes E' = e_scopes E;
  g_defined : forall funs, table F funs -> defined funs E st
}.
Definition goods (m : K bool) : Prop := forall k k' E, m k = Ok (true, k') -> noerr k' -> crel k E ->
  exists st fx F E', good k k' E st fx F E'.

Lemma good_rec x k k' E st fx F E' : good k k' E st fx F E' -> good k (set_k_rec x k') E st fx F E'.
Proof. intros [D W O A Sc F0]. constructor; auto. apply does_rec. exact D. Qed.
Lemma good_rec_l x k k' E st fx F E' : good (set_k_rec x k) k' E st fx F E' -> good k k' E st fx F E'.
Proof. intros [D W O A Sc F0]. constructor; auto. apply does_rec_l in D. exact D. Qed.

Lemma does_as k k' l l' fx h h' F E E' (P Q : form) :
  does k k' l fx h F E E' P -> l = l' -> h = h' -> (forall m (ng : around) fa lp, k_nstat k' <= ng -> P m ng fa lp -> Q m ng fa lp) ->
  does k k' l' fx h' F E E' Q.
Proof. intros D -> -> I. eapply does_wk; eauto. Qed.

Lemma nxt_w k : k_w (nxt k) = k_w k. Proof. destruct (nxt_same k) as (-> & _). reflexivity. Qed.

End Lits.

Ltac nn W H j := assert (noerr j) by (match goal with N : noerr _ |- _ => revert N; refine ((_ : pres errs _) _ _ _ H); ew W end).

Section Body.
Context {LT : Lits}.
Variable n : nat.
Let r := compiler n.
Let W : walks errs r := compiler_walks errs errs_prims n.
Hypothesis HS : goods (r_stmt r).
Hypothesis HE : forall d k v k' E, expression_tree r d k = Ok (v, k') -> v <> ANull -> noerr k' -> crel k E ->
  exists e F, (TraceProofs.neat e /\ (lits e = [] -> F = [])) /\ (optimize (expandp (tree e) d) = Ok v /\ texts v) /\ told F E e /\
    does k k' (text e) [] [] F E E (fun m ng _ _ => skips m ng (lits e) (k_w k) (k_w k')).

Lemma does_expr_none d k k' E : compile_expression r d k = Ok (true, k') -> noerr k' -> crel k E ->
  exists e u F, readable e /\ (TraceProofs.neat e /\ (lits e = [] -> F = [])) /\ told F E e /\
    does k k' (text e) [] [] F E (used_at E u) (fun m ng _ _ => xcode m ng d E e (k_w k) (k_w k') u).
Proof.
  intros H N R. unfold compile_expression in H. kb H. destruct x; cbn [negb] in H; [|discriminate].
  apply push_rec_inv in E0; [|reflexivity]. subst. kb H. rename k0 into k1, E0 into Et. destruct x as [|t root c0 c1].
  { apply give_up_inv in H. discriminate. }
  kb H. rename k0 into k2, E0 into Ev. kb H. injection H as -> <-. pose proof (pop_rec_inv _ _ _ E0). subst k0. change (noerr k2) in N.
  assert (noerr k1) as N1 by exact (w_emit _ errs_prims _ _ _ _ Ev N). apply crel_rec with (x := k_rec k + 1) in R.
  destruct (HE _ _ _ _ _ Et ltac:(discriminate) N1 R) as (e & F & G & [O Tv] & Td & D).
  destruct (does_em (emit_expression (ANode t root c0 c1)) (fun b x ws x' => b = negb (is_null (ANode t root c0 c1)) /\ ecode (e_scopes E) x (ANode t root c0 c1) ws x') _ _ _ E ltac:(intros c' q' S'; exact (em_expr _ _ _ S' _ Tv)) Ev N (does_rel _ _ _ _ _ _ _ _ _ D)) as (ws & u & (_ & Ec) & W2 & Dv).
  exists e, u, F. split; [exact (accepted_readable _ _ _ _ _ _ _ (proj1 (proj1 G)) O Ec)|]. split; [exact G|]. split; [exact Td|]. pose proof (does_seq _ _ _ _ _ _ _ _ _ _ _ _ _ _ _ _ R D Dv) as D2. cbn [app] in D2. rewrite !app_nil_r in D2.
  apply does_rec, (does_rec_l (k_rec k + 1)). eapply does_wk; [exact D2|]. cbv beta. intros m ng fa lp _ [X Y]. split; [apply G|]. exists (k_w k1). split; [exact X|]. exists (ANode t root c0 c1), ws. auto.
Qed.
Lemma does_expr d k k' E : compile_expression r d k = Ok (true, k') -> noerr k' -> crel k E ->
  exists e u F, readable e /\ told F E e /\
    does k k' (text e) [] [] F E (used_at E u) (fun m ng _ _ => xcode m ng d E e (k_w k) (k_w k') u).
Proof. intros H N R. destruct (does_expr_none _ _ _ _ H N R) as (e & u & F & G & _ & K). eauto. Qed.
#[local] Hint Extern 0 (grouped ?e) => match goal with G : readable e |- _ => exact (proj1 G) end : core.
#[local] Hint Extern 0 (~ starts keyword (text ?e)) => match goal with G : readable e |- _ => exact (proj2 G) end : core.


(** Skipping a token that must be there. *)
Lemma skip_need t m k k' E : need t m k = Ok (true, k') -> t <> TK_INVALID -> crel k E ->
  exists x, tk_type x = t /\ m (nxt k) = Ok (true, k') /\ crel (nxt k) E /\ does k (nxt k) [x] [] [] [] E E (fun _ _ _ _ => True).
Proof.
  intros H T R. destruct (need_inv _ _ _ _ H T) as (x & q & X & Y & Z). exists x. split; [exact Y|]. split; [exact Z|]. split; [apply nxt_rel, R|eapply does_nxt; eauto].
Qed.

Ltac tyne := match goal with |- ?a <> ?b => unfold a, b; discriminate end.
Ltac sk H x T R D := match type of R with crel ?k ?E =>
  apply (skip_need _ _ _ _ E) in H; [|tyne|exact R]; destruct H as (x & T & H & ? & D) end.

Lemma good_var : goods (var_declaration r).
Proof.
  intros k k' E H N R. apply enter_inv in H; [|discriminate]. apply crel_rec with (x := k_rec k + 1) in R.
  apply (skip_need _ _ _ _ E) in H; [|tyne|exact R]. destruct H as (x & Tx & H & R1 & D1).
  kb H. injection E0 as <- <-. set (k1 := nxt (set_k_rec (k_rec k + 1) k)) in *.
  destruct (Z.eqb_spec (cur_type k1) TK_IDENTIFIER) as [_|]; cbn [negb] in H; [|exfalso; exact (complain_up _ _ _ _ _ H N)].
  kb H. injection E0 as <- <-. cbv zeta in H. pose proof H as HH. apply (skip_need _ _ _ _ E) in H; [|tyne|exact R1]. destruct H as (y & Ty & H & R2 & D2).
  assert (cur_str k1 = tk_str y) as Sy.
  { destruct (need_inv _ _ _ _ HH ltac:(tyne)) as (y' & q & A & _ & _). pose proof (d_toks _ _ _ _ _ _ _ (s_did _ _ _ _ _ _ _ _ _ D2)) as B. rewrite A in B. injection B as -> _.
    unfold cur_str. rewrite A. reflexivity. }
  rewrite Sy in H. clear HH. set (k2 := nxt k1) in *. kb H. injection E0 as <- <-.
  assert (forall k3 E3 fx F P, does (set_k_rec (k_rec k + 1) k) k3 fx [] [] F E E3 P -> need TK_SEMICOLON (pop_recursion ;~ kret true) k3 = Ok (true, k') ->
    exists s, tk_type s = TK_SEMICOLON /\ k_w k' = k_w k3 /\ does k k' (fx ++ [s]) [] [] F E E3 P) as Fin.
  { intros k3 E3 l F P D X. pose proof (does_rel _ _ _ _ _ _ _ _ _ D) as R3. apply (skip_need _ _ _ _ E3) in X; [|tyne|exact R3]. destruct X as (s & Ts & X & R4 & D4).
    kb X. apply pop_rec_inv in E0. injection X as <-. subst. exists s. split; [exact Ts|]. split; [apply nxt_w|].
    pose proof (does_seq _ _ _ _ _ _ _ _ _ _ _ _ _ _ _ _ R D D4) as D5. cbn [app] in D5. rewrite app_nil_r in D5.
    apply does_rec. apply does_rec_l in D5. eapply does_wk; [exact D5|]. cbv beta. intuition. }
  pose proof (does_seq _ _ _ _ _ _ _ _ _ _ _ _ _ _ _ _ R D1 D2) as D. cbn [app] in D.
  assert (k_w k2 = k_w k) as W2. { unfold k2, k1. rewrite !nxt_w. reflexivity. }
  destruct (Z.eqb_spec (cur_type k2) TK_ASSIGNMENT) as [_|_].
  - apply (skip_need _ _ _ _ E) in H; [|tyne|exact R2]. destruct H as (q & Tq & H & R3 & D3). kb H. rename k0 into k3, x0 into b, E0 into X.
    destruct b; cbn [negb] in H; [|apply give_up_inv in H; discriminate]. nn W H k3. destruct (does_expr _ _ _ _ X H0 R3) as (e & u & Fe & G & Td & De).
    kb H. rename k0 into k4, x0 into b, E0 into Y. nn W H k4. destruct (does_add _ _ _ _ _ _ Y H1 (does_rel _ _ _ _ _ _ _ _ _ De)) as (_ & W4 & Da). cbn [app used_at e_used] in W4, Da.
    pose proof (does_seq _ _ _ _ _ _ _ _ _ _ _ _ _ _ _ _ R D D3) as D5. pose proof (does_seq _ _ _ _ _ _ _ _ _ _ _ _ _ _ _ _ R D5 De) as D6. pose proof (does_seq _ _ _ _ _ _ _ _ _ _ _ _ _ _ _ _ R D6 Da) as D7.
    destruct (Fin _ _ _ _ _ D7 H) as (s & Ts & W5 & D8). cbn [app] in D8.
    exists (SInit x y q e s), [], Fe, (declare (tk_str y) (used_at E (u - 1))). constructor; cbn [stext written open_ended after]; auto; try discriminate.
    + rewrite ?app_nil_r in D8. eapply does_as; [exact D8|rewrite ?app_nil_r; reflexivity|reflexivity|]. cbv beta. intros m ng fa lp _ [[_ X1] [X2 X3]].
      rewrite nxt_w, W2 in X1. rewrite W5, W4. change (decl_words (used_at E u)) with (decl_words E) in *. change (decl_ok ng (used_at E u)) with (decl_ok ng E) in X3. apply sc_init; auto.
    + apply sim_declare, sim_used.
    + intros funs T. constructor. auto.
  - kb H. rename k0 into k4, x0 into b, E0 into Y. nn W H k4. destruct (does_add _ _ _ _ _ _ Y H0 R2) as (_ & W4 & Da).
    pose proof (does_seq _ _ _ _ _ _ _ _ _ _ _ _ _ _ _ _ R D Da) as D5. destruct (Fin _ _ _ _ _ D5 H) as (s & Ts & W5 & D8). cbn [app] in D8.
    unfold k2, k1 in *. rewrite Z.sub_0_r, used_at_same in D8. exists (SVar x y s), [], [], (declare (tk_str y) E). constructor; cbn [stext written open_ended after]; auto; try discriminate.
    + eapply does_as; [exact D8|reflexivity|reflexivity|]. cbv beta. intros m ng fa lp _ [_ [X2 X3]]. rewrite W5, W4, W2. rewrite W2 in X2. apply sc_var; auto.
    + apply sim_refl.
    + constructor.
Qed.

Lemma skip_need_in i t m k k' E : need_in i t m k = Ok (true, k') -> t <> TK_INVALID -> crel k E ->
  exists x, tk_type x = t /\ m (nxt k) = Ok (true, k') /\ crel (nxt k) E /\ does k (nxt k) [x] [] [] [] E E (fun _ _ _ _ => True).
Proof.
  intros H T R. destruct (need_in_inv _ _ _ _ _ H T) as (x & q & X & Y & Z). exists x. split; [exact Y|]. split; [exact Z|]. split; [apply nxt_rel, R|eapply does_nxt; eauto].
Qed.

(** [ext R D D2]: [D2] comes after [D]. *)
Ltac ext R D D2 := let X := fresh in
  pose proof (does_seq _ _ _ _ _ _ _ _ _ _ _ _ _ _ _ _ R D D2) as X; clear D; rename X into D; cbn [app] in D; cbv beta in D; rewrite ?app_nil_r in D.
Ltac start R D := match type of R with crel ?k ?E => pose proof (does_did _ _ _ _ _ (did_refl k E R)) as D end.
Ltac tk R H D x T := let Rc := fresh in let D2 := fresh in
  pose proof (does_rel _ _ _ _ _ _ _ _ _ D) as Rc;
  match type of Rc with crel ?k ?E => first [apply (skip_need _ _ _ _ E) in H | apply (skip_need_in _ _ _ _ _ E) in H]; [|tyne|exact Rc]; clear Rc;
    destruct H as (x & T & H & Rc & D2); clear Rc; ext R D D2; clear D2 end.


Lemma does_op op k u k' E : add_op op true k = Ok (u, k') -> noerr k' -> crel k E ->
  k_w k' = k_w k + 1 /\ does k k' [] [] [] [] E (used_at E (e_used E + stack_offset op)) (fun m _ _ _ => mem_words m (k_w k) [op]).
Proof.
  intros H N R. destruct (does_em (add_op op true) (fun _ x ws x' => ws = [op] /\ x' = x + stack_offset op) _ _ _ E ltac:(intros c q S; eapply em_wk; [apply em_word|]; ez; auto) H N R) as (ws & v & [-> ->] & Wk & D). auto.
Qed.

Lemma does_return k u k' E : emit_return k = Ok (u, k') -> noerr k' -> crel k E ->
  k_w k' = k_w k + 3 /\ does k k' [] [] [] [] E E (fun m _ fa _ => exists a, fa = Some a /\ mem_words m (k_w k) [OP_LIT_INT; u32 (e_used E - a - 3); OP_RETURN]).
Proof.
  intros H N R. destruct (crel_at _ _ R) as (c & q & C & A & S). unfold emit_return in H. kb H. injection E0 as <- <-. destruct (find_fn (k_ctx k)) as [f|] eqn:Ff; [|exfalso; eapply cerror_errs; eauto].
  kb H. injection E0 as <- <-. destruct (_ <=? f); [exfalso; eapply cerror_errs; eauto|]. kb H. apply klift_inv in E0. destruct E0 as [Rd ->]. rename x into fn.
  kb H. unfold cur_cc in E0. kb E0. injection E1 as <- <-. rewrite C in E0. injection E0 as <- <-.
  pose proof (cr_hd _ _ R) as (c' & q' & C' & Of & L). rewrite C in C'. injection C' as <- <-. rewrite Of in H.
  destruct (does_em (push_lit_int (u32 (e_used E) - f_argc fn - 3) false ;~ add_op OP_RETURN false) (fun _ x ws x' => ws = [OP_LIT_INT; u32 (e_used E - f_argc fn - 3); OP_RETURN] /\ x' = x) _ _ _ E ltac:(intros c' q' S'; eapply em_wk; [eb; [apply em_lit_int|]; apply em_word|]; ez; split; [|reflexivity]; do 2 f_equal; unfold u32, W32; lia) H N R)
    as (ws & v & [-> ->] & Wk & D).
  split; [exact Wk|]. rewrite used_at_same in D. destruct D as [D1 D2 D3]. constructor; auto. intros m ng Om Ng Tb. destruct (D2 m ng Om Ng Tb) as [X Y]. split; [|exact Y].
  intros fa lp B Fn. exists (f_argc fn). split; [|eapply X; eauto]. unfold fno in Fn. rewrite Ff in Fn. destruct Fn as (fn2 & Z1 & Z2). unfold rd in Rd. rewrite Z1 in Rd. injection Rd as <-. exact Z2.
Qed.

Lemma good_return : goods (return_statement r).
Proof.
  intros k k' E H N R0. apply enter_inv in H; [|discriminate]. pose proof (crel_rec (k_rec k + 1) _ _ R0) as R. start R D. tk R H D x Tx.
  kb H. destruct x0; cbn [negb] in H; [|apply give_up_inv in H; discriminate]. nn W H k0. destruct (does_expr _ _ _ _ E0 H0 (does_rel _ _ _ _ _ _ _ _ _ D)) as (e & u & Fe & G & Td & De). ext R D De.
  kb H. nn W H k1. destruct (does_return _ _ _ _ E1 H1 (does_rel _ _ _ _ _ _ _ _ _ D)) as (W1 & Dt). ext R D Dt. tk R H D s Ts. kb H. injection H as <-. apply pop_rec_inv in E2. subst k2.
  exists (SReturn x e s), [], Fe, (used_at E u). constructor; cbn [stext written open_ended after]; auto; try discriminate.
  - apply does_rec, (does_rec_l (k_rec k + 1)). eapply does_as; [exact D|reflexivity|reflexivity|]. cbv beta. intros m ng fa lp _ [[[_ X1] (a & -> & X2)] _].
    rewrite nxt_w in X1. ks. rewrite nxt_w, W1. apply sc_return; auto.
  - apply sim_used.
  - intros funs T. constructor. auto.
Qed.

Definition goodb (b : calls) : Prop := forall bare k k' E, r_block b bare k = Ok (true, k') -> noerr k' -> crel k E ->
  exists l fx F E1 k1, does k k1 (sstext l) fx [] F E E1 (fun m ng fa lp => sscode m ng fa lp E l (k_w k) (k_w k1) E1) /\
    swritten l /\ (forall funs, table F funs -> sdefined funs E l) /\
    if bare : bool then cur_type k1 = TK_INVALID /\ k' = set_k_rec (k_rec k1 - 1) k1
    else (pop_context ;~ need TK_CURLY_CLOSE (pop_recursion ;~ kret true)) k1 = Ok (true, k').
Hypothesis HB : goodb r.

Lemma goods_loop bare k k' E : block_loop r bare k = Ok (true, k') -> noerr k' -> crel k E ->
  exists l fx F E1 k1, does k k1 (sstext l) fx [] F E E1 (fun m ng fa lp => sscode m ng fa lp E l (k_w k) (k_w k1) E1) /\
    swritten l /\ (forall funs, table F funs -> sdefined funs E l) /\
    if bare : bool then cur_type k1 = TK_INVALID /\ k' = set_k_rec (k_rec k1 - 1) k1
    else (pop_context ;~ need TK_CURLY_CLOSE (pop_recursion ;~ kret true)) k1 = Ok (true, k').
Proof.
  intros H N R. unfold block_loop in H. kb H. injection E0 as <- <-.
  destruct (negb (cur_type k =? TK_CURLY_CLOSE) && negb (cur_type k =? TK_INVALID)) eqn:Q.
  - kb H. destruct x.
    + nn W H k0. destruct (HS _ _ _ E0 H0 R) as (st & fx & F & E1 & [D Wr _ Af _ Df]). destruct (HB _ _ _ _ H N (does_rel _ _ _ _ _ _ _ _ _ D)) as (l & fx2 & F2 & E2 & k2 & D2 & Wr2 & Df2 & Z).
      ext R D D2. exists (Then st l), (fx2 ++ fx), (F ++ F2), E2, k2. split; [|split; [|split]]; cbn [swritten sstext]; auto.
      * eapply does_wk; [exact D|]. cbv beta. intros m ng fa lp _ [X Y]. eapply ss_then; eauto.
      * intros funs T. apply table_app in T. destruct T as [T1 T2]. constructor; [auto|]. eapply sdefined_sim; eauto.
    + kb H. apply give_up_inv in H. discriminate.
  - destruct ((cur_type k =? TK_CURLY_CLOSE) && bare) eqn:Q2. { exfalso. eapply complain; eauto. }
    exists Done, [], [], E, k. split; [|split; [|split]]; cbn [swritten sstext]; auto.
    + start R D. eapply does_wk; [exact D|]. intros. apply ss_done.
    + constructor.
    + destruct bare; [|exact H]. kb H. apply pop_rec_inv in E0. injection H as <-. split; [|exact E0]. rewrite andb_true_r in Q2. rewrite Q2 in Q. cbn in Q. apply negb_false_iff, Z.eqb_eq in Q. exact Q.
Qed.

Lemma does_toks k k' l l' k2 F1 F2 f1 f2 h1 h2 E1 E2 E3 E4 P1 P2 : does k k' l f1 h1 F1 E1 E2 P1 -> does k2 l' l f2 h2 F2 E3 E4 P2 -> k_toks k = k_toks k2 -> cur_type k' = cur_type l'.
Proof.
  intros A B C. pose proof (d_toks _ _ _ _ _ _ _ (s_did _ _ _ _ _ _ _ _ _ A)) as X. pose proof (d_toks _ _ _ _ _ _ _ (s_did _ _ _ _ _ _ _ _ _ B)) as Y. rewrite C, Y in X. apply app_inv_head in X. unfold cur_type. rewrite X. reflexivity.
Qed.

Lemma good_block : goods (block r false).
Proof.
  intros k k' E H N R0. apply enter_inv in H; [|discriminate]. pose proof (crel_rec (k_rec k + 1) _ _ R0) as R. start R D. tk R H D x Tx.
  kb H. destruct (push_inv _ _ _ _ E0 (does_rel _ _ _ _ _ _ _ _ _ D)) as [K0 Rp]. destruct (HB _ _ _ _ H N Rp) as (l & fx & F & E1 & k1 & Db & Wr & Df & Z). kb Z. nn W Z k2.
  destruct (does_scope _ _ _ _ _ _ _ _ _ _ _ _ _ (does_rel _ _ _ _ _ _ _ _ _ D) E0 Db E2 H0) as [W2 Ds]. ext R D Ds. tk R Z D y Ty. kb Z. apply pop_rec_inv in E3. injection Z as <-. subst k3.
  exists (SBlock x l y), fx, F, E. constructor; cbn [stext written open_ended after]; auto; try discriminate.
  - apply does_rec, (does_rec_l (k_rec k + 1)). rewrite ?app_nil_r in D. eapply does_as; [exact D|reflexivity|reflexivity|]. cbv beta. intros m ng fa lp _ [[_ [X1 X2]] _].
    assert (k_w k0 = k_w k) as W0 by (rewrite K0; ks; rewrite nxt_w; reflexivity). rewrite W0 in X1. ks. rewrite nxt_w, W2. apply sc_block; auto.
  - apply sim_refl.
  - intros funs T. constructor. auto.
Qed.

(** A statement in a scope of its own. *)
Lemma does_body k u k1 k2 u' k3 E : push_context k = Ok (u, k1) -> r_stmt r k1 = Ok (true, k2) -> pop_context k2 = Ok (u', k3) -> noerr k3 -> crel k E ->
  exists st fx F E2, written st /\ (open_ended st = true -> cur_type k3 <> TK_ELSE) /\ (forall funs, table F funs -> defined funs (enter_scope E) st) /\
    k_w k3 = k_w k2 + zlen (pop_words (locals_of E2)) /\
    does k k3 (stext st) fx [] F E E (fun m ng fa lp => scode m ng fa lp (enter_scope E) st (k_w k) (k_w k2) E2 /\ mem_words m (k_w k2) (pop_words (locals_of E2))).
Proof.
  intros H1 H2 H3 N R. destruct (push_inv _ _ _ _ H1 R) as [K0 Rp]. nn W H3 k2. destruct (HS _ _ _ H2 H Rp) as (st & fx & F & E2 & [D Wr Op _ _ Df]).
  destruct (does_scope _ _ _ _ _ _ _ _ _ _ _ _ _ R H1 D H3 N) as [W2 Ds]. exists st, fx, F, E2. split; [exact Wr|]. split; [|split; [exact Df|split; [exact W2|]]].
  - rewrite (does_toks _ _ _ _ _ _ _ _ _ _ _ _ _ _ _ _ _ Ds D); [exact Op|]. rewrite K0. reflexivity.
  - eapply does_wk; [exact Ds|]. cbv beta. rewrite K0. ks. auto.
Qed.

(** A jump, its target still unknown, after [D]. *)
Lemma does_jz k k' a E : emit_jz 0 k = Ok (a, k') -> noerr k' -> crel k E ->
  a = k_w k /\ k_w k' = k_w k + 3 /\ does k k' [] [] [k_w k] [] E (used_at E (e_used E - 1))
    (fun m _ _ _ => forall T, m (k_w k + 1) = Some (u32 (T - k_w k - 3)) -> mem_words m (k_w k) (jump_words OP_JZ (k_w k) T)).
Proof.
  intros H N R. destruct (emit_jz_is _ _ _ _ H) as [-> H2]. destruct (does_hole _ _ _ _ _ H2 N R) as [A B]. split; [reflexivity|]. split; [exact A|].
  replace (e_used E - 1) with (e_used E + 1 + stack_offset OP_JZ) by (change (stack_offset OP_JZ) with (-2); lia). exact B.
Qed.
Lemma does_jmp k k' a E : emit_jump 0 k = Ok (a, k') -> noerr k' -> crel k E ->
  a = k_w k /\ k_w k' = k_w k + 3 /\ does k k' [] [] [k_w k] [] E E
    (fun m _ _ _ => forall T, m (k_w k + 1) = Some (u32 (T - k_w k - 3)) -> mem_words m (k_w k) (jump_words OP_JUMP (k_w k) T)).
Proof.
  intros H N R. destruct (emit_jump_is _ _ _ _ H) as [-> H2]. destruct (does_hole _ _ _ _ _ H2 N R) as [A B]. split; [reflexivity|]. split; [exact A|].
  replace (e_used E + 1 + stack_offset OP_JUMP) with (e_used E) in B by (change (stack_offset OP_JUMP) with (-1); lia). rewrite used_at_same in B. exact B.
Qed.

Lemma patch_inv a t k k1 u k2 l fx h h' F E E1 P : does k k1 l fx h F E E1 P -> modify_jump a t k1 = Ok (u, k2) -> In a h -> (forall j, In j h -> j = a \/ In j h') -> (forall j, In j h' -> In j h /\ j <> a) -> ~ In a fx -> crel k E ->
  k_w k2 = k_w k1 /\ k_toks k2 = k_toks k1 /\ does k k2 l fx h' F E E1 (fun m ng fa lp => P m ng fa lp /\ m (a + 1) = Some (u32 (t - a - 3))).
Proof.
  intros D H I A B C R. pose proof (s_holes _ _ _ _ _ _ _ _ _ D _ I) as Hl. pose proof (kw_w _ (cr_wf _ _ R)) as Kw.
  destruct (modify_jump_inv _ _ _ _ _ H (cr_wf _ _ (does_rel _ _ _ _ _ _ _ _ _ D)) ltac:(lia) ltac:(lia)) as [Pt Mv].
  pose proof (does_patch _ _ _ _ _ _ _ _ _ _ _ _ _ D Pt Mv I A B C) as D2. destruct Pt as [v ->]. split; [reflexivity|]. split; [reflexivity|exact D2].
Qed.
Lemma repatch_inv a t k k1 u k2 l fx h F E E1 P : does k k1 l fx h F E E1 P -> modify_jump a t k1 = Ok (u, k2) -> In a h -> crel k E ->
  k_w k2 = k_w k1 /\ k_toks k2 = k_toks k1 /\ does k k2 l fx h F E E1 P.
Proof.
  intros D H I R. pose proof (s_holes _ _ _ _ _ _ _ _ _ D _ I) as Hl. pose proof (kw_w _ (cr_wf _ _ R)) as Kw.
  destruct (modify_jump_inv _ _ _ _ _ H (cr_wf _ _ (does_rel _ _ _ _ _ _ _ _ _ D)) ltac:(lia) ltac:(lia)) as [Pt Mv].
  pose proof (does_patch_again _ _ _ _ _ _ _ _ _ _ _ D Pt I) as D2. destruct Pt as [v ->]. split; [reflexivity|]. split; [reflexivity|exact D2].
Qed.

Lemma fx_ge k k' l fx h F E E' P j a : does k k' l fx h F E E' P -> a < k_w k -> In j fx -> j <> a.
Proof. intros D A I. pose proof (d_fx _ _ _ _ _ _ _ (s_did _ _ _ _ _ _ _ _ _ D) _ I). lia. Qed.

Ltac ifno H := lazymatch goal with |- _ => cbn [negb] in H end.

Lemma good_if : goods (if_statement r).
Proof.
  intros k k' E H N R0. apply enter_inv in H; [|discriminate]. pose proof (crel_rec (k_rec k + 1) _ _ R0) as R. start R D. tk R H D i Ti. tk R H D o To.
  kb H. destruct x; cbn [negb] in H; [|apply give_up_inv in H; discriminate]. rename k0 into k1. nn W H k1. destruct (does_expr _ _ _ _ E0 H0 (does_rel _ _ _ _ _ _ _ _ _ D)) as (e & u & Fe & G & Td & De). ext R D De.
  kb H. rename k0 into k2, E1 into Ej. nn W H k2. destruct (does_jz _ _ _ _ Ej H1 (does_rel _ _ _ _ _ _ _ _ _ D)) as (-> & W2 & Dj). ext R D Dj. tk R H D c Tc.
  kb H. rename k0 into k3, E1 into Ep. kb H. rename k0 into k4, E1 into Es. match type of Es with _ = Ok (?b, _) => destruct b end; cbn [negb] in H; [|kb H; apply give_up_inv in H; discriminate].
  kb H. rename k0 into k5, E1 into Eq. nn W H k5. destruct (does_body _ _ _ _ _ _ _ Ep Es Eq H2 (does_rel _ _ _ _ _ _ _ _ _ D)) as (st & fx & F & E1 & Wr & Op & Df & W5 & Db).
  assert (forall j, In j fx -> j <> k_w k1) as Nj. { intros j. apply (fx_ge _ _ _ _ _ _ _ _ _ _ _ Db). rewrite nxt_w, W2. lia. }
  ext R D Db. cbn [used_at e_used] in D. kb H. injection E2 as <- <-. kb H. rename k0 into k6, E2 into Em. kb H. injection E2 as <- <-.
  assert (k_w (nxt (nxt (set_k_rec (k_rec k + 1) k))) = k_w k) as W0 by (rewrite !nxt_w; reflexivity). rewrite nxt_w, W2, W0 in *.
  destruct (Z.eqb_spec (cur_type k6) TK_ELSE) as [Q|Q].
  - destruct (repatch_inv _ _ _ _ _ _ _ _ _ _ _ _ _ D Em ltac:(left; reflexivity) R) as (W6 & T6 & D6). clear D. rename D6 into D.
    assert (cur_type k6 = cur_type k5) as Q5 by (unfold cur_type; rewrite T6; reflexivity). rewrite Q5 in Q.
    tk R H D el Tel. kb H. rename k0 into k7, E2 into Ej2. nn W H k7. destruct (does_jmp _ _ _ _ Ej2 H3 (does_rel _ _ _ _ _ _ _ _ _ D)) as (-> & W7 & Dj2).
    rewrite nxt_w in *. ext R D Dj2. kb H. injection E2 as <- <-. kb H. rename k0 into k8, E2 into Em2. rewrite W7, W6 in Em2.
    destruct (patch_inv _ _ _ _ _ _ _ _ _ [k_w k5] _ _ _ _ D Em2) as (W8 & T8 & D8); auto.
    { right. left. reflexivity. }
    { intros j [<-|[<-|[]]]; [right; left; lia|left; reflexivity]. }
    { intros j [<-|[]]. split; [left; lia|]. rewrite W5. pose proof (zlen_nonneg (pop_words (locals_of E1))). pose proof (d_w _ _ _ _ _ _ _ (s_did _ _ _ _ _ _ _ _ _ Db)). rewrite nxt_w in *. lia. }
    { intro I. exact (Nj _ I eq_refl). }
    clear D. rename D8 into D.
    kb H. rename k0 into k9, E2 into Ep2. kb H. rename k0 into k10, E2 into Es2. match type of Es2 with _ = Ok (?b, _) => destruct b end; cbn [negb] in H; [|kb H; apply give_up_inv in H; discriminate].
    kb H. rename k0 into k11, E2 into Eq2. nn W H k11. destruct (does_body _ _ _ _ _ _ _ Ep2 Es2 Eq2 H4 (does_rel _ _ _ _ _ _ _ _ _ D)) as (st2 & fx2 & F2 & E2 & Wr2 & Op2 & Df2 & W11 & Db2).
    assert (forall j, In j fx2 -> j <> k_w k5) as Nj2. { intros j. apply (fx_ge _ _ _ _ _ _ _ _ _ _ _ Db2). rewrite W8, W7, W6. lia. }
    ext R D Db2. kb H. injection E3 as <- <-. kb H. rename k0 into k12, E3 into Em3. rewrite ?W6 in Em3.
    assert (forall j, In j (fx2 ++ fx) -> j <> k_w k5) as Nj3.
    { intros j I. apply in_app_or in I. destruct I as [I|I]; [auto|]. pose proof (d_fx _ _ _ _ _ _ _ (s_did _ _ _ _ _ _ _ _ _ Db) _ I). lia. }
    destruct (patch_inv _ _ _ _ _ _ _ _ _ [] _ _ _ _ D Em3) as (W12 & T12 & D12); auto.
    { left. reflexivity. }
    { intros j [<-|[]]. auto. }
    { intros j []. }
    { intro I. exact (Nj3 _ I eq_refl). }
    kb H. apply pop_rec_inv in E3. injection H as <-. subst k0.
    exists (SElse i o e c st el st2), (fx2 ++ fx), ((Fe ++ F) ++ F2), (used_at E (u - 1)). constructor; cbn [stext written open_ended after].
    + apply does_rec, (does_rec_l (k_rec k + 1)). eapply does_as; [exact D12|repeat (rewrite <- ?app_assoc; cbn [app]); reflexivity|reflexivity|]. cbv beta. intros m ng fa lp _ X.
      repeat match goal with Z : _ /\ _ |- _ => destruct Z end. ks. rewrite W12.
      eapply sc_else with (b1 := k_w k1) (b2 := k_w k4) (b3 := k_w k5) (b4 := k_w k10); eauto.
      all: rewrite ?W8, ?W7, ?W6 in *; auto. rewrite <- W2. assumption.
    + repeat split; auto. destruct (open_ended st) eqn:O; [|reflexivity]. destruct (Op eq_refl Q).
    + intro O. ks. replace (cur_type (set_k_rec _ k12)) with (cur_type k11); [auto|]. unfold cur_type. ks. rewrite T12. reflexivity.
    + apply sim_used.
    + reflexivity.
    + intros funs T. apply table_app in T. destruct T as [T T2]. apply table_app in T. destruct T. constructor; [auto|apply (defined_sim _ _ (enter_scope (used_at E (u - 1)))); auto using sim_enter, sim_used|apply (defined_sim _ _ (enter_scope (used_at E (u - 1)))); auto using sim_enter, sim_used].
  - destruct (patch_inv _ _ _ _ _ _ _ _ _ [] _ _ _ _ D Em) as (W6 & T6 & D6); auto.
    { left. reflexivity. }
    { intros j [<-|[]]. auto. }
    { intros j []. }
    { intro I.  exact (Nj _ I eq_refl). }
    kb H. apply pop_rec_inv in E2. injection H as <-. subst k0. 
    exists (SIf i o e c st), fx, (Fe ++ F), (used_at E (u - 1)). constructor; cbn [stext written open_ended after].
    + apply does_rec, (does_rec_l (k_rec k + 1)). eapply does_as; [exact D6|repeat (rewrite <- ?app_assoc; cbn [app]); reflexivity|reflexivity|]. cbv beta. intros m ng fa lp _ X.
      repeat match goal with Z : _ /\ _ |- _ => destruct Z end. ks. rewrite W6. eapply sc_if with (b1 := k_w k1) (b2 := k_w k4); eauto. rewrite <- W2, <- (nxt_w k2). assumption.
    + repeat split; auto.
    + intros _. exact Q.
    + apply sim_used.
    + reflexivity.
    + intros funs T. apply table_app in T. destruct T. constructor; [auto|]. apply (defined_sim _ _ (enter_scope (used_at E (u - 1)))); auto using sim_enter, sim_used.
Qed.

Lemma does_jz_to t k a k' E : emit_jz t k = Ok (a, k') -> noerr k' -> crel k E ->
  k_w k' = k_w k + 3 /\ does k k' [] [] [] [] E (used_at E (e_used E - 1)) (fun m _ _ _ => mem_words m (k_w k) (jump_words OP_JZ (k_w k) t)).
Proof.
  intros H N R. destruct (emit_jz_is _ _ _ _ H) as [-> H2]. destruct (does_jump_op _ _ _ _ _ H2 N R) as [A B]. split; [exact A|].
  replace (e_used E - 1) with (e_used E + 1 + stack_offset OP_JZ) by (change (stack_offset OP_JZ) with (-2); lia). exact B.
Qed.
Lemma does_jmp_to t k a k' E : emit_jump t k = Ok (a, k') -> noerr k' -> crel k E ->
  k_w k' = k_w k + 3 /\ does k k' [] [] [] [] E E (fun m _ _ _ => mem_words m (k_w k) (jump_words OP_JUMP (k_w k) t)).
Proof.
  intros H N R. destruct (emit_jump_is _ _ _ _ H) as [-> H2]. destruct (does_jump_op _ _ _ _ _ H2 N R) as [A B]. split; [exact A|].
  replace (e_used E + 1 + stack_offset OP_JUMP) with (e_used E) in B by (change (stack_offset OP_JUMP) with (-1); lia). rewrite used_at_same in B. exact B.
Qed.

Lemma good_while : goods (while_statement r).
Proof.
  intros k k' E H N R0. unfold while_statement in H. kb H. injection E0 as <- <-. apply enter_inv in H; [|discriminate]. pose proof (crel_rec (k_rec k + 1) _ _ R0) as R.
  kb H. rename k0 into k1, E0 into Eo. destruct (open_inv _ _ _ _ Eo R) as [K1 R1]. assert (k_w k1 = k_w k) as W1 by (rewrite K1; reflexivity). assert (k_toks (set_k_rec (k_rec k + 1) k) = k_toks k1) as T1 by (rewrite K1; reflexivity). clear K1.
  start R1 D. tk R1 H D w Tw. tk R1 H D o To.
  kb H. rename k0 into k2, E0 into Ee. match type of Ee with _ = Ok (?b, _) => destruct b end; cbn [negb] in H; [|kb H; apply give_up_inv in H; discriminate]. nn W H k2.
  destruct (does_expr _ _ _ _ Ee H0 (does_rel _ _ _ _ _ _ _ _ _ D)) as (e & u & Fe & G & Td & De). rewrite !nxt_w in De. ext R1 D De.
  kb H. rename k0 into k3, E0 into Ej. nn W H k3. destruct (does_jz _ _ _ _ Ej H1 (does_rel _ _ _ _ _ _ _ _ _ D)) as (-> & W3 & Dj). ext R1 D Dj. tk R1 H D c Tc.
  kb H. rename k0 into k4, E0 into Ep. kb H. rename k0 into k5, E0 into Es. match type of Es with _ = Ok (?b, _) => destruct b end; cbn [negb] in H; [|kb H; apply give_up_inv in H; discriminate].
  kb H. rename k0 into k6, E0 into Eq. nn W H k6. destruct (does_body _ _ _ _ _ _ _ Ep Es Eq H2 (does_rel _ _ _ _ _ _ _ _ _ D)) as (st & fx & F & E1 & Wr & Op & Df & W6 & Db). rewrite nxt_w in Db.
  assert (forall j, In j fx -> j <> k_w k2) as Nj. { intros j. apply (fx_ge _ _ _ _ _ _ _ _ _ _ _ Db). rewrite nxt_w, W3. lia. }
  ext R1 D Db. kb H. rename k0 into k7, E0 into Ejm. nn W H k7. destruct (does_jmp_to _ _ _ _ _ Ejm H3 (does_rel _ _ _ _ _ _ _ _ _ D)) as (W7 & Djm). ext R1 D Djm.
  kb H. injection E0 as <- <-. kb H. rename k0 into k8, E0 into Em.
  destruct (patch_inv _ _ _ _ _ _ _ _ _ [] _ _ _ _ D Em) as (W8 & T8 & D8); auto.
  { left. reflexivity. }
  { intros j [<-|[]]. auto. }
  { intros j []. }
  { intro I. exact (Nj _ I eq_refl). }
  kb H. rename k0 into k9, E0 into Ec. nn W H k9. destruct (does_loop _ _ _ _ _ _ _ _ _ _ _ _ R Eo D8 Ec H4) as [W9 D9].
  kb H. apply pop_rec_inv in E0. injection H as <-. subst k0.
  change (locals_of (used_at _ _)) with 0 in W9, D9. change (zlen (pop_words 0)) with 0 in W9.
  exists (SWhile w o e c st), [], (Fe ++ F), E. constructor; cbn [stext written open_ended after].
  - apply does_rec, (does_rec_l (k_rec k + 1)). eapply does_as; [exact D9|repeat (rewrite <- ?app_assoc; cbn [app]); reflexivity|reflexivity|]. cbv beta. intros m ng fa lp _ X.
    repeat match goal with Z : _ /\ _ |- _ => destruct Z end. ks. rewrite W1, W9, W8, Z.add_0_r in *.
    eapply sc_while with (b1 := k_w k2) (b2 := k_w k5) (b3 := k_w k6); eauto. rewrite <- W3. assumption.
  - repeat split; auto.
  - intro O. replace (cur_type (set_k_rec _ k9)) with (cur_type k6); [auto|].
    change (cur_type (set_k_rec (k_rec k9 - 1) k9)) with (cur_type k9). rewrite (does_toks _ _ _ _ _ _ _ _ _ _ _ _ _ _ _ _ _ D9 D8 T1).
    unfold cur_type. rewrite T8, (d_toks _ _ _ _ _ _ _ (s_did _ _ _ _ _ _ _ _ _ Djm)). reflexivity.
  - apply sim_refl.
  - reflexivity.
  - intros funs T. apply table_app in T. destruct T. constructor; [apply (told_sim _ _ _ _ (simg_loop E) Td); assumption|]. apply (defined_sim _ _ (enter_scope (used_at (enter_loop E) (u - 1)))); [apply sim_enter, sim_used|auto].
Qed.

Lemma good_do : goods (do_statement r).
Proof.
  intros k k' E H N R0. unfold do_statement in H. kb H. injection E0 as <- <-. apply enter_inv in H; [|discriminate]. pose proof (crel_rec (k_rec k + 1) _ _ R0) as R.
  kb H. rename k0 into k1, E0 into Eo. destruct (open_inv _ _ _ _ Eo R) as [K1 R1]. assert (k_w k1 = k_w k) as W1 by (rewrite K1; reflexivity). clear K1.
  start R1 D. tk R1 H D d Tdo.
  kb H. rename k0 into k2, E0 into Ep. kb H. rename k0 into k3, E0 into Es. match type of Es with _ = Ok (?b, _) => destruct b end; cbn [negb] in H; [|kb H; apply give_up_inv in H; discriminate].
  kb H. rename k0 into k4, E0 into Eq. nn W H k4. destruct (does_body _ _ _ _ _ _ _ Ep Es Eq H0 (does_rel _ _ _ _ _ _ _ _ _ D)) as (st & fx & F & E1 & Wr & Op & Df & W4 & Db). rewrite nxt_w in Db.
  ext R1 D Db. tk R1 H D w Tw. tk R1 H D o To.
  kb H. rename k0 into k5, E0 into Ee. match type of Ee with _ = Ok (?b, _) => destruct b end; cbn [negb] in H; [|kb H; apply give_up_inv in H; discriminate]. nn W H k5.
  destruct (does_expr _ _ _ _ Ee H1 (does_rel _ _ _ _ _ _ _ _ _ D)) as (e & u & Fe & G & Td & De). rewrite !nxt_w in De. ext R1 D De. tk R1 H D c Tc.
  kb H. rename k0 into k6, E0 into En. nn W H k6. destruct (does_op _ _ _ _ _ En H2 (does_rel _ _ _ _ _ _ _ _ _ D)) as (W6 & Dn). rewrite nxt_w in *. change (stack_offset OP_NOT) with 0 in Dn. rewrite Z.add_0_r in Dn. cbn [used_at e_used] in Dn. ext R1 D Dn.
  kb H. rename k0 into k7, E0 into Ej. nn W H k7. destruct (does_jz_to _ _ _ _ _ Ej H3 (does_rel _ _ _ _ _ _ _ _ _ D)) as (W7 & Dj). ext R1 D Dj.
  kb H. rename k0 into k8, E0 into Ec. nn W H k8. destruct (does_loop _ _ _ _ _ _ _ _ _ _ _ _ R Eo D Ec H4) as [W8 D8].
  change (locals_of (used_at _ _)) with 0 in W8, D8. change (zlen (pop_words 0)) with 0 in W8.
  kb H. apply pop_rec_inv in E0. subst k0. destruct (expect_true _ _ _ H ltac:(tyne)) as (semi & q & Tq & Ts & ->).
  apply (does_rec (k_rec k8 - 1)) in D8. pose proof (does_nxt _ _ _ _ (does_rel _ _ _ _ _ _ _ _ _ D8) Tq) as Dx. ext R D8 Dx.
  exists (SDo d st w o e c semi), [], (F ++ Fe), E. constructor; cbn [stext written open_ended after].
  - apply (does_rec_l (k_rec k + 1)). eapply does_as; [exact D8|repeat (rewrite <- ?app_assoc; cbn [app]); reflexivity|reflexivity|]. cbv beta. intros m ng fa lp _ X.
    repeat match goal with Z : _ /\ _ |- _ => destruct Z end. rewrite nxt_w. ks. rewrite W1, W8, Z.add_0_r in *. rewrite W6 in *.
    eapply sc_do with (b1 := k_w k3) (b2 := k_w k4) (b3 := k_w k5) (u := u); eauto; [|lia].
    apply (mem_words_app _ _ [_]); [assumption|]. change (zlen [OP_NOT]) with 1. assumption.
  - repeat split; auto.
  - discriminate.
  - apply sim_refl.
  - reflexivity.
  - intros funs T. apply table_app in T. destruct T. constructor; [auto|]. apply (told_sim _ _ _ _ (simg_loop E) Td); assumption.
Qed.

Lemma good_for : goods (for_statement r).
Proof.
  intros k k' E H N R0. unfold for_statement in H. apply enter_inv in H; [|discriminate]. pose proof (crel_rec (k_rec k + 1) _ _ R0) as R.
  kb H. rename k0 into k1, E0 into Eo. destruct (open_inv _ _ _ _ Eo R) as [K1 R1]. assert (k_w k1 = k_w k) as W1 by (rewrite K1; reflexivity). assert (k_toks (set_k_rec (k_rec k + 1) k) = k_toks k1) as T1 by (rewrite K1; reflexivity). clear K1.
  start R1 D. tk R1 H D f Tf. tk R1 H D o To.
  kb H. rename k0 into k2, E0 into Ei. match type of Ei with _ = Ok (?b, _) => destruct b end; cbn [negb] in H; [|kb H; apply give_up_inv in H; discriminate]. nn W H k2.
  destruct (HS _ _ _ Ei H0 (does_rel _ _ _ _ _ _ _ _ _ D)) as (s0 & fx0 & F0 & E1 & [D0 Wr0 _ Af0 _ Df0]). rewrite !nxt_w in D0. ext R1 D D0.
  kb H. injection E0 as <- <-.
  kb H. rename k0 into k3, E0 into Ee. match type of Ee with _ = Ok (?b, _) => destruct b end; cbn [negb] in H; [|kb H; apply give_up_inv in H; discriminate]. nn W H k3.
  destruct (does_expr _ _ _ _ Ee H1 (does_rel _ _ _ _ _ _ _ _ _ D)) as (e & u & Fe & G & Td & De). ext R1 D De.
  kb H. rename k0 into k4, E0 into Ej. nn W H k4. destruct (does_jz _ _ _ _ Ej H2 (does_rel _ _ _ _ _ _ _ _ _ D)) as (-> & W4 & Dj). ext R1 D Dj. tk R1 H D semi Tsemi.
  kb H. rename k0 into k5, E0 into Et. match type of Et with _ = Ok (?b, _) => rename b into inc end.
  destruct (is_null inc) eqn:Nl; [kb H; apply give_up_inv in H; discriminate|]. nn W H k5.
  destruct (HE _ _ _ _ _ Et ltac:(intros ->; discriminate) H3 (does_rel _ _ _ _ _ _ _ _ _ D)) as (i & Fi & [[Gi _] _] & [Oi Ti] & Tdi & Di). pose proof (d_w _ _ _ _ _ _ _ (s_did _ _ _ _ _ _ _ _ _ Di)) as W5. rewrite nxt_w in W5, Di. ext R1 D Di. tk R1 H D c Tc.
  kb H. rename k0 into k6, E0 into Ep. kb H. rename k0 into k7, E0 into Es. match type of Es with _ = Ok (?b, _) => destruct b end; cbn [negb] in H; [|kb H; apply give_up_inv in H; discriminate].
  kb H. rename k0 into k8, E0 into Eq. nn W H k8. destruct (does_body _ _ _ _ _ _ _ Ep Es Eq H4 (does_rel _ _ _ _ _ _ _ _ _ D)) as (st & fx & F & E2 & Wr & Op & Df & W8 & Db). rewrite nxt_w in Db.
  assert (forall j, In j fx -> j <> k_w k3) as Nj. { intros j. apply (fx_ge _ _ _ _ _ _ _ _ _ _ _ Db). rewrite nxt_w. lia. }
  assert (forall j, In j fx0 -> j <> k_w k3) as Nj0. { intros j I. pose proof (d_fx _ _ _ _ _ _ _ (s_did _ _ _ _ _ _ _ _ _ D0) _ I). pose proof (d_w _ _ _ _ _ _ _ (s_did _ _ _ _ _ _ _ _ _ De)). lia. }
  ext R1 D Db.
  kb H. rename k0 into k9, E0 into Ev. match type of Ev with _ = Ok (?b, _) => destruct b end; cbn [negb] in H; [|kb H; apply give_up_inv in H; discriminate]. nn W H k9.
  destruct (does_em _ (fun b x ws x' => b = negb (is_null inc) /\ ecode (e_scopes E1) x inc ws x') _ _ _ (used_at E1 (u - 1)) ltac:(intros c' q' S'; apply em_expr; [exact S'|exact Ti]) Ev H5 (does_rel _ _ _ _ _ _ _ _ _ D)) as (ws & u2 & (_ & Ec) & W9 & Dv). assert (readable i) as Ri by exact (accepted_readable _ _ _ _ _ _ _ Gi Oi Ec). ext R1 D Dv.
  kb H. rename k0 into k10, E0 into Eo2. nn W H k10. destruct (does_op _ _ _ _ _ Eo2 H6 (does_rel _ _ _ _ _ _ _ _ _ D)) as (W10 & Dp). ext R1 D Dp.
  kb H. rename k0 into k11, E0 into Ejm. nn W H k11. destruct (does_jmp_to _ _ _ _ _ Ejm H7 (does_rel _ _ _ _ _ _ _ _ _ D)) as (W11 & Djm). ext R1 D Djm.
  kb H. injection E0 as <- <-. kb H. rename k0 into k12, E0 into Em.
  destruct (patch_inv _ _ _ _ _ _ _ _ _ [] _ _ _ _ D Em) as (W12 & T12 & D12); auto.
  { left. reflexivity. }
  { intros j [<-|[]]. auto. }
  { intros j []. }
  { intro I. apply in_app_or in I. destruct I as [I|I]; [exact (Nj _ I eq_refl)|exact (Nj0 _ I eq_refl)]. }
  kb H. rename k0 into k13, E0 into Ecl. nn W H k13. destruct (does_loop _ _ _ _ _ _ _ _ _ _ _ _ R Eo D12 Ecl H8) as [W13 D13].
  kb H. apply pop_rec_inv in E0. injection H as <-. subst k0.
  change (locals_of (used_at _ _)) with (locals_of E1) in W13, D13.
  exists (SFor f o s0 e semi i c st), [], (((F0 ++ Fe) ++ Fi) ++ F), E. constructor; cbn [stext written open_ended after].
  - apply does_rec, (does_rec_l (k_rec k + 1)). eapply does_as; [exact D13|repeat (rewrite <- ?app_assoc; cbn [app]); reflexivity|reflexivity|]. cbv beta. intros m ng fa lp _ X.
    repeat match goal with Z : _ /\ _ |- _ => destruct Z end. ks. rewrite W1, W12, W11, W10, W4 in *.
    eapply sc_for with (b1 := k_w k2) (E1 := E1) (b2 := k_w k3) (u := u) (b2' := k_w k5) (b3 := k_w k7) (E2 := E2) (b4 := k_w k8) (b5 := k_w k9) (u2 := u2) (b6 := k_w k9 + 4); eauto.
    + replace (k_w k9 + 1 + 3) with (k_w k9 + 4) in * by lia. auto.
    + exists inc, ws. auto.
    + apply (mem_words_app _ _ [_]); [assumption|]. change (zlen [OP_POP]) with 1. assumption.
    + replace (k_w k9 + 1 + 3) with (k_w k9 + 4) in * by lia. assumption.
    + lia.
  - repeat split; auto.
  - intro O. replace (cur_type (set_k_rec _ k13)) with (cur_type k8); [auto|].
    change (cur_type (set_k_rec (k_rec k13 - 1) k13)) with (cur_type k13). rewrite (does_toks _ _ _ _ _ _ _ _ _ _ _ _ _ _ _ _ _ D13 D12 T1).
    unfold cur_type. rewrite T12, (d_toks _ _ _ _ _ _ _ (s_did _ _ _ _ _ _ _ _ _ Dv)), (d_toks _ _ _ _ _ _ _ (s_did _ _ _ _ _ _ _ _ _ Dp)), (d_toks _ _ _ _ _ _ _ (s_did _ _ _ _ _ _ _ _ _ Djm)). reflexivity.
  - apply sim_refl.
  - reflexivity.
  - intros funs T. apply table_app in T. destruct T as [T Td4]. apply table_app in T. destruct T as [T Td3]. apply table_app in T. destruct T as [Td1 Td2].
    constructor; [auto|apply (told_sim _ _ _ _ (sim_simg _ _ Af0) Td); assumption|apply (told_sim _ _ _ _ (sim_simg _ _ (sim_trans _ _ _ (sim_used _ _) Af0)) Tdi); assumption|]. apply (defined_sim _ _ (enter_scope (used_at E1 (u - 1)))); [apply sim_enter; eapply sim_trans; [apply sim_used|exact Af0]|auto].
Qed.

(** ** break *)

Lemma does_break j k k1 k2 E : does k k1 [] [] [j] [] E E (fun m _ _ _ => forall T, m (j + 1) = Some (u32 (T - j - 3)) -> mem_words m j (jump_words OP_JUMP j T)) ->
  crel k E -> k2 = set_k_ctx (addfix [j] (k_ctx k1)) k1 -> loop_off (k_ctx k) <> None ->
  does k k2 [] [j] [] [] E E (fun m _ _ lp => exists T u, lp = Some (T, u) /\ loop_off (k_ctx k) = Some (u32 u) /\ mem_words m j (jump_words OP_JUMP j T)).
Proof.
  intros [D M Hh] R -> L. pose proof D as [D1 [R1 R2 (ch & rh & R3 & R3b & R3c) R4 R5 R6 R7 R8] D3 D4 D5 (c & q & c' & D6 & D7 & D8 & D9) D10 D11 D12 D13 D14 D15 D16 D17].
  rewrite addfix_nil in D7. rewrite D7 in R3. injection R3 as <- <-. split.
  - constructor; ks; try assumption; try contradiction.
    + constructor; ks; try assumption.
      * destruct R1; constructor; assumption.
      * apply addfix_srel. exact R2.
      * rewrite D7. cbn [addfix]. rewrite R3c. eauto.
      * rewrite addfix_last; exact R6.
    + exists c, q, c'. rewrite D7. cbn [addfix]. rewrite R3c. auto.
  - intros m ng O Ng Tb. ksin Ng. destruct (M m ng) as [X Y].
    + intros i Hi Hj. apply O; [exact Hi|]. intros x [[]|[<-|[]]]. apply Hj. left. left. reflexivity.
    + exact Ng.
    + exact Tb.
    + split; [|contradiction]. intros fa lp B Fn. unfold brk in B. destruct (loop_off (k_ctx k)) as [o|] eqn:Lo; [|contradiction]. destruct B as (T & u & -> & -> & Fi).
      exists T, u. split; [reflexivity|]. split; [reflexivity|]. eapply X; [|exact Fn|].
      * unfold brk. rewrite Lo. exists T, u. repeat split; auto. intros x [].
      * apply Fi. left. reflexivity.
  - contradiction.
Qed.

Lemma good_break : goods break_statement.
Proof.
  intros k k' E H N R0. unfold break_statement in H. kb H. unfold cur_cc in E0. kb E0. injection E1 as <- <-. pose proof (cr_hd _ _ R0) as (c & q & C & Of & Lf). rewrite C in E0. injection E0 as <- <-.
  apply enter_inv in H; [|discriminate]. pose proof (crel_rec (k_rec k + 1) _ _ R0) as R. kb H. injection E0 as <- <-. ksin H.
  destruct (find_loop (k_ctx k)) as [[[i x] o]|] eqn:Fl; [|exfalso; exact (complain_up _ _ _ _ _ H N)]. destruct (find_loop_some _ _ _ _ Fl) as [Lo _].
  destruct o as [|o1 o]; [exfalso; exact (complain_up _ _ _ _ _ H N)|].
  kb H. rename k0 into k1, E0 into El. kb H. rename k0 into k2, E0 into Eo.
  assert ((push_lit_int (cc_off c - cc_off x) false ;~ add_op OP_POPN false) (set_k_rec (k_rec k + 1) k) = Ok (tt, k2)) as X by (unfold kbind; rewrite El, Eo; destruct x1; reflexivity).
  kb H. rename k0 into k3, E0 into Ej. kb H. injection E0 as <- <-. nn W H k3.
  assert (noerr k2) as N2. { revert H0. apply (w_emit_jump _ errs_prims _ _ _ _ Ej). }
  destruct (does_em (push_lit_int (cc_off c - cc_off x) false ;~ add_op OP_POPN false) (fun _ y ws y' => ws = [OP_LIT_INT; u32 (cc_off c - cc_off x); OP_POPN] /\ y' = y) _ _ _ E ltac:(intros c' q' S'; eapply em_wk; [eb; [apply em_lit_int|]; apply em_word|]; ez; split; reflexivity) X N2 R) as (ws & v & [-> ->] & W2 & D).
  rewrite used_at_same in D. pose proof (does_rel _ _ _ _ _ _ _ _ _ D) as R2. destruct (does_jmp _ _ _ _ Ej H0 R2) as (-> & W3 & Dj).
  destruct (find_loop (k_ctx k3)) as [[[i2 y] o2]|] eqn:Fl2; [|discriminate]. destruct (find_loop_some _ _ _ _ Fl2) as [_ Ad]. kb H. injection E0 as _ <-.
  specialize (Ad [k_w k2]). cbn [app] in Ad. rewrite Ad in H.
  assert (loop_off (k_ctx k2) = Some (cc_off x)) as Lo2. { rewrite (did_off _ _ _ _ _ _ _ (s_did _ _ _ _ _ _ _ _ _ D) R). exact Lo. }
  pose proof (does_break _ _ _ _ _ Dj R2 eq_refl ltac:(rewrite Lo2; discriminate)) as Db. ext R D Db. tk R H D b Tb. tk R H D semi Ts. kb H. apply pop_rec_inv in E0. injection H as <-. subst k0.
  change (k_w k2 = k_w k + 3) in W2.
  exists (SBreak b semi), [k_w k2], [], E. constructor; cbn [stext written open_ended after]; auto; try discriminate; try apply sim_refl; [|constructor].
  apply does_rec, (does_rec_l (k_rec k + 1)). eapply does_as; [exact D|reflexivity|reflexivity|]. cbv beta. intros m ng fa lp _ Y. ks. rewrite !nxt_w. ks. rewrite W3, W2 in *.
  destruct Y as [[[Y1 (T & u & -> & Y2 & Y3)] _] _]. rewrite Lo2 in Y2. injection Y2 as Y2. replace (k_w k + 3 + 3) with (k_w k + 6) by lia. apply sc_break.
  apply mem_words_app; [|exact Y3]. rewrite Of, Y2 in Y1. replace (u32 (u32 (e_used E) - u32 u)) with (u32 (e_used E - u)) in Y1 by (unfold u32, W32; lia). exact Y1.
Qed.

(** ** Functions *)

(** Nothing but the contexts, the tokens and the position has changed. *)
Definition kept (k k' : comp) : Prop :=
  k_w k' = k_w k /\ k_nstat k' = k_nstat k /\
  v_code (k_vm k') = v_code (k_vm k) /\ v_cmask (k_vm k') = v_cmask (k_vm k) /\
  v_funcs (k_vm k') = v_funcs (k_vm k) /\ v_static (k_vm k') = v_static (k_vm k) /\ v_smask (k_vm k') = v_smask (k_vm k) /\
  v_strs (k_vm k') = v_strs (k_vm k) /\ v_byhash (k_vm k') = v_byhash (k_vm k).
Lemma kept_refl k : kept k k. Proof. repeat split. Qed.
Lemma kept_trans a b c : kept a b -> kept b c -> kept a c.
Proof. unfold kept. intuition congruence. Qed.
Lemma kept_wf k k' : kept k k' -> kwf k -> kwf k'.
Proof.
  intros (A1 & A2 & A3 & A4 & A5 & A6 & A7 & A8 & A9) []. unfold kcode in *. constructor; unfold kcode; rewrite ?A1, ?A2, ?A3, ?A4, ?A6, ?A7, ?A8, ?A9; assumption.
Qed.
Lemma kept_nxt k : kept k (nxt k).
Proof. destruct (nxt_same k) as (A1 & A2 & A3 & A4 & A5 & A6 & A7 & A8 & A9). repeat split; try assumption; apply A9. Qed.
Lemma kept_ctx l k : kept k (set_k_ctx l k). Proof. repeat split. Qed.
Lemma nxt_ctx k : k_ctx (nxt k) = k_ctx k. Proof. destruct (nxt_same k) as (_ & A & _). exact A. Qed.

Definition own (n : bytes) (c : cctx) : cctx := set_cc_vars (mkCV n false true (u32 (cc_off c - 1)) :: cc_vars c) c.
Definition up (c : cctx) : cctx := set_cc_off (u32 (cc_off c + 1)) c.
Fixpoint owns (l : list bytes) (c : cctx) : cctx := match l with [] => c | n :: q => owns q (up (own n c)) end.

Lemma add_top_inv nm k b k' c c2 q : add_variable nm true true k = Ok (b, k') -> noerr k' -> k_ctx k = c :: c2 :: q ->
  b = true /\ k' = set_k_ctx (set_cc_vars (mkCV nm false false (u32 (cc_off c - 1)) :: cc_vars c) c :: c2 :: q) k.
Proof.
  unfold add_variable. intros H N C. kb H. unfold cur_cc in E. kb E. injection E0 as <- <-. rewrite C in E. injection E as <- <-.
  destruct (has_var nm (cc_vars c)). { exfalso. eapply complain; eauto. }
  kb H. injection E as <- <-. rewrite C in H. kb H. injection E as _ <-. kb H. injection H as <- <-. apply mod_cc_inv in E. destruct E as (c' & q' & C' & ->). rewrite C in C'. injection C' as <- <-. auto.
Qed.
Lemma own_inv nm k u k' c c2 q : add_owned nm k = Ok (u, k') -> noerr k' -> k_ctx k = c :: c2 :: q -> k' = set_k_ctx (own nm c :: c2 :: q) k.
Proof.
  unfold add_owned. intros H N C. kb H. nn W H k0. destruct (add_top_inv _ _ _ _ _ _ _ E H0 C) as [-> ->]. apply mod_cc_inv in H. destruct H as (c' & q' & C' & ->). ksin C'. injection C' as <- <-. reflexivity.
Qed.
Lemma up_inv k u k' c q : move_off 1 k = Ok (u, k') -> k_ctx k = c :: q -> k' = set_k_ctx (up c :: q) k.
Proof. intros H C. apply mod_cc_inv in H. destruct H as (c' & q' & C' & ->). rewrite C in C'. injection C' as <- <-. reflexivity. Qed.
Lemma skip_inv t msg k u k' : skip_or_complain t msg k = Ok (u, k') -> noerr k' -> t <> TK_INVALID -> exists x q, k_toks k = x :: q /\ tk_type x = t /\ k' = nxt k.
Proof.
  unfold skip_or_complain. intros H N T. kb H. injection E as <- <-. destruct (Z.eqb_spec (cur_type k) t) as [Q|Q]; [|exfalso; eapply cerror_errs; eauto].
  rewrite next_tok_run in H. injection H as _ <-. unfold cur_type in Q. destruct (k_toks k) as [|x q]; [congruence|]. eauto.
Qed.

Definition gooda (b : calls) : Prop := forall n0 k a k' c g, r_args b n0 k = Ok (a, k') -> noerr k' -> k_ctx k = [c; g] -> 0 <= n0 -> n0 + zlen (k_toks k) < W31 ->
  exists p, pwritten p /\ k_toks k = ptext p ++ k_toks k' /\ a = (n0 + zlen (names p), true) /\ k_ctx k' = [owns (names p) c; g] /\ kept k k'.
Hypothesis HA : gooda r.

Lemma cur_tok k t : cur_type k = t -> t <> TK_INVALID -> exists x q, k_toks k = x :: q /\ tk_type x = t /\ cur_str k = tk_str x.
Proof. unfold cur_type, cur_str. destruct (k_toks k) as [|x q]; [congruence|]. eauto. Qed.

Lemma good_args n0 k a k' c g : args_body r n0 k = Ok (a, k') -> noerr k' -> k_ctx k = [c; g] -> 0 <= n0 -> n0 + zlen (k_toks k) < W31 ->
  exists p, pwritten p /\ k_toks k = ptext p ++ k_toks k' /\ a = (n0 + zlen (names p), true) /\ k_ctx k' = [owns (names p) c; g] /\ kept k k'.
Proof.
  unfold args_body. intros H N C N0 L. kb H. injection E as <- <-. destruct (cur_type k =? TK_INVALID).
  { injection H as <- <-. exists PNone. cbn [pwritten ptext names owns app]. change (zlen []) with 0. rewrite Z.add_0_r. repeat split; auto. }
  cbv zeta in H. destruct (Z.eqb_spec (cur_type k) TK_IDENTIFIER) as [Q|Q].
  - destruct (cur_tok _ _ Q ltac:(tyne)) as (x & q & T & Tx & Sx). kb H. injection E as <- <-. rewrite Sx in H.
    kb H. rename k0 into k1. assert (noerr k1) as N1 by (revert N; refine ((_ : pres errs _) _ _ _ H); ew W). destruct (add_top_inv _ _ _ _ _ _ _ E N1 C) as [-> ->]. clear E.
    kb H. eapply up_inv in E; [|reflexivity]. subst k0. kb H. apply mod_cc_inv in E. destruct E as (c' & q' & C' & ->). ksin C'. injection C' as <- <-.
    kb H. rewrite next_tok_run in E. injection E as _ <-. set (k2 := nxt _) in H.
    assert (k_ctx k2 = [up (own (tk_str x) c); g]) as C2 by (unfold k2; rewrite nxt_ctx; reflexivity).
    assert (k_toks k2 = q) as T2 by (unfold k2; rewrite nxt_toks; ks; rewrite T; reflexivity).
    assert (kept k k2) as K2 by (unfold k2; eapply kept_trans; [|apply kept_nxt]; repeat split).
    rewrite T, zlen_cons in L. pose proof (zlen_nonneg q). unfold W31 in *. rewrite (u32_id (n0 + 1)) in H by (unfold is_u32, W32; lia).
    kb H. injection E as <- <-. destruct (cur_type k2 =? TK_PAREN_CLOSE).
    + injection H as <- <-. exists (PLast x). cbn [pwritten ptext names owns app]. change (zlen [tk_str x]) with 1. rewrite T2. auto 6.
    + destruct (Z.eqb_spec (cur_type k2) TK_COMMA) as [Q2|Q2].
      * kb H. rewrite next_tok_run in E. injection E as _ <-. destruct (cur_tok _ _ Q2 ltac:(tyne)) as (y & q2 & Ty & Tyy & _). rewrite T2 in Ty. rewrite Ty in T2, T, L. rewrite zlen_cons in L. pose proof (zlen_nonneg q2).
        assert (k_toks (nxt k2) = q2) as T3 by (rewrite nxt_toks, T2; reflexivity).
        assert (k_ctx (nxt k2) = [up (own (tk_str x) c); g]) as C3 by (rewrite nxt_ctx; exact C2).
        destruct (HA _ _ _ _ _ _ H N C3) as (p & P1 & P2 & P3 & P4 & P5); [lia|rewrite T3; unfold W31; lia|].
        exists (PMore x y p). cbn [pwritten ptext names owns app]. rewrite T, <- T3, P2, P3, zlen_cons. split; [auto|]. split; [reflexivity|]. split; [f_equal; lia|]. split; [exact P4|].
        eapply kept_trans; [exact K2|]. eapply kept_trans; [apply kept_nxt|exact P5].
      * kb H. exfalso. eapply cerror_errs; [exact E|]. revert N. refine ((_ : pres errs _) _ _ _ H). ew W.
  - destruct (Z.eqb_spec (cur_type k) TK_PAREN_CLOSE) as [Q2|Q2]; cbn [negb] in H.
    + kb H. injection E as <- <-. rewrite Q2 in H. cbn in H. injection H as <- <-. exists PNone. cbn [pwritten ptext names owns app]. change (zlen []) with 0. rewrite Z.add_0_r. repeat split; auto.
    + kb H. exfalso. injection H as _ <-. eapply cerror_errs; eauto.
Qed.

Lemma owns_rel l : forall c i s, Forall2 vrel (cc_vars c) s -> cc_off c = u32 (i + 1) ->
  Forall2 vrel (cc_vars (owns l c)) (param_scope i l s) /\ cc_off (owns l c) = u32 (i + zlen l + 1) /\ pop_count (cc_vars (owns l c)) = pop_count (cc_vars c) /\
  cc_fn (owns l c) = cc_fn c /\ cc_loop (owns l c) = cc_loop c.
Proof.
  induction l as [|n0 l IH]; intros c i s S O; cbn [owns param_scope].
  - change (zlen []) with 0. rewrite Z.add_0_r. auto.
  - destruct (IH (up (own n0 c)) (i + 1) ((n0, Local i) :: s)) as (A1 & A2 & A3 & A4 & A5).
    + cbn [up own cc_vars set_cc_vars set_cc_off]. constructor; [|exact S]. split; [reflexivity|]. cbn. split; [reflexivity|]. rewrite O. unfold u32, W32. lia.
    + cbn [up own cc_off set_cc_vars set_cc_off]. rewrite O. unfold u32, W32. lia.
    + split; [exact A1|]. split; [rewrite A2, zlen_cons; f_equal; lia|]. rewrite A3, A4, A5. repeat split.
Qed.

Lemma rev_last (l : list cctx) g q : rev l = g :: q -> last l nocc = g /\ removelast l ++ [g] = l.
Proof.
  intro H. assert (l = rev q ++ [g]) as -> by (rewrite <- (rev_involutive l), H; reflexivity). rewrite last_last, removelast_last. auto.
Qed.
Lemma Forall2_last l : forall sc, Forall2 srel l sc -> l <> [] -> srel (last l nocc) (last sc []).
Proof.
  induction l as [|c l IH]; intros sc H N; [contradiction|]. inversion H as [|? s ? sc' A B]; subst. destruct l as [|c2 l]; inversion B as [|? s2 ? sc2 A2 B2]; subst; [exact A|].
  change (srel (last (c2 :: l) nocc) (last (s2 :: sc2) [])). apply IH; [exact B|discriminate].
Qed.

Lemma pop_flat k u k' c q : pop_context k = Ok (u, k') -> noerr k' -> kwf k -> k_ctx k = c :: q ->
  put (pop_words (pop_count (cc_vars c))) (set_k_ctx q k) k' /\ k_ctx k' = q.
Proof.
  unfold pop_context. intros H N K C. kb H. injection E as <- <-. rewrite C in H. cbv iota in H. kb H. injection E as _ <-. cbv zeta in H.
  assert (kwf (set_k_ctx q k)) as K1 by (destruct K; constructor; assumption). unfold pop_words. destruct (_ =? 0).
  - injection H as _ <-. split; [apply put_nil, K1|reflexivity].
  - unfold add_op in H. kb H. nn W H k0. unfold push_lit_int in E. kb E. nn W E k1. destruct (add_word_flat _ _ _ _ _ E0 H1 K1 (or_introl eq_refl)) as [P1 C1]. pose proof P1 as (_ & _ & _ & _ & K2).
    destruct (add_word_flat _ _ _ _ _ E H0 K2 (or_introl eq_refl)) as [P2 C2]. pose proof P2 as (_ & _ & _ & _ & K3). destruct (add_word_flat _ _ _ _ _ H N K3 (or_introl eq_refl)) as [P3 C3].
    split; [|rewrite C3, C2, C1; reflexivity]. exact (put_trans _ _ _ _ _ K1 P1 (put_trans _ _ _ _ _ K2 P2 P3)).
Qed.

Lemma mem_of_put ws k k' : put ws k k' -> forall i, 0 <= i < k_w k -> kmem k' i = kmem k i.
Proof. intros (_ & A & _). exact A. Qed.

Lemma rest_inv id k res k' E f0 : function_rest r id k = Ok (Some res, k') -> noerr k' -> crel k E -> is_u32 id -> id <> INVALID -> znth (v_funcs (k_vm k)) id = Some f0 -> f_ext f0 = INVALID ->
  exists o p c st F b1, let fd := mkFun (names p) st (outermost E) (e_globals E) in
    k_toks k = o :: ptext p ++ c :: stext st ++ k_toks k' /\ tk_type o = TK_PAREN_OPEN /\ pwritten p /\ tk_type c = TK_PAREN_CLOSE /\ written st /\
    (open_ended st = true -> cur_type k' <> TK_ELSE) /\ (forall funs, table F funs -> defined funs (fun_env fd) st) /\
    crel k' E /\ k_ctx k' = k_ctx k /\ (forall i, 0 <= i < k_w k -> kmem k' i = kmem k i) /\ k_w k + 3 <= k_w k' /\ k_nstat k' = k_nstat k /\
    (forall i f, i <> id -> znth (v_funcs (k_vm k)) i = Some f -> znth (v_funcs (k_vm k')) i = Some f) /\
    NoDup (map fst F) /\ (forall i, In i (map fst F) -> zlen (v_funcs (k_vm k)) <= i < zlen (v_funcs (k_vm k'))) /\ zlen (v_funcs (k_vm k)) <= zlen (v_funcs (k_vm k')) /\
    (declares st = false -> k_w k' = b1) /\
    forall m (ng : around), okm m k k' [] [] -> k_nstat k' <= ng -> table F (g_funs ng) ->
      mem_words m (k_w k) (jump_words OP_JUMP (k_w k) b1) /\ (exists w, m (k_w k' - 1) = Some w) /\ fn_ok m ng k' id fd /\
      forall i d, In (i, d) F -> fn_ok m ng k' i d.
Proof.
  unfold function_rest, add_op. intros H N R Iu Iv Fd Fx. pose proof R as [RW RS (hc & hq & HC & HO & HL) RN RT RG RF RZ].
  kb H. rename k0 into k1, E0 into E1. kb H. injection E0 as <- <-. cbv zeta in H. kb H. rename k0 into k2, E0 into E2.
  assert (noerr k2) as N2 by (revert N; refine ((_ : pres errs _) _ _ _ H); ew W).
  assert (noerr k1) as N1 by exact (w_add_word _ errs_prims _ _ _ _ _ E2 N2).
  unfold push_lit_int in E1. kb E1. assert (noerr k0) as N0 by exact (w_add_word _ errs_prims _ _ _ _ _ E1 N1).
  destruct (add_word_flat _ _ _ _ _ E0 N0 RW (or_introl eq_refl)) as [P0 C0]. pose proof P0 as (_ & _ & _ & _ & K0).
  destruct (add_word_flat _ _ _ _ _ E1 N1 K0 (or_introl eq_refl)) as [P1 C1]. pose proof P1 as (_ & _ & _ & _ & K1).
  destruct (add_word_flat _ _ _ _ _ E2 N2 K1 (or_introl eq_refl)) as [P2 C2]. pose proof (put_trans _ _ _ _ _ RW P0 (put_trans _ _ _ _ _ K0 P1 P2)) as P. cbn [app] in P.
  pose proof P1 as (W1 & _). pose proof P0 as (W0 & _). change (k_w k1 = k_w k0 + 1) in W1. change (k_w k0 = k_w k + 1) in W0.
  pose proof (kw_w _ RW) as Kw. pose proof (pow2_bounds _ (kw_pow _ RW)) as [_ Kb]. unfold W31 in Kb.
  replace (u32 (k_w k1 - 1)) with (k_w k + 1) in H by (rewrite u32_id; unfold is_u32, W32; lia).
  assert (k_ctx k2 = k_ctx k) as Cx by congruence. clear E0 E1 E2 P0 P1 P2 C0 C1 C2 N0 N1 K0 K1 W0 W1 k0 k1.
  pose proof P as (W2 & B2 & M2 & (T2 & Ns2 & F2 & _) & K2). change (k_w k2 = k_w k + 3) in W2.
  kb H. injection E0 as <- <-. rewrite Cx in H. destruct (rev (k_ctx k)) as [|g rq] eqn:Rv; [discriminate|]. destruct (rev_last _ _ _ Rv) as [Lg Rl].
  assert (srel g (outermost E)) as Sg. { unfold outermost. rewrite <- Lg. apply Forall2_last; [exact RS|rewrite HC; discriminate]. }
  rewrite Lg in RG.
  kb H. injection E0 as _ <-. kb H. rename k0 into k3, E0 into Es1.
  assert (noerr k3) as N3 by (revert N; refine ((_ : pres errs _) _ _ _ H); ew W).
  destruct (skip_inv _ _ _ _ _ Es1 N3 ltac:(tyne)) as (o & q1 & To & Tot & ->). clear Es1. ksin To.
  kb H. rename k0 into k4, E0 into Eo1.
  assert (noerr k4) as N4 by (revert N; refine ((_ : pres errs _) _ _ _ H); ew W).
  eapply own_inv in Eo1; [|exact N4|rewrite nxt_ctx; reflexivity]. kb H. rename k0 into k5, E0 into Eu1. eapply up_inv in Eu1; [|rewrite Eo1; reflexivity].
  kb H. rename k0 into k6, E0 into Ea.
  assert (noerr k6) as N6 by (revert N; refine ((_ : pres errs _) _ _ _ H); ew W).
  assert (k_toks k5 = q1) as T5 by (rewrite Eu1, Eo1; ks; rewrite nxt_toks; ks; rewrite To; reflexivity).
  assert (k_ctx k5 = [up (own (bs "_functionId") (mkCC [] 0 id false [])); g]) as C5 by (rewrite Eu1; reflexivity).
  assert (kept k2 k5) as Kp5. { rewrite Eu1, Eo1. repeat (eapply kept_trans; [|apply kept_ctx]). eapply kept_trans; [|apply kept_nxt]. apply kept_ctx. }
  rewrite T2 in To. rewrite To, zlen_cons in RZ.
  destruct (HA _ _ _ _ _ _ Ea N6 C5 ltac:(lia) ltac:(rewrite T5; lia)) as (p & Pw & T6 & -> & C6 & Kp6).
  cbv iota in H. kb H. injection E0 as <- <-. kb H. injection E0 as <- <-. kb H. apply klift_inv in E0. destruct E0 as [Erd ->].
  kb H. apply klift_inv in E0. destruct E0 as [Ewr ->]. apply EmitProofs.wr_inv in Ewr. destruct Ewr as [-> Iid].
  kb H. rename k0 into k7, E0 into Ek. apply kvm_inv in Ek. destruct Ek as (s7 & Ek & ->). injection Ek as _ <-.
  pose proof (kept_trans _ _ _ Kp5 Kp6) as Kp. clear Kp5 Kp6. pose proof Kp as (A1 & A2 & A3 & A4 & A5 & A6 & A7).
  rewrite A5, F2 in *. unfold rd in Erd. rewrite Fd in Erd. injection Erd as <-. rewrite Fx in H. rewrite A1, W2 in H.
  set (argc := 0 + zlen (names p)) in *. set (k7 := set_k_vm _ k6) in H.
  kb H. rename k0 into k8, E0 into Eo2. 
  assert (noerr k8) as N8 by (revert N; refine ((_ : pres errs _) _ _ _ H); ew W).
  eapply own_inv in Eo2; [|exact N8|unfold k7; ks; exact C6]. kb H. rename k0 into k9, E0 into Eu2. eapply up_inv in Eu2; [|rewrite Eo2; reflexivity].
  kb H. rename k0 into k10, E0 into Eo3.
  assert (noerr k10) as N10 by (revert N; refine ((_ : pres errs _) _ _ _ H); ew W).
  eapply own_inv in Eo3; [|exact N10|rewrite Eu2; reflexivity]. kb H. rename k0 into kB, E0 into Es2.
  assert (noerr kB) as NB by (revert N; refine ((_ : pres errs _) _ _ _ H); ew W).
  destruct (skip_inv _ _ _ _ _ Es2 NB ltac:(tyne)) as (cl & q2 & Tcl & Tclt & EB). clear Es2.
  assert (k_toks k10 = k_toks k6) as T10 by (rewrite Eo3, Eu2, Eo2; reflexivity). rewrite T10 in Tcl.
  set (c1 := owns (names p) (up (own (bs "_functionId") (mkCC [] 0 id false [])))) in *.
  set (cB := own (bs "_returnPointer") (up (own (bs "_argumentCount") c1))) in *.
  assert (k_ctx kB = [cB; g]) as CB by (rewrite EB, nxt_ctx, Eo3; reflexivity).
  assert (kept k7 kB) as KpB. { rewrite EB. eapply kept_trans; [|apply kept_nxt]. rewrite Eo3, Eu2, Eo2. repeat (eapply kept_trans; [|apply kept_ctx]). apply kept_refl. }
  assert (k_toks kB = q2) as TB by (rewrite EB, nxt_toks, T10, Tcl; reflexivity).
  clear Eo3 Eu2 Eo2 EB N10 N8 T10 k8 k9 k10.
  assert (zlen (v_funcs (k_vm k7)) = zlen (v_funcs (k_vm k))) as L7 by (unfold k7; ks; vs; apply zlen_zupd).
  pose proof KpB as (B1 & B2' & B3 & B4 & B5 & B6 & B7 & _).
  assert (k_w kB = k_w k + 3) as WB by (rewrite B1; unfold k7; ks; congruence).
  assert (v_funcs (k_vm kB) = zupd (v_funcs (k_vm k)) id (mkF argc (k_w k + 3) INVALID)) as FB by (rewrite B5; reflexivity).
  assert (v_code (k_vm kB) = v_code (k_vm k2)) as CB' by (rewrite B3; unfold k7; ks; vs; exact A3).
  assert (k_nstat kB = k_nstat k) as NsB by (rewrite B2'; unfold k7; ks; congruence).
  assert (k_toks k = o :: ptext p ++ cl :: k_toks kB) as Tk by (rewrite To, TB, <- Tcl, <- T6, T5; reflexivity).
  pose proof (owns_rel (names p) (up (own (bs "_functionId") (mkCC [] 0 id false []))) 0 [(bs "_functionId", Local (-1))]
    ltac:(cbn; constructor; [split; [reflexivity|split; reflexivity]|constructor]) eq_refl) as (O1 & O2 & O3 & O4 & O5). fold c1 in O1, O2, O3, O4, O5. clearbody c1.
  assert (forall st, crel kB (fun_env (mkFun (names p) st (outermost E) (e_globals E)))) as RB.
  { intro st. constructor.
    - apply (kept_wf k7); [exact KpB|]. apply (kept_wf _ _ Kp) in K2. destruct K2; constructor; assumption.
    - rewrite CB. cbn [fun_env e_scopes fd_params fd_scope]. constructor; [|constructor; [exact Sg|constructor]].
      unfold srel, cB. cbn [up own cc_vars set_cc_vars set_cc_off]. constructor; [|constructor; [|exact O1]].
      + split; [reflexivity|]. split; [reflexivity|]. cbn. rewrite O2. unfold u32, W32. pose proof (zlen_nonneg (names p)). lia.
      + split; [reflexivity|]. split; [reflexivity|]. cbn. rewrite O2. unfold u32, W32. pose proof (zlen_nonneg (names p)). lia.
    - exists cB, [g]. split; [exact CB|]. cbn [fun_env e_used fd_params]. unfold cB. cbn [up own cc_off cc_loop set_cc_vars set_cc_off]. rewrite O2, O5. split; [unfold u32, W32; lia|reflexivity].
    - rewrite NsB. exact RN.
    - rewrite Tk in RT. apply (textual_app (o :: ptext p ++ [cl])). cbn [app]. rewrite <- app_assoc. exact RT.
    - rewrite CB. exact RG.
    - rewrite FB, zlen_zupd. exact RF.
    - pose proof (f_equal (@zlen _) Tk) as Z. rewrite zlen_cons, zlen_app, zlen_cons in Z. pose proof (zlen_nonneg (ptext p)). rewrite To, zlen_cons in Z. lia. }
  kb H. rename k0 into kC, E0 into Eb. match type of Eb with _ = Ok (?y, _) => rename y into b end.
  kb H. rename k0 into kD, E0 into El. kb H. rename k0 into kE, E0 into Em. kb H. rename k0 into kF, E0 into Er.
  kb H. injection E0 as <- <-. kb H. injection E0 as <- <-. kb H. apply klift_inv in E0. destruct E0 as [Ewr ->]. apply EmitProofs.wr_inv in Ewr. destruct Ewr as [-> Is].
  kb H. apply kvm_inv in E0. destruct E0 as (s8 & Ek & ->). injection Ek as _ <-. set (kG := set_k_vm _ kF) in H.
  kb H. rename k0 into kH, E0 into Ep. kb H. injection E0 as <- <-. kb H. injection E0 as _ <-. kb H. apply pop_rec_inv in E0. subst k0. injection H as Hid <-.
  destruct b; [|discriminate Hid]. clear Hid res.
  set (kZ := set_k_ctx _ kH) in *. assert (noerr kH) as NH by exact N.
  assert (noerr kG) as NG by (revert NH; refine ((_ : pres errs _) _ _ _ Ep); ew W). assert (noerr kF) as NF by exact NG.
  assert (noerr kE) as NE by (revert NF; refine ((_ : pres errs _) _ _ _ Er); ew W).
  assert (noerr kD) as ND by (revert NE; refine ((_ : pres errs _) _ _ _ Em); ew W).
  assert (noerr kC) as NC by (revert ND; refine ((_ : pres errs _) _ _ _ El); ew W).
  destruct (HS _ _ _ Eb NC (RB (SBreak o o))) as (st & fx & F & E1 & [D Wr Op _ Sc Df]).
  change (fun_env _) with (fun_env (mkFun (names p) st (outermost E) (e_globals E))) in D, Sc, Df.
  set (fd := mkFun (names p) st (outermost E) (e_globals E)) in *. pose proof (RB st) as Rb. fold fd in Rb.
  assert (loop_off (k_ctx kB) = None) as Lo. { rewrite CB. cbn [loop_off]. unfold cB. cbn [own up set_cc_vars set_cc_off cc_loop]. rewrite O5, RG. reflexivity. }
  assert (fx = []) as -> by (apply (d_nofx _ _ _ _ _ _ _ (s_did _ _ _ _ _ _ _ _ _ D)), Lo).
  pose proof D as D0.
  destruct (does_em (push_lit_int 0 false) (fun _ x ws x' => ws = [OP_LIT_INT; 0] /\ x' = x) _ _ _ E1 ltac:(intros c0 q0 S0; eapply em_wk; [apply em_lit_int|]; ez; split; [reflexivity|lia]) El ND (does_rel _ _ _ _ _ _ _ _ _ D)) as (ws & v & [-> ->] & WD & Dl).
  ext Rb D Dl. destruct (does_em (move_off 1) (fun _ x ws x' => ws = [] /\ x' = x + 1) _ _ _ _ ltac:(intros c0 q0 S0; apply em_move) Em NE (does_rel _ _ _ _ _ _ _ _ _ D)) as (ws & v & [-> ->] & WE & Dm).
  ext Rb D Dm. destruct (does_return _ _ _ _ Er NF (does_rel _ _ _ _ _ _ _ _ _ D)) as (WF & Dr). ext Rb D Dr.
  clear Dl Dm Dr El Em Er Eb. rewrite zlen_nil in WE. change (zlen [OP_LIT_INT; 0]) with 2 in WD. cbn [used_at e_used e_scopes e_globals] in D.
  assert (k_w kF = k_w kC + 5) as WF' by lia.
  pose proof D as [DD DM _]. pose proof (d_w _ _ _ _ _ _ _ DD) as Dw. pose proof (d_w _ _ _ _ _ _ _ (s_did _ _ _ _ _ _ _ _ _ D0)) as Dw0.
  destruct (d_ctx _ _ _ _ _ _ _ DD) as (y1 & y2 & cF & X1 & CF & _ & Pc). rewrite CB in X1. injection X1 as <- <-. rewrite addfix_nil in CF.
  destruct (d_rel _ _ _ _ _ _ _ DD) as [FW FS _ FN FT _ FF FZ].
  assert (kwf kG) as KG. { destruct FW as [U1 U2 U3 U4 U5 U6]. unfold kG. constructor; unfold kcode in *; ks; vs; rewrite ?zlen_zupd; assumption. }
  assert (patched (k_w k + 1) kF kG) as PG by (eexists; reflexivity).
  destruct (pop_flat _ _ _ cF [g] Ep NH KG CF) as [PH CH]. pose proof PH as (WH & BH & MH & (TH & NsH & FH & SH1 & SH2) & KH).
  change (v_funcs (k_vm (set_k_ctx [g] kG))) with (v_funcs (k_vm kF)) in FH. change (k_toks (set_k_ctx [g] kG)) with (k_toks kF) in TH.
  change (k_nstat (set_k_ctx [g] kG)) with (k_nstat kF) in NsH. change (k_w (set_k_ctx [g] kG)) with (k_w kF) in *.
  change (kmem (set_k_ctx [g] kG)) with (kmem kG) in BH.
  assert (k_ctx kZ = k_ctx k) as CZ. { unfold kZ. ks. unfold restore. rewrite CH. cbn [rev app]. destruct (k_ctx k); exact Rl. }
  assert (forall i, k_w k + 3 <= i < k_w kF -> kmem kZ i = kmem kF i) as MZ.
  { intros i Hi. change (kmem kZ) with (kmem kH). rewrite BH by lia. apply (patched_mem _ _ _ _ PG). lia. }
  assert (forall i, 0 <= i < k_w k + 3 -> kmem kF i = kmem k2 i) as MF.
  { intros i Hi. rewrite (d_below _ _ _ _ _ _ _ DD) by lia. unfold kmem, kcode. rewrite CB'. reflexivity. }
  assert (forall i, 0 <= i < k_w k + 3 -> i <> k_w k + 1 -> kmem kZ i = kmem k2 i) as MZ2.
  { intros i Hi Hn. change (kmem kZ) with (kmem kH). rewrite BH by lia. rewrite (patched_mem _ _ _ _ PG) by lia. apply MF. lia. }
  assert (kmem kZ (k_w k + 1) = Some (u32 (k_w kF - k_w k - 3))) as MZ3.
  { change (kmem kZ) with (kmem kH). rewrite BH by lia. unfold kG, kmem, kcode. ks. vs. rewrite znth_zupd_same by exact Is. do 2 f_equal. lia. }
  assert (e_globals E1 = e_globals E) as GE by (refine (d_gl _ _ _ _ _ _ _ (s_did _ _ _ _ _ _ _ _ _ D0) _); discriminate).
  assert (k_nstat kF = k_nstat k) as NsF by (rewrite FN; cbn [used_at e_globals]; rewrite GE; symmetry; exact RN).
  assert (znth (v_funcs (k_vm kB)) id = Some (mkF argc (k_w k + 3) INVALID)) as FI by (rewrite FB; apply znth_zupd_same; exact Iid).
  exists o, p, cl, st, F, (k_w kF). fold fd. cbv zeta. change (k_toks (set_k_rec _ kZ)) with (k_toks kH). change (k_w (set_k_rec _ kZ)) with (k_w kH).
  change (v_funcs (k_vm (set_k_rec _ kZ))) with (v_funcs (k_vm kH)). change (k_nstat (set_k_rec _ kZ)) with (k_nstat kH). rewrite TH, FH, NsH.
  pose proof (d_toks _ _ _ _ _ _ _ DD) as TB2. 
  split; [rewrite Tk, TB2; reflexivity|]. split; [exact Tot|]. split; [exact Pw|]. split; [exact Tclt|]. split; [exact Wr|].
  assert (k_toks kF = k_toks kC) as TF by (pose proof (d_toks _ _ _ _ _ _ _ (s_did _ _ _ _ _ _ _ _ _ D0)) as Q; rewrite TB2 in Q; apply app_inv_head in Q; exact Q).
  split. { intro Q. specialize (Op Q). unfold cur_type in *. change (k_toks (set_k_rec _ kZ)) with (k_toks kH). rewrite TH, TF. exact Op. }
  split; [exact Df|]. split.
  { constructor.
    - destruct KH as [U1 U2 U3 U4 U5 U6 U7]. constructor; assumption.
    - change (Forall2 srel (k_ctx kZ) (e_scopes E)). rewrite CZ. exact RS.
    - change (k_ctx (set_k_rec _ kZ)) with (k_ctx kZ). rewrite CZ. eauto.
    - change (k_nstat kH = e_globals E). congruence.
    - change (textual (k_toks kH)). rewrite TH. exact FT.
    - change (cc_loop (last (k_ctx kZ) nocc) = false). rewrite CZ, Lg. exact RG.
    - change (zlen (v_funcs (k_vm kH)) < W32). rewrite FH. exact FF.
    - change (zlen (k_toks kH) < W31). rewrite TH. exact FZ. }
  split; [exact CZ|]. split. { intros i Hi. change (kmem (set_k_rec _ kZ)) with (kmem kZ). rewrite MZ2 by lia. apply B2. exact Hi. }
  pose proof (zlen_nonneg (pop_words (pop_count (cc_vars cF)))) as Zp.
  split; [lia|]. split; [exact NsF|]. split.
  { intros i f Hi Hf. apply (d_funcs _ _ _ _ _ _ _ DD). rewrite FB, znth_zupd_other by congruence. exact Hf. }
  split; [exact (d_F _ _ _ _ _ _ _ DD)|]. pose proof (d_ids _ _ _ _ _ _ _ DD) as Di. pose proof (d_len _ _ _ _ _ _ _ DD) as Dn. rewrite FB, zlen_zupd in Di, Dn.
  split; [exact Di|]. split; [exact Dn|]. split.
  { intro Q. specialize (Sc Q). rewrite WH. replace (pop_count (cc_vars cF)) with 0; [change (zlen (pop_words 0)) with 0; lia|].
    revert Pc. unfold locals_of. cbn [used_at e_scopes]. rewrite Sc. intro Pc. assert (pop_count (cc_vars cB) = 0) as Q0; [|lia].
    unfold cB. cbn [own up set_cc_vars set_cc_off cc_vars]. rewrite !pop_count_cons. cbn [cv_nopop cv_global negb andb]. rewrite O3. reflexivity. }
  intros m ng Om Gn Tb. change (okm m k kZ [] []) in Om. 
  assert (okm m kB kF [] []) as OmB. { intros i Hi _. rewrite Om; [apply MZ; lia|change (k_w kZ) with (k_w kH); lia|intros j [[]|[]]]. }
  assert (forall i, k_w k <= i < k_w k + 3 -> m i = kmem kZ i) as OmA. { intros i Hi. apply Om; [change (k_w kZ) with (k_w kH); lia|intros j [[]|[]]]. }
  destruct (DM m ng OmB Gn ltac:(rewrite ?app_nil_r; exact Tb)) as [X Y]. specialize (X (Some argc) None).
  assert (brk m kB [] None) as Bk by (unfold brk; rewrite Lo; exact I).
  assert (fno kB (Some argc)) as Fn. { unfold fno. rewrite CB. cbn [find_fn]. unfold cB. cbn [own up set_cc_vars set_cc_off cc_fn]. rewrite O4. cbn [own up set_cc_vars set_cc_off cc_fn]. destruct (Z.eqb_spec id INVALID); [contradiction|]. eauto. }
  destruct (X Bk Fn) as [[[X1 X2] _] (a0 & Ha & X3)]. injection Ha as <-. 
  split; [|split; [|split]].
  - intros i w Hw. pose proof (znth_some_range _ _ _ Hw) as Ri. change (zlen (jump_words OP_JUMP (k_w k) (k_w kF))) with 3 in Ri. rewrite OmA by lia.
    destruct (Z.eq_dec i 1) as [->|Ni]; [rewrite MZ3; exact Hw|]. rewrite MZ2 by lia. apply M2. unfold jump_words in Hw.
    assert (i = 0 \/ i = 2) as [-> | ->] by lia; exact Hw.
  - change (k_w (set_k_rec _ kZ)) with (k_w kH). rewrite Om; [|change (k_w kZ) with (k_w kH); lia|intros j [[]|[]]]. change (kmem kZ) with (kmem kH). unfold kmem.
    apply znth_in_range. pose proof (kw_w _ KH). lia.
  - exists (mkF argc (k_w k + 3) INVALID). change (v_funcs (k_vm (set_k_rec _ kZ))) with (v_funcs (k_vm kH)). change (k_w (set_k_rec _ kZ)) with (k_w kH). rewrite FH. cbn [f_ext f_argc f_first fd_params fd].
    split; [apply (d_funcs _ _ _ _ _ _ _ DD), FI|]. split; [reflexivity|]. split; [reflexivity|]. split; [lia|].
    exists (k_w kC), E1. rewrite <- WB. split; [exact X1|]. apply (mem_words_app _ _ [OP_LIT_INT; 0]); [exact X2|]. change (zlen [OP_LIT_INT; 0]) with 2. rewrite <- WD. 
    replace (k_w kD) with (k_w kE) by lia. exact X3.
  - intros i d Hd. destruct (Y _ _ Hd) as (f & Y1 & Y2 & Y3 & Y4 & Y5). exists f. change (v_funcs (k_vm (set_k_rec _ kZ))) with (v_funcs (k_vm kH)). change (k_w (set_k_rec _ kZ)) with (k_w kH). rewrite FH. repeat split; try assumption; lia.
Qed.

Lemma used_self E : used_at E (e_used E) = E. Proof. destruct E. reflexivity. Qed.

Definition run_func (b : calls) : K bool := i <~ r_func b false ;; kret (match i with Some _ => true | None => false end).

Lemma good_func k i k' E : function_body r false k = Ok (Some i, k') -> noerr k' -> crel k E -> exists st fx F E', good k k' E st fx F E'.
Proof.
  unfold function_body. intros H N R0. apply enter_inv in H; [|discriminate]. kb H. apply kvm_inv in E0. destruct E0 as (s & Ec & ->). ksin Ec. unfold create_function, mbind, gets, modify, ret, mub in Ec. ksin Ec. cbn [fst snd] in Ec.
  destruct (Z.eqb_spec (u32 (zlen (v_funcs (k_vm k)) + 1)) 0) as [|Nz]; [discriminate|]. injection Ec as <- <-.
  set (id := zlen (v_funcs (k_vm k))) in *. set (kc := set_k_vm _ _) in H.
  pose proof (zlen_nonneg (v_funcs (k_vm k))) as Zf. fold id in Zf. pose proof (cr_f _ _ R0) as Rf. fold id in Rf.
  assert (id <> INVALID) as Iv. { intro Q. apply Nz. rewrite Q. reflexivity. }
  assert (id + 1 < W32) as Rf1. { unfold INVALID, W32 in *. lia. }
  assert (crel kc E) as R. { destruct R0 as [[] A B C D G F Z]. constructor; try assumption; [constructor; assumption|]. unfold kc. ks. vs. rewrite zlen_app. exact Rf1. }
  assert (znth (v_funcs (k_vm kc)) id = Some (mkF 0 0 INVALID)) as Fi. { unfold kc. ks. vs. rewrite znth_app_r by (unfold id; lia). fold id. rewrite Z.sub_diag. reflexivity. }
  kb H. destruct x; cbn [negb] in H; [|apply give_up_inv in H; discriminate].
  apply expect_true in E0; [|tyne]. destruct E0 as (f & q & Tf & Tft & ->). start R D. pose proof (does_nxt _ _ _ _ R Tf) as D1. ext R D D1.
  kb H. injection E0 as <- <-. destruct (Z.eqb_spec (cur_type (nxt kc)) TK_IDENTIFIER) as [Ti|]; [|kb H; apply give_up_inv in H; discriminate].
  kb H. injection E0 as <- <-. destruct (cur_tok _ _ Ti ltac:(tyne)) as (nm & q2 & Tn & Tnt & Sn). rewrite Sn in H. kb H. rewrite next_tok_run in E0. injection E0 as _ <-.
  pose proof (does_nxt _ _ _ _ (does_rel _ _ _ _ _ _ _ _ _ D) Tn) as D2. ext R D D2.
  kb H. rename k0 into k1, E0 into El. kb H. rename k0 into k2, E0 into Ea.
  assert (noerr k2) as N2 by (revert N; refine ((_ : pres errs _) _ _ _ H); ew W).
  assert (noerr k1) as N1 by (revert N2; refine ((_ : pres errs _) _ _ _ Ea); ew W).
  destruct (does_em (push_lit_func id true) (fun _ x ws x' => ws = [OP_LIT_FUNC; u32 id] /\ x' = x + 1) _ _ _ _ ltac:(intros c0 q0 S0; apply em_lit_func) El N1 (does_rel _ _ _ _ _ _ _ _ _ D)) as (ws & v & [-> ->] & W1 & Dl).
  ext R D Dl. destruct (does_add _ _ _ _ _ _ Ea N2 (does_rel _ _ _ _ _ _ _ _ _ D)) as (-> & W2 & Da). ext R D Da. clear D1 D2 Dl Da El Ea.
  cbn [used_at e_used] in D. replace (e_used E + 1 - 1) with (e_used E) in D by lia. change (used_at (used_at E (e_used E + 1)) (e_used E)) with (used_at E (e_used E)) in D. rewrite used_self in D.
  rewrite !nxt_w in *. change (k_w kc) with (k_w k) in *. change (decl_words (used_at E (e_used E + 1))) with (decl_words E) in *. change (decl_ok ?ng (used_at E (e_used E + 1))) with (decl_ok ng E) in D.
  pose proof D as [DD DM _].
  destruct (rest_inv _ _ _ _ _ _ H N (d_rel _ _ _ _ _ _ _ DD) ltac:(unfold is_u32; lia) Iv (d_funcs _ _ _ _ _ _ _ DD _ _ Fi) eq_refl)
    as (o & p & cl & st & F & b1 & T & To & Pw & Tc & Wr & Op & Df & R' & Cx & Bl & Lw & Ns & Fu & Nd & Ids & Ln & Db & Mk).
  set (E1 := declare (tk_str nm) E) in *. set (fd := mkFun (names p) st (outermost E1) (e_globals E1)) in *.
  pose proof (d_len _ _ _ _ _ _ _ DD) as Ln0. assert (zlen (v_funcs (k_vm kc)) = id + 1) as Lc by (unfold kc; ks; vs; rewrite zlen_app; reflexivity). rewrite Lc in Ln0.
  pose proof (d_w _ _ _ _ _ _ _ DD) as Dw. change (k_w kc) with (k_w k) in Dw. pose proof (kw_w _ (cr_wf _ _ R)) as Kw. change (k_w kc) with (k_w k) in Kw.
  exists (SFunc id f nm o p cl st), [], ((id, fd) :: F), E1. constructor; try discriminate.
  - split; [constructor| |contradiction].
    + cbn [stext]. 
      pose proof (d_toks _ _ _ _ _ _ _ DD) as Td. change (k_toks kc) with (k_toks k) in Td. rewrite Td, T. cbn [app]. rewrite <- app_assoc. reflexivity.
    + exact R'.
    + intros j Hj. rewrite Bl by lia. apply (d_below _ _ _ _ _ _ _ DD). exact Hj.
    + lia.
    + intros j f0 Hj. pose proof (znth_some_range _ _ _ Hj). apply Fu; [unfold id; lia|]. apply (d_funcs _ _ _ _ _ _ _ DD). unfold kc. ks. vs. rewrite znth_app_l by lia. exact Hj.
    + rewrite Cx. exact (d_ctx _ _ _ _ _ _ _ DD).
    + contradiction.
    + reflexivity.
    + cbn [map fst]. constructor; [|exact Nd]. intro I. apply Ids in I. lia.
    + cbn [map fst]. intros j [<- | I]; [unfold id in *; lia|]. apply Ids in I. unfold id in *. lia.
    + unfold id in *. lia.
    + rewrite Ns. apply (d_nstat _ _ _ _ _ _ _ DD).
    + apply (d_tl _ _ _ _ _ _ _ DD).
    + apply (d_gl _ _ _ _ _ _ _ DD).
    + intros m ng Om Gn Tb.
      assert (okm m kc k2 [] []) as Om1. { intros j Hj _. change (k_w kc) with (k_w k) in Hj. rewrite Om; [apply Bl; lia|lia|intros z [[]|[]]]. }
      assert (okm m k2 k' [] []) as Om2. { intros j Hj _. apply Om; [lia|intros z [[]|[]]]. }
      destruct (DM m ng Om1 ltac:(lia) ltac:(intros ? ? [])) as [X _]. destruct (Mk m ng Om2 Gn ltac:(intros ? ? I; apply Tb; right; exact I)) as (Y1 & Y2 & Y3 & Y4). split.
      * intros fa lp Bk Fn. assert (fno kc fa) as Fnc. { revert Fn. unfold fno. change (k_ctx kc) with (k_ctx k). destruct (find_fn (k_ctx k)) as [j|]; [|auto]. intros (fn & A1 & A2).
          exists fn. split; [|exact A2]. pose proof (znth_some_range _ _ _ A1). unfold kc. ks. vs. rewrite znth_app_l by lia. exact A1. }
        destruct (X fa lp Bk Fnc) as [[_ X1] [X2 X3]]. change (zlen [OP_LIT_FUNC; u32 id]) with 2 in W1.
        apply (sc_func _ _ _ _ _ _ _ _ _ _ _ _ _ (k_w k2) _ b1); try assumption; try lia.
        -- unfold is_u32. lia.
        -- apply mem_words_app; [exact X1|]. change (zlen [OP_LIT_FUNC; u32 id]) with 2. rewrite <- W1. exact X2.
        -- rewrite zlen_app. change (zlen [OP_LIT_FUNC; u32 id]) with 2. cbn [app] in W2. lia.
      * intros j d [Q|I]; [|apply Y4, I]. injection Q as <- <-. exact Y3.
  - cbn [written]. auto 8.
  - cbn [open_ended]. exact Op.
  - apply sim_refl.
  - intros funs Tb. apply (df_func _ _ _ _ _ _ _ _ _ fd); [reflexivity|apply Tb; left; reflexivity|]. apply Df. intros j d I. apply Tb. right. exact I.
Qed.

Lemma rest_id id k i k' : function_rest r id k = Ok (Some i, k') -> i = id.
Proof.
  unfold function_rest. intro H. kb H. kb H. cbv zeta in H. kb H. kb H. destruct (rev _) as [|g q]; [discriminate|].
  do 4 kb H. kb H. match type of H with context [let '(argc, ok) := ?p in _] => destruct p as [argc ok] end. repeat (kb H); injection H as H _. destruct (ok && _)%bool; [injection H as ->; reflexivity|discriminate].
Qed.

(** A function without a name, inside an expression. *)
Lemma good_lambda k i k' E : function_body r true k = Ok (Some i, k') -> noerr k' -> crel k E ->
  exists ts F, is_u32 i /\ (forall funs t, table F funs -> number t = i -> literal funs E ts t) /\
    does k k' ts [] [] F E E (fun m ng _ _ => forall t, number t = i -> skips m ng [(ts, t)] (k_w k) (k_w k')).
Proof.
  unfold function_body. intros H N R0. apply enter_inv in H; [|discriminate]. kb H. apply kvm_inv in E0. destruct E0 as (s & Ec & ->). ksin Ec. unfold create_function, mbind, gets, modify, ret, mub in Ec. ksin Ec. cbn [fst snd] in Ec.
  destruct (Z.eqb_spec (u32 (zlen (v_funcs (k_vm k)) + 1)) 0) as [|Nz]; [discriminate|]. injection Ec as <- <-.
  set (id := zlen (v_funcs (k_vm k))) in *. set (kc := set_k_vm _ _) in H.
  pose proof (zlen_nonneg (v_funcs (k_vm k))) as Zf. fold id in Zf. pose proof (cr_f _ _ R0) as Rf. fold id in Rf.
  assert (id <> INVALID) as Iv. { intro Q. apply Nz. rewrite Q. reflexivity. }
  assert (id + 1 < W32) as Rf1. { unfold INVALID, W32 in *. lia. }
  assert (crel kc E) as R. { destruct R0 as [[] A B C D G F Z]. constructor; try assumption; [constructor; assumption|]. unfold kc. ks. vs. rewrite zlen_app. exact Rf1. }
  assert (znth (v_funcs (k_vm kc)) id = Some (mkF 0 0 INVALID)) as Fi. { unfold kc. ks. vs. rewrite znth_app_r by (unfold id; lia). fold id. rewrite Z.sub_diag. reflexivity. }
  kb H. destruct x; cbn [negb] in H; [|apply give_up_inv in H; discriminate].
  apply expect_true in E0; [|tyne]. destruct E0 as (f & q & Tf & Tft & ->). pose proof (did_nxt _ _ _ _ R Tf) as DD.
  assert (i = id) as -> by exact (rest_id _ _ _ _ H).
  destruct (rest_inv _ _ _ _ _ _ H N (d_rel _ _ _ _ _ _ _ DD) ltac:(unfold is_u32; lia) Iv (d_funcs _ _ _ _ _ _ _ DD _ _ Fi) eq_refl)
    as (o & p & cl & st & F & b1 & T & To & Pw & Tc & Wr & Op & Df & R' & Cx & Bl & Lw & Ns & Fu & Nd & Ids & Ln & Db & Mk).
  set (fd := mkFun (names p) st (outermost E) (e_globals E)) in *.
  pose proof (d_len _ _ _ _ _ _ _ DD) as Ln0. assert (zlen (v_funcs (k_vm kc)) = id + 1) as Lc by (unfold kc; ks; vs; rewrite zlen_app; reflexivity). rewrite Lc in Ln0.
  pose proof (kw_w _ (cr_wf _ _ R)) as Kw. change (k_w kc) with (k_w k) in Kw. rewrite nxt_w in *. change (k_w kc) with (k_w k) in *.
  exists ([f; o] ++ ptext p ++ [cl] ++ stext st), ((id, fd) :: F). split; [unfold is_u32; lia|]. split.
  { intros funs t Tb Nm. apply (df_literal _ _ _ _ _ _ _ _ fd); auto; [rewrite Nm; apply Tb; left; reflexivity|]. apply Df. intros j d I. apply Tb. right. exact I. }
  split; [constructor| |contradiction].
  + pose proof (d_toks _ _ _ _ _ _ _ DD) as Td. change (k_toks kc) with (k_toks k) in Td. rewrite Td, T. cbn [app]. rewrite <- app_assoc. reflexivity.
  + exact R'.
  + intros j Hj. rewrite Bl by lia. apply (d_below _ _ _ _ _ _ _ DD). exact Hj.
  + lia.
  + intros j f0 Hj. pose proof (znth_some_range _ _ _ Hj). apply Fu; [unfold id; lia|]. apply (d_funcs _ _ _ _ _ _ _ DD). unfold kc. ks. vs. rewrite znth_app_l by lia. exact Hj.
  + rewrite Cx. exact (d_ctx _ _ _ _ _ _ _ DD).
  + contradiction.
  + reflexivity.
  + cbn [map fst]. constructor; [|exact Nd]. intro I. apply Ids in I. lia.
  + cbn [map fst]. intros j [<- | I]; [unfold id in *; lia|]. apply Ids in I. unfold id in *. lia.
  + unfold id in *. lia.
  + rewrite Ns. apply (d_nstat _ _ _ _ _ _ _ DD).
  + reflexivity.
  + reflexivity.
  + intros m ng Om Gn Tb.
    assert (okm m (nxt kc) k' [] []) as Om2. { intros j Hj _. rewrite nxt_w in Hj. change (k_w kc) with (k_w k) in Hj. apply Om; [lia|intros z [[]|[]]]. }
    destruct (Mk m ng Om2 Gn ltac:(intros ? ? I; apply Tb; right; exact I)) as (Y1 & Y2 & Y3 & Y4). split.
    * intros fa lp _ _ t Nm. apply sk_cons with (b := k_w k') (b1 := b1) (fd := fd); try assumption; [rewrite Nm; apply Tb; left; reflexivity|lia|apply sk_nil].
    * intros j d [Q|I]; [|apply Y4, I]. injection Q as <- <-. exact Y3.
Qed.

Hypothesis HF : goods (run_func r).

Lemma good_stmt : goods (statement_body r).
Proof.
  intros k k' E H N R0. unfold statement_body in H. kb H. injection E0 as <- <-. apply enter_inv in H; [|discriminate]. pose proof (crel_rec (k_rec k + 1) _ _ R0) as R.
  cbv zeta in H. set (k1 := set_k_rec (k_rec k + 1) k) in *.
  set (fin := kbind (kgets k_ctx) _) in H.
  assert (forall j, fin j = Ok (true, k') -> k' = set_k_rec (k_rec j - 1) j) as Fin.
  { intros j X. unfold fin in X. kb X. injection E0 as <- <-. destruct (negb _); [discriminate|]. kb X. apply pop_rec_inv in E0. injection X as <-. exact E0. }
  assert (forall m : K bool, goods m -> (b <~ m ;; if b : bool then fin else kret false) k1 = Ok (true, k') -> exists st fx F E', good k k' E st fx F E') as After.
  { intros m G X. kb X. match type of E0 with _ = Ok (?b, _) => destruct b end; [|discriminate]. apply Fin in X. subst k'.
    destruct (G _ _ _ E0 N R) as (st & fx & F & E' & Gd). exists st, fx, F, E'. apply good_rec. apply good_rec_l in Gd. exact Gd. }
  kb H. injection E0 as <- <-. change (k_toks k) with (k_toks k1) in H. destruct (k_toks k1) as [|t rest] eqn:Tk; [exfalso; exact (complain _ _ _ _ _ H N)|].
  destruct (tk_type t =? TK_INVALID); [exfalso; exact (complain _ _ _ _ _ H N)|].
  destruct (tk_type t =? TK_VAR). { destruct (good_var _ _ _ H N R) as (st & fx & F & E' & Gd). exists st, fx, F, E'. apply good_rec_l in Gd. exact Gd. }
  destruct (tk_type t =? TK_RETURN). { destruct (good_return _ _ _ H N R) as (st & fx & F & E' & Gd). exists st, fx, F, E'. apply good_rec_l in Gd. exact Gd. }
  destruct (tk_type t =? TK_CURLY_OPEN); [apply (After _ good_block H)|].
  destruct (tk_type t =? TK_IF); [apply (After _ good_if H)|].
  destruct (tk_type t =? TK_WHILE); [apply (After _ good_while H)|].
  destruct (tk_type t =? TK_DO); [apply (After _ good_do H)|].
  destruct (tk_type t =? TK_FOR); [apply (After _ good_for H)|].
  destruct (tk_type t =? TK_BREAK); [apply (After _ good_break H)|].
  destruct (_ && _); [apply (After _ HF H)|].
  kb H. match type of E0 with _ = Ok (?b, _) => destruct b end; cbn [negb] in H; [|discriminate].
  assert (noerr k0) as N0 by (revert N; refine ((_ : pres errs _) _ _ _ H); unfold fin; ew W).
  destruct (does_expr _ _ _ _ E0 N0 R) as (e & u & Fe & Ge & Td & D). kb H. injection E1 as <- <-. kb H. rename k2 into k3. kb H. rename k2 into k4, E2 into Ee.
  match type of Ee with _ = Ok (?b, _) => destruct b end; [|apply give_up_inv in H; discriminate]. apply expect_true in Ee; [|tyne]. destruct Ee as (se & q & Ts & Tst & ->).
  apply Fin in H. assert (noerr k3) as N3. { subst k'. revert N. unfold noerr, nxt. rewrite Ts. destruct q as [|tq q]; [auto|]. cbv zeta. destruct (_ || _); auto. }
  destruct (Z.eqb_spec (cur_type k0) TK_SEMICOLON) as [Q|Q].
  - destruct (does_op _ _ _ _ _ E1 N3 (does_rel _ _ _ _ _ _ _ _ _ D)) as (W1 & Do). ext R D Do. pose proof (does_nxt _ _ _ _ (does_rel _ _ _ _ _ _ _ _ _ D) Ts) as Dn. ext R D Dn.
    subst k'. cbn [used_at e_used] in D. change (stack_offset OP_POP) with (-1) in D.
    exists (SExpr e se), [], Fe, (used_at E (u - 1)). constructor; cbn [written open_ended after stext]; auto; try discriminate.
    + apply does_rec, (does_rec_l (k_rec k + 1)). eapply does_as; [exact D|reflexivity|reflexivity|]. cbv beta. intros m ng fa lp _ [[X1 X2] _].
      ks. rewrite nxt_w, W1. apply sc_expr; assumption.
    + apply sim_used.
    + intros funs T. constructor. auto.
  - exfalso. injection E1 as _ <-. apply Q. unfold cur_type. rewrite Ts. exact Tst.
Qed.
End Body.

Section Lits2.
Context {LT : Lits}.

(** ** Expressions *)

Definition goodl (b : calls) : Prop := forall k i k' E, function_body b true k = Ok (Some i, k') -> noerr k' -> crel k E ->
  exists ts F, is_u32 i /\ (forall funs t, table F funs -> number t = i -> literal funs E ts t) /\
    does k k' ts [] [] F E E (fun m ng _ _ => forall t, number t = i -> skips m ng [(ts, t)] (k_w k) (k_w k')).

Fixpoint alits (l : list TraceProofs.atom) : list (list token * token) :=
  match l with [] => [] | TraceProofs.Tok _ :: l => alits l | TraceProofs.Lit ts t :: l => (ts, t) :: alits l end.
Lemma alits_app a b : alits (a ++ b) = alits a ++ alits b.
Proof. induction a as [|[t|ts t] a IH]; cbn [alits app]; [reflexivity|exact IH|rewrite IH; reflexivity]. Qed.
Lemma alits_atoms : (forall e, alits (TraceProofs.atoms e) = lits e) /\ (forall a, alits (TraceProofs.args_atoms a) = args_lits a).
Proof.
  apply TraceProofs.expr_args_mi2; intros; cbn [TraceProofs.atoms TraceProofs.args_atoms lits args_lits]; repeat (rewrite alits_app || cbn [alits app]); rewrite ?app_nil_r; congruence.
Qed.

Lemma atol_u_to_str z : is_u32 z -> u32 (FloatModel.c_atol (FloatModel.u_to_str z)) = z.
Proof.
  intro H. unfold FloatModel.c_atol. unfold is_u32, W32 in H.
  destruct (TextProofs.u_to_str_spec z) as (D & V & N); [lia|].
  destruct (FloatModel.u_to_str z) as [|c r] eqn:E; [congruence|]. pose proof (Forall_inv D) as Dc. cbv beta in Dc.
  cbn [FloatModel.skip_spaces]. rewrite (TextProofs.digit_not_space c Dc). unfold FloatModel.take_sign.
  pose proof (TextProofs.digit_range c Dc).
  destruct (Z.eqb_spec c 45); [lia|]. destruct (Z.eqb_spec c 43); [lia|].
  rewrite <- E in *. rewrite <- (app_nil_r (FloatModel.u_to_str z)), TextProofs.take_digits_app by auto. rewrite V.
  rewrite Z.min_l by (unfold FloatModel.LONG_MAX; lia). rewrite u32_s32. apply u32_id. unfold is_u32, W32. lia.
Qed.

Lemma skips_app m ng l1 l2 a b c : skips m ng l1 a b -> skips m ng l2 b c -> skips m ng (l1 ++ l2) a c.
Proof. induction 1; cbn [app]; [auto|]. let HH := fresh in intro HH; eapply sk_cons; eauto. Qed.

Lemma errs_nxt k : errs k (nxt k).
Proof. apply errs_same; destruct (nxt_same k) as (_ & _ & _ & _ & _ & _ & _ & _ & A); unfold nxt; destruct (k_toks k) as [|t [|t2 q]]; try reflexivity; cbv zeta; destruct (_ || _)%bool; reflexivity. Qed.

Section Reads.
Variable N : nat.
Hypothesis HL : forall m, (m < N)%nat -> goodl (compiler m).

Lemma does_reads k k' s : TraceProofs.reads N k k' s -> errs k k' /\ (noerr k' -> forall E, crel k E ->
  exists F, ((forall funs, table F funs -> forall ts t, In (ts, t) (alits s) -> literal funs E ts t) /\ (alits s = [] -> F = [])) /\
    does k k' (TraceProofs.flat s) [] [] F E E (fun m ng _ _ => skips m ng (alits s) (k_w k) (k_w k'))).
Proof.
  induction 1 as [k|x k|k t l T|n k i k' ts L H T|a b c s t _ IH1 _ IH2]; cbn [TraceProofs.flat alits].
  - split; [intro; assumption|]. intros _ E R. exists []. split; [split; [contradiction|reflexivity]|]. eapply does_wk; [exact (does_did _ _ _ _ _ (did_refl _ _ R))|]. intros. apply sk_nil.
  - split; [intro; assumption|]. intros _ E R. exists []. split; [split; [contradiction|reflexivity]|]. apply does_rec. eapply does_wk; [exact (does_did _ _ _ _ _ (did_refl _ _ R))|]. intros. apply sk_nil.
  - split; [apply errs_nxt|]. intros _ E R. exists []. split; [split; [contradiction|reflexivity]|]. eapply does_wk; [exact (does_nxt _ _ _ _ R T)|]. intros. rewrite nxt_w. apply sk_nil.
  - split; [exact (wk_func _ _ (compiler_walks errs errs_prims (S n)) true _ _ _ H)|]. intros N0 E R.
    destruct (HL _ L _ _ _ _ H N0 R) as (ts' & F & U & Li & D). assert (ts' = ts) as ->.
    { pose proof (d_toks _ _ _ _ _ _ _ (s_did _ _ _ _ _ _ _ _ _ D)) as X. rewrite T in X. apply app_inv_tail in X. auto. }
    assert (number (made TK_FUNCTION (FloatModel.u_to_str i) (s32 (cur_line k'))) = i) as Nm by (apply atol_u_to_str, U).
    exists F. split; [split|].
    + intros funs Tb ts2 t2 [Q|[]]. injection Q as <- <-. auto.
    + discriminate.
    + rewrite app_nil_r. eapply does_wk; [exact D|]. cbv beta. auto.
  - destruct IH1 as [A1 B1], IH2 as [A2 B2]. split; [intro Nc; auto|]. intros Nc E R. destruct (B1 (A2 Nc) E R) as (F1 & [L1 Z1] & D1). destruct (B2 Nc E (does_rel _ _ _ _ _ _ _ _ _ D1)) as (F2 & [L2 Z2] & D2).
    exists (F1 ++ F2). split; [split|].
    + intros funs Tb ts u I. apply table_app in Tb. destruct Tb. rewrite alits_app in I. apply in_app_or in I. destruct I; eauto.
    + rewrite alits_app. intro Q. apply app_eq_nil in Q. destruct Q. rewrite Z1, Z2 by assumption. reflexivity.
    + pose proof (does_seq _ _ _ _ _ _ _ _ _ _ _ _ _ _ _ _ R D1 D2) as D. cbn [app] in D. rewrite TraceProofs.flat_app, alits_app. eapply does_wk; [exact D|]. cbv beta. intros m ng fa lp _ [X Y]. eapply skips_app; eauto.
Qed.

(** Doubling increments only counts how deep it is. *)
Lemma expand_rec n : forall d k n' k', expand n d k = Ok (n', k') -> noerr k' -> exists x, k' = set_k_rec x k.
Proof.
  induction n as [|t root a IHa b IHb]; intros d k n' k' H N0; cbn [expand] in *.
  { injection H as <- <-. exists (k_rec k). destruct k; reflexivity. }
  kb H. destruct x; cbn [negb] in H.
  2: { injection H as _ <-. unfold push_recursion in E. kb E. destruct (256 <? x); [destruct (complain _ _ _ _ _ E N0)|]. kb E. discriminate. }
  apply push_rec_inv in E; [|reflexivity]. subst k0. kb H. kb H. apply pop_rec_inv in E0. injection H as <- <-. subst. change (noerr k0) in N0.
  enough (exists x, k0 = set_k_rec x k) as (y & ->) by (eexists; reflexivity).
  destruct (is_incdec (tk_type t)).
  - destruct (is_null a || negb (is_null b))%bool; [discriminate|]. injection E as _ <-. eauto.
  - kb E. kb E. injection E as _ <-. assert (noerr k1) as N1 by exact (w_expand _ errs_prims _ _ _ _ _ E1 N0).
    destruct (IHa _ _ _ _ E0 N1) as (y1 & ->). destruct (IHb _ _ _ _ E1 N0) as (y2 & ->). eexists. reflexivity.
Qed.

Lemma good_tree d k v k' E : expression_tree (compiler N) d k = Ok (v, k') -> v <> ANull -> noerr k' -> crel k E ->
  exists e F, (TraceProofs.neat e /\ (lits e = [] -> F = [])) /\ (optimize (expandp (tree e) d) = Ok v /\ texts v) /\ told F E e /\
    does k k' (text e) [] [] F E E (fun m ng _ _ => skips m ng (lits e) (k_w k) (k_w k')).
Proof.
  intros H V N0 R. unfold expression_tree in H. kb H. destruct x; cbn [negb] in H; [|injection H as <- _; contradiction].
  apply push_rec_inv in E0; [|reflexivity]. subst. kb H. rename k0 into k1, E0 into Ep. kb H. rename k0 into k2, E0 into Ex. kb H. injection E0 as <- <-. kb H. apply pop_rec_inv in E0. injection H as <- <-. subst.
  change (noerr k2) in N0.
  unfold has_errors in V. destruct (v_errs (k_vm k2)) eqn:X; [|contradiction V; reflexivity]. cbn in V.
  destruct x as [|t root c0 c1]; [injection Ex as <- _; contradiction|].
  kb Ex. apply klift_inv in Ex. destruct Ex as [Eo ->]. rename E0 into Ee.
  assert (noerr k1) as N1 by exact (w_expand _ errs_prims _ _ _ _ _ Ee N0).
  destruct (TraceProofs.sd_expr _ _ (TraceProofs.compiler_traced N N (le_n N)) _ _ _ Ep) as [?|(e & (G & Tr & s & T1 & T2) & En)]; [discriminate|]. cbn [app] in T1. subst s.
  destruct (expand_rec _ _ _ _ _ Ee N0) as (y & ->). apply expand_none in Ee; [|exact N0]. rewrite <- Tr in Ee. subst x.
  apply crel_rec with (x := k_rec k + 1) in R. destruct (does_reads _ _ _ T2) as [_ B]. destruct (B N1 E R) as (F & [Li Lz] & D). rewrite (proj1 TraceProofs.atoms_text), (proj1 alits_atoms) in *.
  exists e, F. split; [split; [exact G|exact Lz]|]. split; [|split].
  - unfold has_errors. rewrite X. cbn. split; [exact Eo|]. apply (texts_optimize _ _ Eo), texts_expand, (proj1 texts_expr _ (proj1 G)).
    pose proof (cr_tk _ _ R) as L. rewrite (d_toks _ _ _ _ _ _ _ (s_did _ _ _ _ _ _ _ _ _ D)) in L. apply Forall_app in L. apply L.
  - exact Li.
  - apply does_rec, does_rec, (does_rec_l (k_rec k + 1)). exact D.
Qed.
End Reads.

(** ** The whole compiler *)

Definition all_good (b : calls) : Prop := goods (r_stmt b) /\ goodb b /\ gooda b /\ goods (run_func b).

Theorem compiler_good n : all_good (compiler n).
Proof.
  induction n as [n IH] using (well_founded_induction lt_wf). destruct n as [|n]; [repeat split; repeat intro; discriminate|].
  destruct (IH n (Nat.lt_succ_diag_r n)) as (IS & IB & IA & IF).
  assert (forall m, (m < n)%nat -> goodl (compiler m)) as IL.
  { intro m. induction m as [m JL] using (well_founded_induction lt_wf). intro Lm. destruct (IH m ltac:(lia)) as (JS & _ & JA & _).
    pose proof (good_tree m (fun q Lq => JL q Lq ltac:(lia))) as JE. intros k i k' E. apply good_lambda; assumption. }
  pose proof (good_tree n IL) as IE.
  cbn [compiler]. split; [|split; [|split]].
  - apply good_stmt; assumption.
  - intros bare k k' E. apply goods_loop; assumption.
  - intros n0 k a k' c g. apply good_args; assumption.
  - intros k k' E H N R. unfold run_func in H. kb H. injection H as H <-. match type of E0 with _ = Ok (?b, _) => destruct b; [|discriminate] end.
    eapply good_func; eauto.
Qed.
Lemma compiler_lambda m : goodl (compiler m).
Proof.
  induction m as [m JL] using (well_founded_induction lt_wf). destruct (compiler_good m) as (JS & _ & JA & _).
  pose proof (good_tree m (fun q Lq => JL q Lq)) as JE. intros k i k' E. apply good_lambda; assumption.
Qed.
Lemma compiler_tree n d k v k' E : expression_tree (compiler n) d k = Ok (v, k') -> v <> ANull -> noerr k' -> crel k E ->
  exists e F, (TraceProofs.neat e /\ (lits e = [] -> F = [])) /\ (optimize (expandp (tree e) d) = Ok v /\ texts v) /\ told F E e /\
    does k k' (text e) [] [] F E E (fun m ng _ _ => skips m ng (lits e) (k_w k) (k_w k')).
Proof. apply good_tree. intros m _. apply compiler_lambda. Qed.
End Lits2.
