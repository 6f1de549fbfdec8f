(** * NameProofs: names in compiled code are declared *)

From Verif Require Import Base BaseFacts State TokenModel ExprModel CsModel CompModel ParseSpec RunSpec RepSpec CodeRel ExecProofs StmtProofs NameSpec.
From Coq Require Import ZArith List Lia Bool.
Import ListNotations.
Open Scope Z_scope.

(** ** Trees *)

Fixpoint anames (n : ast) : list bytes :=
  match n with
  | ANull => []
  | ANode t _ a b => (if tk_type t =? TK_IDENTIFIER then [tk_str t] else []) ++ anames a ++ anames b
  end.
Definition plain (ty : Z) : bool := (ty =? TK_INTEGER) || (ty =? TK_FLOAT) || (ty =? TK_IDENTIFIER).
Fixpoint leafy (n : ast) : Prop :=
  match n with
  | ANull => True
  | ANode t _ a b => leafy a /\ leafy b /\ (plain (tk_type t) = true -> a = ANull /\ b = ANull) /\ (is_incdec (tk_type t) = true -> b = ANull)
  end.

Lemma found x sc p : lookup x sc = Some p -> declared x (map (map fst) sc).
Proof.
  induction sc as [|s r IH]; cbn [lookup map]; [discriminate|]. destruct (find_in x s) eqn:F.
  - intros _. exists (map fst s). split; [left; reflexivity|]. clear -F. induction s as [|[m q] s IH]; cbn [find_in] in F; [discriminate|]. cbn [map fst].
    destruct (bytes_eqb m x) eqn:Q; [left; apply bytes_eqb_eq; exact Q|right; auto].
  - intro H. destruct (IH H) as (l & A & B). exists l. split; [right; exact A|exact B].
Qed.

Section WithLits.
Context {LT : Lits}.

Lemma ecode_names sc n : forall off ws off', ecode sc off n ws off' -> leafy n -> forall x, In x (anames n) -> declared x (map (map fst) sc).
Proof.
  revert n. fix IH 1. intros [|t root c0 c1] off ws off' H L x I; [destruct I|]. cbn [ecode] in H. cbn [leafy] in L. destruct L as (L0 & L1 & Lp & Li). cbn [anames] in I.
  destruct (Z.eqb_spec (tk_type t) TK_ASSIGNMENT) as [Ta|Ta].
  - rewrite Ta in I. change (TK_ASSIGNMENT =? TK_IDENTIFIER) with false in I. cbn [app] in I. destruct H as (w1 & off1 & H1 & H). apply in_app_or in I. destruct I as [I|I]; [|exact (IH _ _ _ _ H1 L1 x I)].
    destruct c0 as [|t0 r0 c00 c01]; [contradiction|]. cbn [anames leafy] in I, L0. destruct L0 as (L00 & L01 & Lp0 & _).
    destruct (Z.eqb_spec (tk_type t0) TK_IDENTIFIER) as [Ti|Ti].
    + destruct H as (p & Lk & _). destruct Lp0 as [-> ->]; [rewrite Ti; reflexivity|]. destruct I as [<-|[]]. exact (found _ _ _ Lk).
    + destruct H as (_ & w2 & off2 & w3 & off3 & Ha & Hb & _). cbn [app] in I. apply in_app_or in I. destruct I as [I|I]; [exact (IH _ _ _ _ Ha L00 x I)|exact (IH _ _ _ _ Hb L01 x I)].
  - destruct H as (w0 & off0 & w1 & off1 & w2 & H0 & H1 & Ht & _). apply in_app_or in I. destruct I as [I|I].
    + destruct (Z.eqb_spec (tk_type t) TK_IDENTIFIER) as [Ti|]; [|destruct I]. destruct I as [<-|[]].
      unfold tail_code in Ht. rewrite Ti in Ht. change (TK_IDENTIFIER =? TK_FUNCTION) with false in Ht. change (TK_IDENTIFIER =? TK_INTEGER) with false in Ht.
      change (TK_IDENTIFIER =? TK_FLOAT) with false in Ht. change (TK_IDENTIFIER =? TK_STRING) with false in Ht. change (TK_IDENTIFIER =? TK_IDENTIFIER) with true in Ht. cbv iota in Ht.
      destruct Ht as (p & Lk & _). exact (found _ _ _ Lk).
    + apply in_app_or in I. destruct I as [I|I]; [exact (IH _ _ _ _ H0 L0 x I)|exact (IH _ _ _ _ H1 L1 x I)].
Qed.

Lemma fold_type t : foldable t = true -> plain t = false /\ is_incdec t = false.
Proof.
  unfold foldable. intro H. repeat match type of H with (_ || _) = true => apply orb_prop in H; destruct H as [H|H] end; apply Z.eqb_eq in H; subst; split; reflexivity.
Qed.
Lemma optimize_names n : forall n', optimize n = Ok n' -> leafy n -> leafy n' /\ incl (anames n) (anames n') /\ (n = ANull -> n' = ANull).
Proof.
  induction n as [|t root c0 IH0 c1 IH1]; intros n' H L; [injection H as <-; split; [exact I|split; [apply incl_refl|auto]]|]. cbn [optimize] in H. destruct L as (L0 & L1 & Lp & Li).
  destruct (optimize c0) as [d0|] eqn:O0; [|discriminate]. destruct (optimize c1) as [d1|] eqn:O1; [|discriminate]. cbn [bind] in H.
  destruct (IH0 _ eq_refl L0) as (M0 & N0 & Z0). destruct (IH1 _ eq_refl L1) as (M1 & N1 & Z1).
  assert (leafy (ANode t root d0 d1) /\ incl (anames (ANode t root c0 c1)) (anames (ANode t root d0 d1)) /\ (ANode t root c0 c1 = ANull -> ANode t root d0 d1 = ANull)) as Same.
  { split; [|split; [|discriminate]].
    - cbn [leafy]. split; [exact M0|]. split; [exact M1|]. split; [intro P; destruct (Lp P); auto|intro P; auto].
    - cbn [anames]. apply incl_app; [apply incl_appl, incl_refl|]. apply incl_appr. apply incl_app; [apply incl_appl, N0|apply incl_appr, N1]. }
  destruct (foldable (tk_type t)) eqn:Fo; cbn [negb] in H; [|injection H as <-; exact Same].
  destruct (negb (immediate d0) || negb (is_null d1 || immediate d1)) eqn:Im; [injection H as <-; exact Same|].
  apply orb_false_elim in Im. destruct Im as [I0 I1]. apply negb_false_iff in I0, I1.
  destruct d0 as [|t0 r0 x0 y0]; [discriminate|]. destruct (fold_type _ Fo) as [Pf If].
  assert (anames (ANode t root c0 c1) = anames c0 ++ anames c1) as Nm. { cbn [anames]. destruct (Z.eqb_spec (tk_type t) TK_IDENTIFIER) as [Q|]; [rewrite Q in Fo; discriminate|reflexivity]. }
  assert (forall t r x y, immediate (ANode t r x y) = true -> leafy (ANode t r x y) -> anames (ANode t r x y) = []) as Imm.
  { clear. intros t r x y I (_ & _ & Lp & _). cbn [immediate] in I. apply orb_prop in I. 
    assert (plain (tk_type t) = true) as P. { unfold plain. destruct I as [-> | ->]; rewrite ?orb_true_r; reflexivity. }
    destruct (Lp P) as [-> ->]. cbn [anames app]. destruct I as [I|I]; apply Z.eqb_eq in I; rewrite I; reflexivity. }
  assert (anames c0 = [] /\ anames c1 = []) as [A0 A1].
  { rewrite (Imm _ _ _ _ I0 M0) in N0. split; [apply incl_l_nil; exact N0|]. apply orb_prop in I1. destruct d1 as [|t1 r1 x1 y1]; [apply incl_l_nil; exact N1|]. destruct I1 as [I1|I1]; [discriminate|].
    rewrite (Imm _ _ _ _ I1 M1) in N1. apply incl_l_nil. exact N1. }
  assert (forall ty s l, plain ty = true -> is_incdec ty = false -> leafy (ANode (made ty s l) false ANull ANull) /\ incl (anames (ANode t root c0 c1)) (anames (ANode (made ty s l) false ANull ANull)) /\ (ANode t root c0 c1 = ANull -> ANode (made ty s l) false ANull ANull = ANull)) as New.
  { intros ty s l P Q. split; [|split; [|discriminate]].
    - cbn [leafy]. repeat split.
    - rewrite Nm, A0, A1. apply incl_nil_l. }
  destruct (tk_type t0 =? TK_INTEGER).
  - destruct (fold_int _ _ _ _) as [[v|]|]; cbn [bind] in H; try discriminate; injection H as <-; [apply New; reflexivity|exact Same].
  - destruct (fold_float _ _ _ _) as [[v|]|]; cbn [bind] in H; try discriminate; injection H as <-; [apply New; reflexivity|exact Same].
Qed.

Lemma made_type ty s l : tk_type (made ty s l) = ty. Proof. reflexivity. Qed.
Lemma expand_names n : forall d, leafy n -> leafy (expandp n d) /\ incl (anames n) (anames (expandp n d)) /\ (n = ANull -> expandp n d = ANull).
Proof.
  induction n as [|t root c0 IH0 c1 IH1]; intros d L; [split; [exact I|split; [apply incl_refl|reflexivity]]|]. destruct L as (L0 & L1 & Lp & Li). cbn [expandp].
  destruct (is_incdec (tk_type t)) eqn:Q.
  - rewrite (Li eq_refl). assert (tk_type t =? TK_IDENTIFIER = false) as Ni.
    { apply Z.eqb_neq. intro R. rewrite R in Q. discriminate. }
    split; [|split; [|discriminate]].
    + unfold expand_node. destruct ((tk_type t =? TK_POSTINC) || (tk_type t =? TK_POSTDEC)), (negb d), ((tk_type t =? TK_INCREMENT) || (tk_type t =? TK_POSTINC));
        cbn [andb leafy]; rewrite ?made_type; repeat split; auto; discriminate.
    + cbn [anames]. rewrite Ni, app_nil_r. cbn [app]. unfold expand_node.
      destruct ((tk_type t =? TK_POSTINC) || (tk_type t =? TK_POSTDEC)), (negb d), ((tk_type t =? TK_INCREMENT) || (tk_type t =? TK_POSTINC));
        cbn [andb anames]; rewrite ?made_type; intros x I; cbn [app]; repeat (rewrite in_app_iff); tauto.
  - destruct (IH0 false L0) as (M0 & N0 & Z0). destruct (IH1 false L1) as (M1 & N1 & Z1). split; [|split; [|discriminate]].
    + cbn [leafy]. rewrite Q. split; [exact M0|]. split; [exact M1|]. split; [intro P; destruct (Lp P); auto|discriminate].
    + cbn [anames]. apply incl_app; [apply incl_appl, incl_refl|]. apply incl_appr. apply incl_app; [apply incl_appl, N0|apply incl_appr, N1].
Qed.

(** ** Expressions *)

Lemma rank_type t n : rank t n -> plain t = false /\ is_incdec t = false /\ t <> TK_IDENTIFIER.
Proof.
  intros (l & A & B). do 8 (destruct n as [|n]; [cbn in A; try discriminate A; injection A as <-; cbn in B; repeat (destruct B as [<-|B]; [repeat split; discriminate|]); destruct B|]).
  cbn in A. destruct n; discriminate.
Qed.

Fixpoint tree_leafy (e : expr) : grouped e -> leafy (tree e) /\ incl (mentions e) (anames (tree e))
with chain_leafy (t : token) (a : args) : args_grouped a -> plain (tk_type t) = false -> is_incdec (tk_type t) = false ->
  leafy (chain t a) /\ incl (args_mention a) (anames (chain t a)).
Proof.
  - destruct e; cbn [grouped tree mentions]; intro G.
    + split; [repeat split|]. cbn [anames]. rewrite !app_nil_r. apply incl_refl.
    + split; [repeat split|apply incl_nil_l].
    + destruct G as (_ & G & _). apply tree_leafy, G.
    + destruct G as (P & G & _). destruct (tree_leafy _ G) as [A B]. split; [|cbn [anames]; rewrite app_nil_r; apply incl_appr, B].
      cbn [leafy]. split; [exact A|]. split; [exact I|]. split; [|auto]. intro Q. exfalso. repeat (destruct P as [P|P]; [rewrite <- P in Q; discriminate|]). destruct P.
    + destruct G as (G & _ & P). destruct (tree_leafy _ G) as [A B]. split; [|cbn [anames]; rewrite app_nil_r; apply incl_appr, B].
      cbn [leafy]. split; [exact A|]. split; [exact I|]. split; [|auto]. destruct (tk_type o =? TK_INCREMENT); discriminate.
    + destruct G as (G1 & _ & P & G2 & _). destruct (tree_leafy _ G1) as [A B]. destruct (tree_leafy _ G2) as [A2 B2]. split.
      * cbn [leafy]. rewrite P. repeat split; auto; discriminate.
      * cbn [anames]. apply incl_appr. apply incl_app; [apply incl_appl, B|apply incl_appr, B2].
    + destruct G as (G & _ & _). destruct (tree_leafy _ G) as [A B]. split.
      * cbn [leafy]. repeat split; auto; discriminate.
      * cbn [anames]. apply incl_appr, incl_appl, B.
    + destruct G as (G & _ & P & Ga & _). destruct (tree_leafy _ G) as [A B]. destruct (chain_leafy o _ Ga) as [A2 B2]; [rewrite P; reflexivity..|].
      destruct (bare e && names_fse (tree e)).
      * split; [cbn [leafy]; repeat split; auto; discriminate|]. cbn [anames app]. exact B2.
      * split; [cbn [leafy]; rewrite P; repeat split; auto; discriminate|]. cbn [anames]. apply incl_appr. apply incl_app; [apply incl_appl, B|apply incl_appr, B2].
    + destruct G as (G & _ & _ & _ & P & Ga & _). destruct (tree_leafy _ G) as [A B]. destruct (chain_leafy (invented TK_CALL_SELF (bs "(") (tk_line o)) _ Ga eq_refl eq_refl) as [A2 B2]. split.
      * cbn [leafy]. repeat split; auto; discriminate.
      * cbn [anames]. apply incl_appr. apply incl_app; [apply incl_appl, incl_appr, incl_appl, B|apply incl_appr, B2].
    + destruct G as (G1 & G2 & n & R & _). destruct (tree_leafy _ G1) as [A B]. destruct (tree_leafy _ G2) as [A2 B2]. destruct (rank_type _ _ R) as (P & Q & _). split.
      * cbn [leafy]. rewrite P, Q. repeat split; auto; discriminate.
      * cbn [anames]. apply incl_appr. apply incl_app; [apply incl_appl, B|apply incl_appr, B2].
  - destruct a; cbn [args_grouped chain args_mention]; intros G P Q.
    + split; [exact I|apply incl_nil_l].
    + destruct (tree_leafy _ G) as [A B]. split; [cbn [leafy]; rewrite P, Q; repeat split; auto; discriminate|]. cbn [anames]. apply incl_appr, incl_appl, B.
    + destruct G as (G & _ & Ga). destruct (tree_leafy _ G) as [A B]. destruct (chain_leafy t _ Ga P Q) as [A2 B2]. split; [cbn [leafy]; rewrite P, Q; repeat split; auto; discriminate|].
      cbn [anames]. apply incl_appr. apply incl_app; [apply incl_appl, B|apply incl_appr, B2].
Qed.

Definition nms (E : env) : list (list bytes) := map (map fst) (e_scopes E).

Lemma pcode_names m d E e a b u : pcode m d E e a b u -> grouped e -> all_declared e (nms E).
Proof.
  intros (n & ws & O & Ec & _) G x I. destruct (tree_leafy _ G) as [L N]. destruct (expand_names _ d L) as (L2 & N2 & _). destruct (optimize_names _ _ O L2) as (L3 & N3 & _).
  exact (ecode_names _ _ _ _ _ Ec L3 x (N3 _ (N2 _ (N _ I)))).
Qed.

(** ** Statements *)

Lemma declared_open x G : declared x ([] :: G) -> declared x G.
Proof. intros (s & [<-|I] & J); [destruct J|exists s; auto]. Qed.
Lemma nms_declare n E : nms (declare n E) = add_name n (nms E).
Proof. unfold nms, declare. destruct (e_scopes E) as [|g [|h r]] eqn:Q; cbn [map add_name e_scopes]; rewrite ?Q; reflexivity. Qed.
Lemma nms_used E u : nms (used_at E u) = nms E. Proof. reflexivity. Qed.
Lemma nms_declare_used n E u : nms (declare n (used_at E u)) = add_name n (nms E).
Proof. rewrite nms_declare. reflexivity. Qed.
Lemma nms_enter E : nms (enter_scope E) = [] :: nms E. Proof. reflexivity. Qed.
Lemma nms_loop E : nms (enter_loop E) = [] :: [] :: nms E. Proof. reflexivity. Qed.
Lemma nms_after s E : nms (after s E) = names_after s (nms E).
Proof. destruct s; cbn [after names_after]; try reflexivity; apply nms_declare. Qed.
Lemma last_map {A B} (f : A -> B) l d : last (map f l) (f d) = f (last l d).
Proof. induction l as [|a [|b l] IH]; [reflexivity..|]. exact IH. Qed.
Lemma nms_outermost E : map fst (outermost E) = last (nms E) [].
Proof. unfold outermost, nms. symmetry. exact (last_map (map fst) (e_scopes E) []). Qed.

Scheme resolved_mi := Minimality for resolved Sort Prop with sresolved_mi := Minimality for sresolved Sort Prop
  with uses_mi := Minimality for uses Sort Prop with lit_resolved_mi := Minimality for lit_resolved Sort Prop.
Combined Scheme resolved_all from resolved_mi, sresolved_mi, uses_mi, lit_resolved_mi.

Definition within (G H : list (list bytes)) : Prop := Forall2 (fun a b => incl a b) G H.
Lemma resolved_mono :
  (forall G s, resolved G s -> forall H, within G H -> resolved H s) /\ (forall G l, sresolved G l -> forall H, within G H -> sresolved H l) /\
  (forall G e, uses G e -> forall H, within G H -> uses H e) /\ (forall G ts, lit_resolved G ts -> forall H, within G H -> lit_resolved H ts).
Proof.
  assert (forall x G H, within G H -> @declared x G -> declared x H) as D.
  { intros x G H F (s & I & J). induction F as [|a b G H Q F IH]; [destruct I|]. destruct I as [->|I]; [exists b; split; [left; reflexivity|exact (Q _ J)]|].
    destruct (IH I) as (t & A & B). exists t. split; [right; exact A|exact B]. }
  assert (forall G H, within G H -> within ([] :: G) ([] :: H)) as Fo by (intros; constructor; [apply incl_refl|assumption]).
  assert (forall n G H, within G H -> within (add_name n G) (add_name n H)) as Fa.
  { intros n G H F. inversion F; subst; cbn [add_name]; constructor; auto. apply incl_cons; [left; reflexivity|apply incl_tl; assumption]. }
  assert (forall G H, within G H -> incl (last G []) (last H [])) as Fl.
  { intros G H F. induction F as [|a b G H Q F IH]; [apply incl_refl|]. destruct F; [exact Q|exact IH]. }
  assert (forall s G H, within G H -> within (names_after s G) (names_after s H)) as Fn.
  { intros s G H F. destruct s; cbn [names_after]; auto. }
  assert (forall (a b c : list bytes), incl b c -> within [a; b] [a; c]) as F2 by (intros; constructor; [apply incl_refl|constructor; [assumption|constructor]]).
  apply resolved_all; intros; subst; try (econstructor; eauto 8; fail).
  constructor; [intros x I; eauto|eauto].
Qed.

Lemma param_names l : forall i s x, In x (map fst (param_scope i l s)) -> In x l \/ In x (map fst s).
Proof.
  induction l as [|n l IH]; intros i s x I; cbn [param_scope] in I; [auto|]. destruct (IH _ _ _ I) as [J|J]; [left; right; exact J|]. destruct J as [<-|J]; [left; left; reflexivity|auto].
Qed.

Lemma fun_within fd G : incl (map fst (fd_scope fd)) G -> within (nms (fun_env fd)) [fd_params fd ++ builtin_names; G].
Proof.
  intro I. unfold nms, fun_env, within. cbn [e_scopes map fst]. constructor; [|constructor; [exact I|constructor]].
  intros x Ix. apply in_or_app. unfold builtin_names. destruct Ix as [<-|[<-|Ix]]; [right; cbn; auto|right; cbn; auto|].
  destruct (param_names _ _ _ _ Ix) as [J|J]; [left; exact J|right]. destruct J as [<-|[]]. left. reflexivity.
Qed.

Section Names.
Variable m : Z -> option Z.
Variable ng : around.
Variable funs : Z -> option fundef.
Hypothesis Tb : forall id fd, funs id = Some fd -> exists first, fcode m ng fd first.

Lemma xcode_uses d E E0 e a b u : xcode m ng d E e a b u -> nms E = nms E0 ->
  (forall ts t, In (ts, t) (lits e) -> lit_resolved (nms E0) ts) -> uses (nms E) e.
Proof.
  intros ([G _] & a1 & _ & P) Q L. constructor; [exact (pcode_names _ _ _ _ _ _ _ P G)|]. rewrite Q. exact L.
Qed.
Lemma last_open (G : list (list bytes)) : last ([] :: G) [] = last G []. Proof. destruct G; reflexivity. Qed.
Lemma lit_open G ts : lit_resolved ([] :: G) ts <-> lit_resolved G ts.
Proof. split; intro H; inversion H; subst; constructor; auto; rewrite ?last_open in *; auto. Qed.
Lemma uses_open G e : uses ([] :: G) e -> uses G e.
Proof. intro H. inversion H; subst. constructor; [intros x I; apply declared_open, (H0 x I)|intros ts t I; apply lit_open; eauto]. Qed.

Lemma code_names :
  (forall E0 s, defined funs E0 s -> forall fa lp E a b E', scode m ng fa lp E s a b E' -> written s -> nms E = nms E0 ->
    resolved (nms E) s /\ nms E' = names_after s (nms E)) /\
  (forall E0 l, sdefined funs E0 l -> forall fa lp E a b E', sscode m ng fa lp E l a b E' -> swritten l -> nms E = nms E0 ->
    sresolved (nms E) l) /\
  (forall E0 ts t, literal funs E0 ts t -> lit_resolved (nms E0) ts).
Proof.
  apply defined_all.
  - intros E0 e semi _ L fa lp E a b E' H W Q. inversion H; subst. cbn [names_after]. split; [constructor; eapply xcode_uses; eauto|reflexivity].
  - intros E0 v n semi fa lp E a b E' H W Q. inversion H; subst. split; [constructor|apply nms_declare].
  - intros E0 v n q e semi _ L fa lp E a b E' H W Q. inversion H; subst. split; [constructor; eapply xcode_uses; eauto|apply nms_declare_used].
  - intros E0 r e semi _ L fa lp E a b E' H W Q. inversion H; subst. split; [constructor; eapply xcode_uses; eauto|reflexivity].
  - intros E0 o l c _ L fa lp E a b E' H W Q. inversion H; subst. destruct W as (_ & W & _). split; [constructor|reflexivity]. rewrite <- nms_enter.
    match goal with X : sscode _ _ _ _ _ _ _ _ _ |- _ => apply (L _ _ _ _ _ _ X W) end. rewrite !nms_enter, Q. reflexivity.
  - intros E0 i o e c s _ L _ S fa lp E a b E' H W Q. inversion H; subst. destruct W as (_ & _ & _ & _ & W). split; [|reflexivity].
    constructor; [eapply xcode_uses; eauto|]. match goal with X : scode _ _ _ _ (enter_scope ?E1) _ _ _ _ |- _ => destruct (S _ _ _ _ _ _ X W) as [R _]; auto end.
    rewrite !nms_enter, nms_used, Q. reflexivity.
  - intros E0 i o e c s el s2 _ L _ S1 _ S2 fa lp E a b E' H W Q. inversion H; subst. destruct W as (_ & _ & _ & _ & W1 & _ & W2 & _). split; [|reflexivity].
    assert (forall u, nms (enter_scope (used_at E u)) = nms (enter_scope E0)) as Qu by (intro; rewrite !nms_enter, nms_used, Q; reflexivity).
    constructor; [eapply xcode_uses; eauto| |].
    + match goal with X : scode _ _ _ _ (enter_scope ?E1) s _ _ _ |- _ => destruct (S1 _ _ _ _ _ _ X W1) as [R _]; auto end.
    + match goal with X : scode _ _ _ _ (enter_scope ?E1) s2 _ _ _ |- _ => destruct (S2 _ _ _ _ _ _ X W2) as [R _]; auto end.
  - intros E0 w o e c s _ L _ S fa lp E a b E' H W Q. inversion H; subst. destruct W as (_ & _ & _ & _ & W). split; [|reflexivity]. constructor.
    + apply uses_open, uses_open. rewrite <- nms_loop. eapply xcode_uses with (E0 := enter_loop E0); [eassumption|rewrite !nms_loop, Q; reflexivity|].
      intros ts t I. rewrite nms_loop. apply lit_open, lit_open. eauto.
    + match goal with X : scode _ _ _ _ (enter_scope ?E1) _ _ _ _ |- _ => destruct (S _ _ _ _ _ _ X W) as [R _]; auto end.
      rewrite !nms_enter, nms_used, !nms_loop, Q. reflexivity.
  - intros E0 d s w o e c semi _ S _ L fa lp E a b E' H W Q. inversion H; subst. destruct W as (_ & W & _). split; [|reflexivity]. constructor.
    + match goal with X : scode _ _ _ _ (enter_scope ?E1) _ _ _ _ |- _ => destruct (S _ _ _ _ _ _ X W) as [R _]; auto end.
      rewrite !nms_enter, !nms_loop, Q. reflexivity.
    + apply uses_open, uses_open. rewrite <- nms_loop. eapply xcode_uses with (E0 := enter_loop E0); [eassumption|rewrite !nms_loop, Q; reflexivity|].
      intros ts t I. rewrite nms_loop. apply lit_open, lit_open. eauto.
  - intros E0 f o s0 e semi i c s _ S0 _ L1 _ L2 _ S fa lp E a b E' H W Q. inversion H; subst. destruct W as (_ & _ & W0 & _ & _ & Wi & _ & Wb). split; [|reflexivity].
    match goal with X : scode _ _ _ _ (enter_loop ?E1) s0 _ _ ?E2 |- _ => destruct (S0 _ _ _ _ _ _ X W0) as [R0 Nx]; [rewrite !nms_loop, Q; reflexivity|]; rename E2 into Ex end.
    rewrite nms_loop in R0, Nx. assert (nms Ex = nms (after s0 (enter_loop E0))) as Qx by (rewrite nms_after, Nx, nms_loop, Q; reflexivity).
    econstructor; [exact R0|reflexivity|rewrite <- Nx..].
    + eapply xcode_uses; eauto.
    + constructor; [|rewrite Qx; eauto]. match goal with X : pcode _ _ _ _ _ _ _ |- _ => exact (pcode_names _ _ _ _ _ _ _ X (proj1 Wi)) end.
    + match goal with X : scode _ _ _ _ (enter_scope ?E1) s _ _ _ |- _ => destruct (S _ _ _ _ _ _ X Wb) as [R _]; auto end.
      rewrite !nms_enter, nms_used, Qx. reflexivity.
  - intros E0 b0 semi fa lp E a b E' H W Q. inversion H; subst. split; [constructor|reflexivity].
  - intros E0 id f n o p c s fd Fd Fi _ S fa lp E a b E' H W Q. inversion H; subst. destruct W as (_ & _ & _ & _ & _ & W). split; [|apply nms_declare]. constructor.
    destruct (Tb _ _ Fi) as (first & b2 & E1 & Sc & _). cbn [fd_params fd_body] in Sc. destruct (S _ _ _ _ _ _ Sc W eq_refl) as [R _].
    eapply (proj1 resolved_mono); [exact R|]. apply fun_within. cbn [fd_scope]. rewrite nms_outermost, nms_declare, Q. apply incl_refl.
  - constructor.
  - intros E0 s l _ S _ L fa lp E a b E' H [W1 W2] Q. inversion H; subst.
    match goal with X : scode _ _ _ _ _ s _ _ _ |- _ => destruct (S _ _ _ _ _ _ X W1 Q) as [R Nx] end. constructor; [exact R|]. rewrite <- Nx.
    match goal with X : sscode _ _ _ _ _ _ _ _ _ |- _ => apply (L _ _ _ _ _ _ X W2) end. rewrite Nx, nms_after, Q. reflexivity.
  - intros E0 f o p c s t fd Tf To Pw Tc Ws Fd Fi _ S. subst fd. constructor; [exact Tf|exact Ws|].
    destruct (Tb _ _ Fi) as (first & b2 & E1 & Sc & _). cbn [fd_params fd_body] in Sc. destruct (S _ _ _ _ _ _ Sc Ws eq_refl) as [R _].
    eapply (proj1 resolved_mono); [exact R|]. apply fun_within. cbn [fd_scope]. rewrite nms_outermost. apply incl_refl.
Qed.
End Names.
End WithLits.
