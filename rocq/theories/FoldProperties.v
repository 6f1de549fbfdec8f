(** * FoldProperties: constant folding preserves meaning (C36) *)
From Verif Require Import Base BaseFacts State TokenModel ExprModel CompModel KFacts TextProofs OpSpec OpProofs
  TokenProofs ParseSpec ParseProofs FoldSpec VmModel.
From Coq Require Import Lia.

(** ** Trees made by the parser are proper *)

Scheme expr_mut := Induction for expr Sort Prop with args_mut := Induction for args Sort Prop.

Lemma operand_not_binary t : literal t -> binary t -> False.
Proof. unfold literal, binary. intros [E | E] [F | [F | F]]; rewrite E in F; discriminate. Qed.

Ltac clash L := exfalso; first [discriminate L
  | match type of L with tk_type ?t = _ =>
      match goal with H : tk_type t = _ |- _ => rewrite L in H; discriminate H end end].
Ltac notlit := match goal with
  | |- literal ?t -> _ => let L := fresh in intros [L | L]; clash L
  | |- binary ?t -> _ => let L := fresh in intros [L | [L | L]]; clash L
  | |- ~ literal ?t => let L := fresh in intros [L | L]; clash L
  | |- ~ binary ?t => let L := fresh in intros [L | [L | L]]; clash L end.

Lemma rank_not_lit t n : rank (tk_type t) n -> ~ literal t.
Proof.
  intros (l & E & I) L. do 7 (destruct n as [ | n]; [injection E as <-; cbn [In] in I; destruct L as [L | L]; rewrite L in I;
    repeat (destruct I as [I | I]; [discriminate I | ]); exact I | cbn [nth_error tiers] in E]).
  destruct n; discriminate.
Qed.

Lemma tree_null e : tree e <> ANull.
Proof. induction e; cbn [tree]; try discriminate; try assumption. destruct (bare e && names_fse (tree e)); discriminate. Qed.

Theorem tree_proper : forall e, grouped e -> proper (tree e).
Proof.
  apply (expr_mut (fun e => grouped e -> proper (tree e))
    (fun a => args_grouped a -> forall t, ~ literal t -> ~ binary t -> proper (chain t a))); cbn [grouped args_grouped tree chain proper].
  - intros t _. repeat split; auto.
  - intros ts t [E _]. repeat split; auto.
  - intros o e IH c (_ & G & _). auto.
  - intros o e IH (P & G & _). split; [auto | ]. split; [exact I | ]. split.
    + intros [L | L]; rewrite L in P; cbn in P; repeat (destruct P as [P | P]; [discriminate P | ]); contradiction.
    + intros [L | [L | L]]; rewrite L in P; cbn in P; repeat (destruct P as [P | P]; [discriminate P | ]); contradiction.
  - intros e IH o (G & _ & _). split; [auto | ]. split; [exact I | ].
    destruct (tk_type o =? TK_INCREMENT); split; notlit.
  - intros e IH o i IHi c (G & _ & O & Gi & _). split; [auto | ]. split; [auto | ]. split; notlit.
  - intros e IH d n (G & _ & _ & _). split; [auto | ]. split; [ | split; notlit].
    split; [exact I | ]. split; [exact I | ]. split; auto; notlit.
  - intros e IH o a IHa c (G & _ & O & Ga & _).
    assert (C : proper (chain o a)) by (apply IHa; [exact Ga | notlit | notlit]).
    destruct (bare e && names_fse (tree e)); cbn [proper].
    + split; [exact I | ]. split; [exact C | ]. split; notlit.
    + split; [auto | ]. split; [exact C | ]. split; notlit.
  - intros e IH d n o a IHa c (G & _ & _ & _ & O & Ga & _).
    assert (C : proper (chain (invented TK_CALL_SELF (bs "(") (tk_line o)) a)) by (apply IHa; [exact Ga | notlit | notlit]).
    split; [ | split; [exact C | split; notlit]].
    split; [auto | ]. split; [ | split; notlit]. split; [exact I | ]. split; [exact I | ]. split; auto; notlit.
  - intros a IHa o b IHb (Ga & Gb & n & R & _). split; [auto | ]. split; [auto | ]. split.
    + intros L. contradiction (rank_not_lit _ _ R L).
    + intros _. split; intros E; exfalso; exact (tree_null _ E).
  - intros _ t _ _. exact I.
  - intros e IH G t L B. split; [auto | ]. split; [exact I | ]. split; intros X; [contradiction (L X) | contradiction (B X)].
  - intros e IH c r IHr (G & _ & Gr) t L B. split; [auto | ]. split; [auto | ]. split; intros X; [contradiction (L X) | contradiction (B X)].
Qed.

Lemma expand_proper n : forall d k n' k', proper n -> expand n d k = Ok (n', k') -> proper n' /\ (n' = ANull <-> n = ANull).
Proof.
  induction n as [ | t r a IHa b IHb]; intros d k n' k' P E; cbn [expand] in E.
  - injection E as <- _. tauto.
  - destruct P as (Pa & Pb & P1 & P2). destruct (kbind_inv _ _ _ _ _ E) as (ok & k1 & E1 & E2). clear E.
    destruct ok; cbn [negb] in E2; [ | injection E2 as <- _; split; [cbn; tauto | tauto]].
    destruct (kbind_inv _ _ _ _ _ E2) as (x & k2 & E3 & E4). clear E2.
    destruct (kbind_inv _ _ _ _ _ E4) as (u & k3 & _ & E6). injection E6 as <- _. clear E4 E1.
    destruct (is_incdec (tk_type t)) eqn:Q.
    + destruct (is_null a || negb (is_null b)) eqn:N; [discriminate | ]. injection E3 as <- _.
      apply Bool.orb_false_iff in N. destruct N as [N _].
      assert (A : a <> ANull) by (intros ->; discriminate).
      unfold expand_node. cbv zeta. set (inc := (tk_type t =? TK_INCREMENT) || (tk_type t =? TK_POSTINC)).
      destruct ((((tk_type t =? TK_POSTINC) || (tk_type t =? TK_POSTDEC)) && negb d)%bool);
        (split; [ | split; discriminate]); destruct inc; cbn [proper];
        repeat (match goal with |- _ /\ _ => split end);
        try assumption; try exact I; try notlit; try (intros; tauto); try (intros _; split; intros X; [contradiction (A X) | discriminate X]);
        try (intros _; split; discriminate).
    + destruct (kbind_inv _ _ _ _ _ E3) as (x0 & k4 & E4 & E5). clear E3.
      destruct (kbind_inv _ _ _ _ _ E5) as (x1 & k5 & E6 & E7). injection E7 as <- _.
      destruct (IHa _ _ _ _ Pa E4) as [A1 A2]. destruct (IHb _ _ _ _ Pb E6) as [B1 B2].
      split; [ | split; discriminate]. cbn [proper]. repeat split; auto; intros; tauto.
Qed.

(** ** Folding *)

Lemma quot_quotient x y : y <> 0 -> quotient x y (Z.quot x y).
Proof. intros N. exists (Z.rem x y). exact (quot_truncating x y N). Qed.

Lemma quotient_fun x y q q' : quotient x y q -> quotient x y q' -> q = q'.
Proof.
  intros (r & E & B & P & N) (r' & E' & B' & P' & N').
  assert (D : y * (q - q') = r' - r) by lia.
  assert (Z.abs (r' - r) < Z.abs y) by lia.
  assert (A : Z.abs y * Z.abs (q - q') < Z.abs y) by (rewrite <- Z.abs_mul, D; assumption).
  assert (Z.abs (q - q') = 0 \/ 1 <= Z.abs (q - q')) as [C | C] by lia; [lia | ].
  assert (Z.abs y * 1 <= Z.abs y * Z.abs (q - q')) by (apply Z.mul_le_mono_nonneg_l; lia). lia.
Qed.

Definition is_int (n : ast) (x : Z) : Prop :=
  exists t root, n = ANode t root ANull ANull /\ tk_type t = TK_INTEGER /\ x = c_atol (tk_str t).

Lemma is_int_s32 n x : is_int n x -> is_s32 x.
Proof. intros (t & r & _ & _ & ->). apply atol_s32. Qed.

Lemma made_int z line : is_s32 z -> is_int (ANode (made TK_INTEGER (i_to_str z) line) false ANull ANull) z.
Proof. intros S. eexists _, _. split; [reflexivity | ]. split; [reflexivity | ]. cbn [made tk_str]. symmetry. apply atol_i_to_str. exact S. Qed.

(** What one folding step does: [x] and [y] are the integers of the operands,
    [y] absent for a negation. *)
Inductive folds : Z -> Z -> option Z -> Z -> Prop :=
| fo_add x y : is_s32 (x + y) -> folds TK_PLUS x (Some y) (x + y)
| fo_sub x y : is_s32 (x - y) -> folds TK_MINUS x (Some y) (x - y)
| fo_neg x : is_s32 (- x) -> folds TK_MINUS x None (- x)
| fo_mul x y : is_s32 (x * y) -> folds TK_MULTIPLY x (Some y) (x * y)
| fo_div x y q : y <> 0 -> quotient x y q -> is_s32 q -> folds TK_DIVIDE x (Some y) q.

Lemma signed_inv z r : signed z = r -> (is_s32 z /\ r = Ok z) \/ (~ is_s32 z /\ r = Ub UbSignedOverflow).
Proof.
  unfold signed. destruct (in_s32 z) eqn:E; intros <-; [left | right]; split; auto.
  - apply in_s32_spec. exact E.
  - intros H. apply in_s32_spec in H. congruence.
Qed.

Ltac sgn E := match type of E with context [signed ?z] =>
  let S := fresh "S" in let Q := fresh "Q" in
  destruct (signed_inv z _ eq_refl) as [[S Q] | [S Q]]; rewrite Q in E end.

Lemma foldable_iff ty : foldable ty = true <-> ty = TK_PLUS \/ ty = TK_MINUS \/ ty = TK_MULTIPLY \/ ty = TK_DIVIDE.
Proof. unfold foldable. rewrite !Bool.orb_true_iff, !Z.eqb_eq. tauto. Qed.

Lemma fold_int_some ty x y neg v : foldable ty = true -> (neg = true -> ty = TK_MINUS) -> is_s32 x -> is_s32 y ->
  fold_int ty x y neg = Ok (Some v) -> folds ty x (if neg then None else Some y) v /\ is_s32 v.
Proof.
  intros F N X Y E. apply foldable_iff in F. destruct F as [-> | [-> | [-> | ->]]]; unfold fold_int in E;
    cbn [Z.eqb Pos.eqb TK_PLUS TK_MINUS TK_MULTIPLY TK_DIVIDE] in E.
  - destruct neg; [specialize (N eq_refl); discriminate | ].
    sgn E; [ | discriminate]. injection E as <-. split; [constructor | ]; assumption.
  - destruct neg; sgn E; try discriminate; injection E as <-; (split; [constructor | ]; assumption).
  - destruct neg; [specialize (N eq_refl); discriminate | ].
    sgn E; [ | discriminate]. injection E as <-. split; [constructor | ]; assumption.
  - destruct neg; [specialize (N eq_refl); discriminate | ].
    destruct (Z.eqb_spec y 0) as [Q | Q]; [discriminate | ]. cbn [orb] in E.
    assert (S : is_s32 (Z.quot x y)).
    { apply quot_s32; auto. intros [A ->]. subst x. discriminate. }
    destruct ((y =? -1) && (x =? -2147483647 - 1)); [discriminate | ]. injection E as <-.
    split; [ | exact S]. constructor; auto. apply quot_quotient. exact Q.
Qed.

Lemma fold_int_ub ty x y neg u : foldable ty = true -> (neg = true -> ty = TK_MINUS) ->
  fold_int ty x y neg = Ub u -> u = UbSignedOverflow /\
  ((ty = TK_PLUS /\ neg = false /\ ~ is_s32 (x + y)) \/ (ty = TK_MINUS /\ neg = false /\ ~ is_s32 (x - y)) \/
   (ty = TK_MINUS /\ neg = true /\ ~ is_s32 (- x)) \/ (ty = TK_MULTIPLY /\ neg = false /\ ~ is_s32 (x * y))).
Proof.
  intros F N E. apply foldable_iff in F. destruct F as [-> | [-> | [-> | ->]]]; unfold fold_int in E;
    cbn [Z.eqb Pos.eqb TK_PLUS TK_MINUS TK_MULTIPLY TK_DIVIDE] in E.
  - destruct neg; [specialize (N eq_refl); discriminate | ]. sgn E; [discriminate | ]. injection E as <-. tauto.
  - destruct neg; sgn E; try discriminate; injection E as <-; tauto.
  - destruct neg; [specialize (N eq_refl); discriminate | ]. sgn E; [discriminate | ]. injection E as <-. tauto.
  - destruct ((y =? 0) || _); discriminate.
Qed.

Lemma bind_ok {A B} (m : res A) (f : A -> res B) b : bind m f = Ok b -> exists a, m = Ok a /\ f a = Ok b.
Proof. destruct m as [a | u]; [ | discriminate]. intros E. exists a. auto. Qed.

(** A node whose operands have been folded: either it stays, or both operands
    are integers and it becomes their result, or it is undefined. *)
Lemma opt_step t root c0 c1 d0 d1 :
  proper (ANode t root d0 d1) -> no_float (ANode t root d0 d1) ->
  optimize c0 = Ok d0 -> optimize c1 = Ok d1 ->
  optimize (ANode t root c0 c1) = Ok (ANode t root d0 d1) \/
  (exists x y v n', is_int d0 x /\ match y with None => d1 = ANull | Some y => is_int d1 y end /\
     folds (tk_type t) x y v /\ is_int n' v /\ no_float n' /\ optimize (ANode t root c0 c1) = Ok n') \/
  (optimize (ANode t root c0 c1) = Ub UbSignedOverflow /\
   exists x y, is_int d0 x /\
     ((tk_type t = TK_PLUS /\ is_int d1 y /\ ~ is_s32 (x + y)) \/ (tk_type t = TK_MINUS /\ is_int d1 y /\ ~ is_s32 (x - y)) \/
      (tk_type t = TK_MINUS /\ d1 = ANull /\ ~ is_s32 (- x)) \/ (tk_type t = TK_MULTIPLY /\ is_int d1 y /\ ~ is_s32 (x * y)))).
Proof.
  intros (P0 & P1 & Pl & Pb) (F & F0 & F1) E0 E1. cbn [optimize]. rewrite E0, E1. cbn [bind]. cbv zeta.
  destruct (foldable (tk_type t)) eqn:Fo; [ | left; reflexivity]. cbn [negb].
  destruct (immediate d0) eqn:I0; [ | left; reflexivity]. cbn [negb orb].
  destruct (is_null d1 || immediate d1) eqn:I1; [ | left; reflexivity]. cbn [negb].
  destruct d0 as [ | t0 r0 a0 b0]; [discriminate | ].
  destruct F0 as (Ft0 & _). destruct P0 as (_ & _ & Pl0 & _).
  assert (T0 : tk_type t0 = TK_INTEGER).
  { cbn [immediate] in I0. apply Bool.orb_true_iff in I0. rewrite !Z.eqb_eq in I0. tauto. }
  destruct (Pl0 (or_introl T0)) as [-> ->]. rewrite T0. change (TK_INTEGER =? TK_INTEGER) with true. cbv iota.
  assert (J0 : is_int (ANode t0 r0 ANull ANull) (c_atol (tk_str t0))) by (eexists _, _; split; [reflexivity | ]; auto).
  set (x := c_atol (tk_str t0)) in *. set (y := if is_null d1 then 0 else c_atol (text_of d1)).
  assert (N : is_null d1 = true -> tk_type t = TK_MINUS /\ d1 = ANull).
  { destruct d1; [intros _ | discriminate]. split; [ | reflexivity]. apply foldable_iff in Fo.
    destruct Fo as [Q | [Q | [Q | Q]]]; [ | exact Q | | ]; exfalso;
      (destruct Pb as [_ Pb]; [unfold binary; tauto | ]; discriminate (Pb eq_refl)). }
  assert (J1 : is_null d1 = false -> is_int d1 y).
  { destruct d1 as [ | t1 r1 a1 b1]; [discriminate | intros _]. destruct F1 as (Ft1 & _). destruct P1 as (_ & _ & Pl1 & _).
    assert (T1 : tk_type t1 = TK_INTEGER).
    { cbn [immediate is_null orb] in I1. apply Bool.orb_true_iff in I1. rewrite !Z.eqb_eq in I1. tauto. }
    destruct (Pl1 (or_introl T1)) as [-> ->]. eexists _, _. split; [reflexivity | ]. auto. }
  assert (Y : is_s32 y).
  { unfold y. destruct (is_null d1); [unfold is_s32, W31; lia | apply atol_s32]. }
  destruct (fold_int (tk_type t) x y (is_null d1)) as [[v | ] | u] eqn:Q.
  - right; left. cbn [bind].
    destruct (fold_int_some _ _ _ _ _ Fo (fun H => proj1 (N H)) (is_int_s32 _ _ J0) Y Q) as [A B].
    exists x, (if is_null d1 then None else Some y), v, (ANode (made TK_INTEGER (i_to_str v) (tk_line t0)) false ANull ANull).
    split; [exact J0 | ]. split; [destruct (is_null d1); [apply N; reflexivity | apply J1; reflexivity] | ].
    split; [exact A | ]. split; [apply made_int; exact B | ]. split; [ | reflexivity].
    split; [discriminate | ]. split; exact I.
  - left. reflexivity.
  - right; right. destruct (fold_int_ub _ _ _ _ _ Fo (fun H => proj1 (N H)) Q) as [-> W]. split; [reflexivity | ].
    exists x, y. split; [exact J0 | ]. destruct (is_null d1) eqn:Z.
    + right; right; left. split; [apply N; reflexivity | ]. split; [apply N; reflexivity | ].
      destruct W as [W | [W | [W | W]]]; destruct W as (_ & W1 & W2); try discriminate W1. exact W2.
    + specialize (J1 eq_refl). destruct W as [W | [W | [W | W]]]; destruct W as (W0 & W1 & W2); try discriminate W1; tauto.
Qed.

Lemma opt_null n : optimize n = Ok ANull -> n = ANull.
Proof.
  destruct n as [ | t r a b]; [reflexivity | ]. cbn [optimize]. intros E. exfalso.
  destruct (optimize a) as [d0 | ]; [ | discriminate]. destruct (optimize b) as [d1 | ]; [ | discriminate]. cbn [bind] in E. cbv zeta in E.
  destruct (negb _); [discriminate | ]. destruct (_ || _); [discriminate | ]. destruct d0 as [ | t0 ? ? ?]; [discriminate | ].
  destruct (tk_type t0 =? TK_INTEGER).
  - destruct (fold_int _ _ _ _) as [[v | ] | ]; discriminate.
  - destruct (fold_float _ _ _ _) as [[v | ] | ]; discriminate.
Qed.

Lemma int_proper n x : is_int n x -> proper n.
Proof. intros (t & r & -> & T & _). cbn [proper]. repeat split; auto. Qed.

(** Folding keeps trees proper and adds no floats. *)
Lemma opt_shape n : forall n', proper n -> no_float n -> optimize n = Ok n' -> proper n' /\ no_float n' /\ (n' = ANull <-> n = ANull).
Proof.
  induction n as [ | t r a IHa b IHb]; intros n' P F E.
  - injection E as <-. cbn. tauto.
  - destruct P as (Pa & Pb & P1 & P2). destruct F as (Ft & Fa & Fb).
    pose proof E as E'. cbn [optimize] in E'. destruct (bind_ok _ _ _ E') as (d0 & E0 & E1). destruct (bind_ok _ _ _ E1) as (d1 & E2 & _). clear E' E1.
    destruct (IHa _ Pa Fa E0) as (A1 & A2 & A3). destruct (IHb _ Pb Fb E2) as (B1 & B2 & B3).
    assert (PP : proper (ANode t r d0 d1)).
    { cbn [proper]. split; [exact A1 | ]. split; [exact B1 | ]. split; intros X; [specialize (P1 X) | specialize (P2 X)]; tauto. }
    assert (FF : no_float (ANode t r d0 d1)) by (cbn; tauto).
    destruct (opt_step t r a b d0 d1 PP FF E0 E2) as [Q | [(x & y & v & n1 & _ & _ & _ & J & W & Q) | [Q _]]]; rewrite Q in E.
    + injection E as <-. split; [exact PP | ]. split; [exact FF | ]. split; discriminate.
    + injection E as <-. split; [exact (int_proper _ _ J) | ]. split; [exact W | ].
      destruct J as (t1 & r1 & -> & _). split; discriminate.
    + discriminate.
Qed.

(** ** The theorems *)

(** Under every way of giving meanings to trees in which integers behave as
    they do at run time, the folded tree means what the original means. *)
Theorem C36_integers_partial (D : Type) (nothing : D) (node : token -> bool -> D -> D -> D) (int : Z -> D) :
  integers nothing node int ->
  forall n n', proper n -> no_float n -> optimize n = Ok n' -> meaning nothing node n' = meaning nothing node n.
Proof.
  intros H. induction n as [ | t r a IHa b IHb]; intros n' P F E.
  - injection E as <-. reflexivity.
  - destruct P as (Pa & Pb & P1 & P2). destruct F as (Ft & Fa & Fb).
    pose proof E as E'. cbn [optimize] in E'. destruct (bind_ok _ _ _ E') as (d0 & E0 & E1). destruct (bind_ok _ _ _ E1) as (d1 & E2 & _). clear E' E1.
    destruct (opt_shape _ _ Pa Fa E0) as (A1 & A2 & A3). destruct (opt_shape _ _ Pb Fb E2) as (B1 & B2 & B3).
    specialize (IHa _ Pa Fa E0). specialize (IHb _ Pb Fb E2).
    assert (PP : proper (ANode t r d0 d1)).
    { cbn [proper]. split; [exact A1 | ]. split; [exact B1 | ]. split; intros X; [specialize (P1 X) | specialize (P2 X)]; tauto. }
    assert (FF : no_float (ANode t r d0 d1)) by (cbn; tauto).
    assert (M : forall n x, is_int n x -> meaning nothing node n = int x).
    { intros m x (t0 & r0 & -> & T & ->). cbn [meaning]. apply (m_lit _ _ _ H). exact T. }
    destruct (opt_step t r a b d0 d1 PP FF E0 E2) as [Q | [(x & y & v & n1 & X & Y & G & J & _ & Q) | [Q _]]]; rewrite Q in E.
    + injection E as <-. cbn [meaning]. rewrite IHa, IHb. reflexivity.
    + injection E as <-. cbn [meaning]. rewrite <- IHa, <- IHb, (M _ _ X), (M _ _ J).
      pose proof (is_int_s32 _ _ X) as SX. symmetry.
      destruct y as [y | ].
      * rewrite (M _ _ Y). pose proof (is_int_s32 _ _ Y) as SY. inversion G; subst;
          [eapply (m_add _ _ _ H) | eapply (m_sub _ _ _ H) | eapply (m_mul _ _ _ H) | eapply (m_div _ _ _ H)]; eauto.
      * subst d1. cbn [meaning]. inversion G; subst. eapply (m_neg _ _ _ H); eauto.
    + discriminate.
Qed.
Print Assumptions C36_integers_partial.

(** A tree of integer literals and + - * / is replaced by the literal of its
    value. *)
Theorem C36_value n z : number n z -> exists t root, optimize n = Ok (ANode t root ANull ANull) /\
  tk_type t = TK_INTEGER /\ c_atol (tk_str t) = z.
Proof.
  intros H. assert (G : proper n /\ no_float n /\ exists n', optimize n = Ok n' /\ is_int n' z).
  2:{ destruct G as (_ & _ & n' & E & (t & r & -> & T & ->)). exists t, r. auto. }
  assert (N0 : forall m x, number m x -> m <> ANull) by (intros m x []; discriminate).
  assert (K : forall t r a b d0 d1 x y v, optimize a = Ok d0 -> optimize b = Ok d1 -> is_int d0 x -> 
    (match y with None => d1 = ANull | Some y => is_int d1 y end) -> folds (tk_type t) x y v -> proper (ANode t r d0 d1) -> no_float (ANode t r d0 d1) ->
    exists n', optimize (ANode t r a b) = Ok n' /\ is_int n' v).
  { intros t r a b d0 d1 x y v E0 E1 X Y G P F.
    assert (Lx : forall m p q, is_int m p -> is_int m q -> p = q).
    { intros m p q (t1 & r1 & Q1 & _ & ->) (t2 & r2 & Q2 & _ & ->). rewrite Q1 in Q2. injection Q2 as <- <-. reflexivity. }
    assert (Ln : forall p, ~ is_int ANull p) by (intros p (? & ? & Q & _); discriminate Q).
    destruct (opt_step t r a b d0 d1 P F E0 E1) as [Q | [(x' & y' & v' & n1 & X' & Y' & G' & J & _ & Q) | [Q (x' & y' & X' & W)]]].
    - exfalso. cbn [optimize] in Q. rewrite E0, E1 in Q. cbn [bind] in Q. cbv zeta in Q.
      assert (Fo : foldable (tk_type t) = true) by (apply foldable_iff; inversion G; tauto). rewrite Fo in Q. cbn [negb] in Q.
      destruct X as (t0 & r0 & -> & T0 & Ex). cbn [immediate] in Q. rewrite T0 in Q. change (TK_INTEGER =? TK_INTEGER) with true in Q. cbn [orb negb] in Q.
      assert (I1 : (is_null d1 || immediate d1)%bool = true).
      { destruct y; [ | subst d1; reflexivity]. destruct Y as (t1 & r1 & -> & T1 & _). cbn. rewrite T1. reflexivity. }
      rewrite I1 in Q. cbn [negb] in Q.
      destruct (bind_ok _ _ _ Q) as (o & Q1 & Q2). destruct o as [z0 | ]; [injection Q2 as Q3 _ _; rewrite <- Q3 in Fo; discriminate | ].
      assert (TT : tk_type t = TK_DIVIDE).
      { apply foldable_iff in Fo. destruct Fo as [T | [T | [T | T]]]; [ | | | exact T]; exfalso; rewrite T in Q1; unfold fold_int in Q1;
          cbn [Z.eqb Pos.eqb TK_PLUS TK_MINUS TK_MULTIPLY TK_DIVIDE] in Q1; try destruct (is_null d1); sgn Q1; discriminate. }
      rewrite TT in G. inversion G as [ | | | | x1 y1 q N1 N2 N3 N4 N5 N6]; subst. destruct Y as (t1 & r1 & -> & T1 & ->). cbn [is_null text_of] in Q1.
      rewrite TT in Q1. unfold fold_int in Q1. cbn [Z.eqb Pos.eqb TK_PLUS TK_MINUS TK_MULTIPLY TK_DIVIDE] in Q1.
      destruct (Z.eqb_spec (c_atol (tk_str t1)) 0) as [ | _]; [contradiction | ]. cbn [orb] in Q1.
      destruct (Z.eqb_spec (c_atol (tk_str t1)) (-1)) as [Z1 | ]; [ | discriminate Q1].
      destruct (Z.eqb_spec (c_atol (tk_str t0)) (-2147483647 - 1)) as [Z2 | ]; [ | discriminate Q1].
      rewrite Z1, Z2 in N2. destruct N2 as (rr & V1 & V2 & _). unfold is_s32, W31 in N3. lia.
    - exists n1. split; [exact Q | ]. assert (x' = x) by (eapply Lx; eassumption). subst x'.
      assert (y' = y).
      { destruct y as [y | ], y' as [y' | ]; subst; auto.
        - f_equal. eapply Lx; eassumption.
        - contradiction (Ln _ Y).
        - contradiction (Ln _ Y'). }
      subst y'. assert (v' = v); [ | subst; exact J].
      revert G'. inversion G as [x1 y1 I1 T1 | x1 y1 I1 T1 | x1 I1 T1 | x1 y1 I1 T1 | x1 y1 q I1 I2 I3 T1]; subst; rewrite <- ?T1;
        intros G'; inversion G'; subst; try reflexivity. eapply quotient_fun; eassumption.
    - exfalso. assert (x' = x) by (eapply Lx; eassumption). subst x'.
      destruct W as [(T & Y' & W) | [(T & Y' & W) | [(T & Y' & W) | (T & Y' & W)]]]; rewrite T in G; inversion G; subst;
        try contradiction; try (contradiction (Ln _ Y')); try (contradiction (Ln _ Y));
        cbv beta iota in Y; try match goal with A : is_int d1 ?q |- _ => assert (EE : y' = q) by exact (Lx _ _ _ Y' A); rewrite EE in W; contradiction end.
      rewrite Y in Y'. exact (Ln _ Y'). }
  assert (two : forall t r a b x y v a' b',
    tk_type t = TK_PLUS \/ tk_type t = TK_MINUS \/ tk_type t = TK_MULTIPLY \/ tk_type t = TK_DIVIDE ->
    number a x -> number b y -> proper a -> no_float a -> optimize a = Ok a' -> is_int a' x ->
    proper b -> no_float b -> optimize b = Ok b' -> is_int b' y -> folds (tk_type t) x (Some y) v ->
    proper (ANode t r a b) /\ no_float (ANode t r a b) /\ exists n', optimize (ANode t r a b) = Ok n' /\ is_int n' v).
  { intros t r a b x y v a' b' T Na Nb A1 A2 A3 A4 B1 B2 B3 B4 G.
    assert (L : ~ literal t) by (intros [L | L]; rewrite L in T; destruct T as [T | [T | [T | T]]]; discriminate T).
    assert (F : tk_type t <> TK_FLOAT) by (intros Q; apply L; right; exact Q).
    destruct (opt_shape _ _ A1 A2 A3) as (X1 & X2 & X3). destruct (opt_shape _ _ B1 B2 B3) as (Y1 & Y2 & Y3).
    pose proof (N0 _ _ Na). pose proof (N0 _ _ Nb).
    split; [ | split].
    - cbn [proper]. split; [exact A1 | ]. split; [exact B1 | ]. split; [intros Q; contradiction | tauto].
    - cbn. tauto.
    - apply (K t r a b a' b' x (Some y) v A3 B3 A4 B4 G).
      + cbn [proper]. split; [exact X1 | ]. split; [exact Y1 | ]. split; [intros Q; contradiction | tauto].
      + cbn. tauto. }
  induction H.
  - split; [ | split].
    + cbn [proper]. repeat split; auto.
    + cbn. rewrite H. repeat split; auto. discriminate.
    + exists (ANode t root ANull ANull). split; [ | eexists _, _; eauto].
      cbn [optimize bind]. cbv zeta. rewrite H. reflexivity.
  - destruct IHnumber1 as (A1 & A2 & a' & A3 & A4). destruct IHnumber2 as (B1 & B2 & b' & B3 & B4).
    apply (two _ _ _ _ _ _ _ _ _ (or_introl H) H0 H1 A1 A2 A3 A4 B1 B2 B3 B4). rewrite H. constructor. assumption.
  - destruct IHnumber1 as (A1 & A2 & a' & A3 & A4). destruct IHnumber2 as (B1 & B2 & b' & B3 & B4).
    apply (two _ _ _ _ _ _ _ _ _ (or_intror (or_introl H)) H0 H1 A1 A2 A3 A4 B1 B2 B3 B4). rewrite H. constructor. assumption.
  - destruct IHnumber as (A1 & A2 & a' & A3 & A4).
    split; [ | split].
    + cbn [proper]. split; [exact A1 | ]. split; [exact I | ]. split; notlit.
    + cbn. rewrite H. repeat split; auto. discriminate.
    + destruct (opt_shape _ _ A1 A2 A3) as (X1 & X2 & _).
      apply (K t root a ANull a' ANull x None (- x) A3 eq_refl A4 eq_refl); [rewrite H; constructor; assumption | | ].
      * cbn [proper]. split; [exact X1 | ]. split; [exact I | ]. split; notlit.
      * cbn. rewrite H. repeat split; auto. discriminate.
  - destruct IHnumber1 as (A1 & A2 & a' & A3 & A4). destruct IHnumber2 as (B1 & B2 & b' & B3 & B4).
    apply (two _ _ _ _ _ _ _ _ _ (or_intror (or_intror (or_introl H))) H0 H1 A1 A2 A3 A4 B1 B2 B3 B4). rewrite H. constructor. assumption.
  - destruct IHnumber1 as (A1 & A2 & a' & A3 & A4). destruct IHnumber2 as (B1 & B2 & b' & B3 & B4).
    apply (two _ _ _ _ _ _ _ _ _ (or_intror (or_intror (or_intror H))) H0 H1 A1 A2 A3 A4 B1 B2 B3 B4). rewrite H. constructor; assumption.
Qed.
Print Assumptions C36_value.

Lemma opt_number n : forall n' x, proper n -> no_float n -> optimize n = Ok n' -> is_int n' x -> number n x.
Proof.
  induction n as [ | t r a IHa b IHb]; intros n' x P F E J.
  - injection E as <-. destruct J as (? & ? & Q & _). discriminate Q.
  - destruct P as (Pa & Pb & P1 & P2). destruct F as (Ft & Fa & Fb).
    pose proof E as E'. cbn [optimize] in E'. destruct (bind_ok _ _ _ E') as (d0 & E0 & E1). destruct (bind_ok _ _ _ E1) as (d1 & E2 & _). clear E' E1.
    destruct (opt_shape _ _ Pa Fa E0) as (A1 & A2 & A3). destruct (opt_shape _ _ Pb Fb E2) as (B1 & B2 & B3).
    assert (PP : proper (ANode t r d0 d1)).
    { cbn [proper]. split; [exact A1 | ]. split; [exact B1 | ]. split; intros X; [specialize (P1 X) | specialize (P2 X)]; tauto. }
    assert (FF : no_float (ANode t r d0 d1)) by (cbn; tauto).
    destruct (opt_step t r a b d0 d1 PP FF E0 E2) as [Q | [(x1 & y & v & n1 & X & Y & G & J1 & _ & Q) | [Q _]]]; rewrite Q in E.
    + injection E as <-. destruct J as (t0 & r0 & E & T & ->). injection E as <- <- -> ->.
      rewrite (proj1 A3 eq_refl), (proj1 B3 eq_refl). constructor. exact T.
    + injection E as <-. assert (v = x).
      { destruct J as (t1 & r1 & -> & _ & ->). destruct J1 as (t2 & r2 & E & _ & ->). injection E as <- <-. reflexivity. }
      subst v. clear J J1. pose proof (IHa _ _ Pa Fa E0 X) as Na. destruct y as [y | ].
      * pose proof (IHb _ _ Pb Fb E2 Y) as Nb. inversion G; subst;
        [eapply nu_add | eapply nu_sub | eapply nu_mul | eapply nu_div]; eauto.
      * rewrite (proj1 B3 Y). inversion G; subst. eapply nu_neg; eauto.
    + discriminate.
Qed.

(** Folding is undefined only where an operator on two constants overflows,
    and then executing that operator is undefined as well. *)
Theorem C36_undefined n u : proper n -> no_float n -> optimize n = Ub u -> u = UbSignedOverflow /\ overflows n.
Proof.
  induction n as [ | t r a IHa b IHb]; intros P F E; [discriminate | ].
  destruct P as (Pa & Pb & P1 & P2). destruct F as (Ft & Fa & Fb).
  destruct (optimize a) as [d0 | u0] eqn:E0.
  2:{ cbn [optimize] in E. rewrite E0 in E. injection E as <-. destruct (IHa Pa Fa eq_refl) as [U O]. split; [exact U | apply ov_left; exact O]. }
  destruct (optimize b) as [d1 | u0] eqn:E2.
  2:{ cbn [optimize] in E. rewrite E0, E2 in E. injection E as <-. destruct (IHb Pb Fb eq_refl) as [U O]. split; [exact U | apply ov_right; exact O]. }
  destruct (opt_shape _ _ Pa Fa E0) as (A1 & A2 & A3). destruct (opt_shape _ _ Pb Fb E2) as (B1 & B2 & B3).
  assert (PP : proper (ANode t r d0 d1)).
  { cbn [proper]. split; [exact A1 | ]. split; [exact B1 | ]. split; intros X; [specialize (P1 X) | specialize (P2 X)]; tauto. }
  assert (FF : no_float (ANode t r d0 d1)) by (cbn; tauto).
  destruct (opt_step t r a b d0 d1 PP FF E0 E2) as [Q | [(x1 & y & v & n1 & X & Y & G & J1 & _ & Q) | [Q (x & y & X & W)]]]; rewrite Q in E; try discriminate.
  injection E as <-. split; [reflexivity | ]. pose proof (opt_number _ _ _ Pa Fa E0 X) as Na.
  destruct W as [(T & Y & W) | [(T & Y & W) | [(T & Y & W) | (T & Y & W)]]].
  - eapply ov_add; eauto. eapply opt_number; eauto.
  - eapply ov_sub; eauto. eapply opt_number; eauto.
  - rewrite (proj1 B3 Y). eapply ov_neg; eauto.
  - eapply ov_mul; eauto. eapply opt_number; eauto.
Qed.
Print Assumptions C36_undefined.

Lemma expand_no_float n : forall d k n' k', no_float n -> expand n d k = Ok (n', k') -> no_float n'.
Proof.
  induction n as [ | t r a IHa b IHb]; intros d k n' k' P E; cbn [expand] in E.
  - injection E as <- _. exact I.
  - destruct P as (Pt & Pa & Pb). destruct (kbind_inv _ _ _ _ _ E) as (ok & k1 & E1 & E2). clear E.
    destruct ok; cbn [negb] in E2; [ | injection E2 as <- _; cbn; tauto].
    destruct (kbind_inv _ _ _ _ _ E2) as (x & k2 & E3 & E4). clear E2.
    destruct (kbind_inv _ _ _ _ _ E4) as (u & k3 & _ & E6). injection E6 as <- _. clear E4 E1.
    destruct (is_incdec (tk_type t)) eqn:Q.
    + destruct (is_null a || negb (is_null b)) eqn:N; [discriminate | ]. injection E3 as <- _.
      unfold expand_node. cbv zeta. set (inc := (tk_type t =? TK_INCREMENT) || (tk_type t =? TK_POSTINC)).
      destruct ((((tk_type t =? TK_POSTINC) || (tk_type t =? TK_POSTDEC)) && negb d)%bool); destruct inc; cbn [no_float made tk_type];
        repeat (match goal with |- _ /\ _ => split end); try assumption; try exact I; discriminate.
    + destruct (kbind_inv _ _ _ _ _ E3) as (x0 & k4 & E4 & E5). clear E3.
      destruct (kbind_inv _ _ _ _ _ E5) as (x1 & k5 & E6 & E7). injection E7 as <- _.
      cbn [no_float]. split; [exact Pt | ]. split; [exact (IHa _ _ _ _ Pa E4) | exact (IHb _ _ _ _ Pb E6)].
Qed.

(** In particular for every expression the parser accepts, after increments
    have been expanded. *)
Theorem C36_compiled_partial (D : Type) (nothing : D) (node : token -> bool -> D -> D -> D) (int : Z -> D) e d k n k' n' :
  integers nothing node int -> grouped e -> no_float (tree e) ->
  expand (tree e) d k = Ok (n, k') -> optimize n = Ok n' ->
  meaning nothing node n' = meaning nothing node n.
Proof.
  intros H G F E O. apply (C36_integers_partial D nothing node int H).
  - exact (proj1 (expand_proper _ _ _ _ _ (tree_proper e G) E)).
  - exact (expand_no_float _ _ _ _ _ F E).
  - exact O.
Qed.
Print Assumptions C36_compiled_partial.

(** ** Where it fails *)

Ltac prop := repeat match goal with
  | |- True => exact I
  | |- _ /\ _ => split
  | |- literal _ -> _ => first [notlit | intros _; split; reflexivity]
  | |- binary _ -> _ => first [notlit | intros _; split; let Q := fresh in intros Q; first [discriminate Q | reflexivity]]
  end.

Definition tok (ty : Z) (s : bytes) : token := mkTok ty s 1 0 1.
Definition leaf (ty : Z) (s : bytes) : ast := ANode (tok ty s) false ANull ANull.

(** The quotient of two float literals is rounded to six decimals. *)
Theorem C36_float_refuted : exists a b t root,
  proper (ANode (tok TK_DIVIDE (bs "/")) false (leaf TK_FLOAT a) (leaf TK_FLOAT b)) /\
  optimize (ANode (tok TK_DIVIDE (bs "/")) false (leaf TK_FLOAT a) (leaf TK_FLOAT b)) = Ok (ANode t root ANull ANull) /\
  tk_type t = TK_FLOAT /\ c_atof (tk_str t) <> f_div (c_atof a) (c_atof b).
Proof.
  exists (bs "1.0"), (bs "3.0"). eexists _, _. split.
  { cbn [proper leaf]. prop. }
  split; [vm_compute; reflexivity | ]. split; [reflexivity | ]. vm_compute. discriminate.
Qed.
Print Assumptions C36_float_refuted.

(** Folding is done, and can be undefined, in code that is never executed;
    the most negative integer cannot be written as a literal at all. *)
Theorem C36_unreached_refuted : exists text1 text2,
  text1 = bs "if(0) { var a = 2147483647 + 1; }" /\ text2 = bs "var a = -2147483648;" /\
  compile_script 1000 text1 (bs "f") (comp_init vm_init) = Ub UbSignedOverflow /\
  compile_script 1000 text2 (bs "f") (comp_init vm_init) = Ub UbSignedOverflow.
Proof. eexists _, _. split; [reflexivity | ]. split; [reflexivity | ]. split; vm_compute; reflexivity. Qed.
Print Assumptions C36_unreached_refuted.

(** ** The hypotheses can be met *)

(** The obvious meaning: integers, or nothing. *)
Definition num (t : token) (root : bool) (a b : option Z) : option Z :=
  if tk_type t =? TK_INTEGER then Some (c_atol (tk_str t))
  else match a, b with
    | Some x, Some y =>
      if tk_type t =? TK_PLUS then Some (x + y) else if tk_type t =? TK_MINUS then Some (x - y)
      else if tk_type t =? TK_MULTIPLY then Some (x * y) else if tk_type t =? TK_DIVIDE then Some (Z.quot x y) else None
    | Some x, None => if tk_type t =? TK_MINUS then Some (- x) else None
    | _, _ => None
    end.
Lemma num_integers : integers None num Some.
Proof.
  constructor; intros; unfold num; rewrite H; cbn [Z.eqb Pos.eqb TK_INTEGER TK_PLUS TK_MINUS TK_MULTIPLY TK_DIVIDE]; try reflexivity.
  f_equal. eapply quotient_fun; [apply quot_quotient; assumption | eassumption].
Qed.

(** x * (7 / -2 - 1000): only the right operand is folded. *)
Definition ex_tree : ast :=
  ANode (tok TK_MULTIPLY (bs "*")) false (leaf TK_IDENTIFIER (bs "x"))
    (ANode (tok TK_MINUS (bs "-")) false
      (ANode (tok TK_DIVIDE (bs "/")) false (leaf TK_INTEGER (bs "7"))
        (ANode (tok TK_MINUS (bs "-")) false (leaf TK_INTEGER (bs "2")) ANull))
      (leaf TK_INTEGER (bs "1000"))).
Example C36_ex : proper ex_tree /\ no_float ex_tree /\
  optimize ex_tree = Ok (ANode (tok TK_MULTIPLY (bs "*")) false (leaf TK_IDENTIFIER (bs "x"))
    (ANode (made TK_INTEGER (bs "-1003") 1) false ANull ANull)).
Proof.
  split; [ | split; [ | vm_compute; reflexivity]].
  - cbn [proper ex_tree leaf]. prop.
  - cbn. repeat split; discriminate.
Qed.
