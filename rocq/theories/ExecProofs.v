(** * ExecProofs: compiled code does what the text means (used by RunProperties) *)

From Verif Require Import Base BaseFacts State MonadFacts VmModel OpSpec InsnSpec CallSpec
  TableProofs TextProofs TokenModel TokenProofs CsModel ExprModel ParseSpec FoldSpec FoldProperties RunSpec CodeRel UseProofs MachProofs.

Ltac eqbs H := repeat match type of H with context [Z.eqb ?x ?y] =>
  let b := eval vm_compute in (Z.eqb x y) in
  match b with true => change (Z.eqb x y) with true in H | false => change (Z.eqb x y) with false in H end end;
  cbv iota in H; cbn [orb andb] in H; cbv iota in H.

(** ** Folding and expansion *)

Lemma expand_null n d : is_null (expandp n d) = is_null n.
Proof. destruct n as [|t r a b]; [reflexivity|]. cbn [expandp]. destruct (is_incdec _); [|reflexivity]. unfold expand_node. destruct (_ && _); reflexivity. Qed.

(** A literal float. *)
Definition is_float (n : ast) (b : Z) : Prop :=
  exists t r, n = ANode t r ANull ANull /\ tk_type t = TK_FLOAT /\ b = c_atof (tk_str t).
(** What folding makes of two floats, or of one. *)
Inductive ffolds : Z -> Z -> option Z -> Z -> Prop :=
| ff_add x y : ffolds TK_PLUS x (Some y) (f_add x y)
| ff_sub x y : ffolds TK_MINUS x (Some y) (f_sub x y)
| ff_neg x : ffolds TK_MINUS x None (f_neg x)
| ff_mul x y : ffolds TK_MULTIPLY x (Some y) (f_mul x y)
| ff_div x y : ffolds TK_DIVIDE x (Some y) (f_div x y).

Lemma fold_float_some ty x y neg v : foldable ty = true -> (neg = true -> ty = TK_MINUS) -> fold_float ty x y neg = Ok (Some v) ->
  ffolds ty x (if neg then None else Some y) v.
Proof.
  intros Fo N E. unfold fold_float in E.
  destruct (Z.eqb_spec ty TK_PLUS) as [->|]; [injection E as <-; destruct neg; [discriminate (N eq_refl)|constructor]|].
  destruct (Z.eqb_spec ty TK_MINUS) as [->|]; [injection E as <-; destruct neg; constructor|].
  destruct neg; [destruct (n0 (N eq_refl))|].
  destruct (Z.eqb_spec ty TK_MULTIPLY) as [->|]; [injection E as <-; constructor|].
  destruct (Z.eqb_spec ty TK_DIVIDE) as [->|]; [|discriminate E]. destruct (f_eq y 0); [discriminate E|]. injection E as <-. constructor.
Qed.

Lemma opt_node t root c0 c1 n' : optimize (ANode t root c0 c1) = Ok n' ->
  is_null n' = false /\
  exists d0 d1, optimize c0 = Ok d0 /\ optimize c1 = Ok d1 /\
  (n' = ANode t root d0 d1 \/
   foldable (tk_type t) = true /\ immediate d0 = true /\ (is_null d1 || immediate d1)%bool = true /\ immediate n' = true /\
   ((d1 = ANull -> tk_type t = TK_MINUS) ->
     (forall x, is_int d0 x ->
      (d1 = ANull -> exists v, is_int n' v /\ folds (tk_type t) x None v) /\
      (forall y, is_int d1 y -> exists v, is_int n' v /\ folds (tk_type t) x (Some y) v)) /\
     (forall x, is_float d0 x ->
      (d1 = ANull -> exists v line, n' = ANode (made TK_FLOAT (f_to_str v) line) false ANull ANull /\ ffolds (tk_type t) x None v) /\
      (forall y, is_float d1 y -> exists v line, n' = ANode (made TK_FLOAT (f_to_str v) line) false ANull ANull /\ ffolds (tk_type t) x (Some y) v)))).
Proof.
  intro E. cbn [optimize] in E. destruct (bind_ok _ _ _ E) as (d0 & E0 & E1). destruct (bind_ok _ _ _ E1) as (d1 & E2 & E3). clear E E1.
  cbv zeta in E3. destruct (foldable (tk_type t)) eqn:Fo; cbn [negb] in E3; [|injection E3 as <-; eauto 8].
  destruct (immediate d0) eqn:I0; cbn [negb orb] in E3; [|injection E3 as <-; eauto 8].
  destruct (is_null d1 || immediate d1)%bool eqn:I1; cbn [negb] in E3; [|injection E3 as <-; eauto 8].
  destruct d0 as [|t0 r0 a0 b0]; [injection E3 as <-; eauto 8|].
  destruct (Z.eqb_spec (tk_type t0) TK_INTEGER) as [T0|T0].
  - destruct (bind_ok _ _ _ E3) as (o & F & E4). destruct o as [v|]; [|injection E4 as <-; eauto 8]. injection E4 as <-.
    split; [reflexivity|]. exists (ANode t0 r0 a0 b0), d1. do 2 (split; [assumption|]). right. repeat (split; [assumption||reflexivity|]).
    intro N. split; [|intros x (t0' & r0' & Q & T & _); injection Q as <- <- -> ->; rewrite T0 in T; discriminate T].
    intros x (t0' & r0' & Q & _ & ->). injection Q as <- <- -> ->. split.
    + intros ->. cbn [is_null] in F. specialize (N eq_refl). assert (is_s32 0) as Z0 by (unfold is_s32, W31; lia). destruct (fold_int_some _ _ _ _ _ Fo (fun _ => N) (atol_s32 _) Z0 F) as [G S].
      exists v. split; [apply made_int; exact S|exact G].
    + intros y (t1 & r1 & -> & T1 & ->). cbn [is_null text_of] in F.
      assert (false = true -> tk_type t = TK_MINUS) as N' by discriminate.
      destruct (fold_int_some _ _ _ _ _ Fo N' (atol_s32 _) (atol_s32 _) F) as [G S].
      exists v. split; [apply made_int; exact S|exact G].
  - destruct (bind_ok _ _ _ E3) as (o & F & E4). destruct o as [v|]; [|injection E4 as <-; eauto 8]. injection E4 as <-.
    split; [reflexivity|]. exists (ANode t0 r0 a0 b0), d1. do 2 (split; [assumption|]). right. repeat (split; [assumption||reflexivity|]).
    intro N. split; [intros x (t0' & r0' & Q & T & _); injection Q as <- <- -> ->; contradiction|].
    intros x (t0' & r0' & Q & _ & ->). injection Q as <- <- -> ->. split.
    + intros ->. cbn [is_null] in F. eexists v, _. split; [reflexivity|]. apply (fold_float_some _ _ _ true v Fo (fun _ => N eq_refl) F).
    + intros y (t1 & r1 & -> & T1 & ->). cbn [is_null text_of] in F. eexists v, _. split; [reflexivity|].
      apply (fold_float_some _ _ _ false v Fo ltac:(discriminate) F).
Qed.

Lemma opt_null n n' : optimize n = Ok n' -> is_null n' = is_null n.
Proof. destruct n; [intro E; injection E as <-; reflexivity|]. intro E. apply opt_node in E. apply E. Qed.

Lemma ev_nonnull {HS : Hosts} funs lim mf E h m n v m' : ev funs lim mf E h m n v m' -> is_null n = false.
Proof. destruct 1; reflexivity. Qed.

Lemma unop_types ty a v : unop ty a v -> ty = TK_MINUS \/ ty = TK_NOT.
Proof. destruct 1; auto. Qed.
Lemma binop_types ty a b v : binop ty a b v ->
  In ty [TK_PLUS; TK_MINUS; TK_MULTIPLY; TK_DIVIDE; TK_MODULO; TK_LT; TK_GT; TK_LE; TK_GE; TK_EQ; TK_NE; TK_SAME; TK_AND; TK_OR].
Proof. destruct 1; cbn; tauto. Qed.

Lemma lit_imm t r a b : immediate (ANode t r a b) = true -> tk_type t = TK_INTEGER \/ tk_type t = TK_FLOAT.
Proof. cbn. rewrite Bool.orb_true_iff, !Z.eqb_eq. auto. Qed.

(** What an increment turns into is left alone by folding. *)
Lemma expand_opt t t0 root0 d : tk_type t0 = TK_IDENTIFIER ->
  optimize (expand_node t (ANode t0 root0 ANull ANull) d) = Ok (expand_node t (ANode t0 root0 ANull ANull) d) /\
  immediate (expand_node t (ANode t0 root0 ANull ANull) d) = false.
Proof.
  intro T. destruct t0 as [ty0 s0 l0 f0 a0]. cbn [tk_type] in T. subst ty0. unfold expand_node.
  destruct ((tk_type t =? TK_INCREMENT) || (tk_type t =? TK_POSTINC))%bool, ((_ || _) && _)%bool;
  split; reflexivity.
Qed.

Lemma expand_field_opt t t0 root0 a b d n' : tk_type t0 = TK_BRACKET_OPEN ->
  optimize (expand_node t (ANode t0 root0 a b) d) = Ok n' ->
  exists a' b', optimize a = Ok a' /\ optimize b = Ok b' /\ n' = expand_node t (ANode t0 root0 a' b') d /\ immediate n' = false.
Proof.
  intros T O. assert (forall x y d0 d1, optimize (ANode t0 root0 x y) = Ok d0 -> optimize x = Ok d1 -> exists y', optimize y = Ok y' /\ d0 = ANode t0 root0 d1 y') as Ot.
  { intros x y d0 d1 E0 E1. apply opt_node in E0. destruct E0 as (_ & p & q & P & Q & [->|(F & _)]); [|rewrite T in F; discriminate F]. rewrite E1 in P. injection P as <-. eauto. }
  assert (forall tp tk n0, optimize (ANode tp false (ANode t0 root0 a b) (ANode tk false (ANode t0 root0 a b) (ANode (made TK_INTEGER (bs "1") (tk_line t)) false ANull ANull))) = Ok n0 ->
    tk_type tp = TK_ASSIGNMENT ->
    exists a' b', optimize a = Ok a' /\ optimize b = Ok b' /\ n0 = ANode tp false (ANode t0 root0 a' b') (ANode tk false (ANode t0 root0 a' b') (ANode (made TK_INTEGER (bs "1") (tk_line t)) false ANull ANull))) as Oa.
  { intros tp tk n0 E Tp. apply opt_node in E. destruct E as (_ & d0 & d1 & E0 & E1 & [->|(F & _)]); [|rewrite Tp in F; discriminate F].
    pose proof E0 as E0'. cbn [optimize] in E0'. destruct (bind_ok _ _ _ E0') as (a' & Ea & _). destruct (Ot _ _ _ _ E0 Ea) as (b' & Eb & ->).
    apply opt_node in E1. destruct E1 as (_ & e0 & e1 & F0 & F1 & K). rewrite E0 in F0. injection F0 as <-. injection F1 as <-.
    destruct K as [->|(_ & I & _)]; [|apply lit_imm in I; rewrite T in I; destruct I; discriminate]. exists a', b'. auto. }
  unfold expand_node in O |- *.
  destruct ((tk_type t =? TK_INCREMENT) || (tk_type t =? TK_POSTINC))%bool; destruct ((_ || _) && _)%bool;
    try (destruct (Oa _ _ _ O eq_refl) as (a' & b' & Ea & Eb & ->); exists a', b'; auto);
    (apply opt_node in O; destruct O as (_ & d0 & d1 & E0 & E1 & K); destruct (Oa _ _ _ E0 eq_refl) as (a' & b' & Ea & Eb & ->);
     injection E1 as <-; destruct K as [->|(_ & I & _)]; [|discriminate I]; exists a', b'; auto).
Qed.

Lemma not_incdec ty : In ty [TK_INTEGER; TK_NIL; TK_IDENTIFIER; TK_ASSIGNMENT; TK_PAREN_OPEN; TK_NOT; TK_PLUS; TK_MINUS; TK_MULTIPLY; TK_DIVIDE; TK_MODULO; TK_LT; TK_GT; TK_LE; TK_GE; TK_EQ; TK_NE; TK_SAME; TK_AND; TK_OR; TK_FLOAT; TK_STRING; TK_FSE; TK_BRACKET_OPEN; TK_CALL_SELF; TK_INDEX_NOPOP; TK_FUNCTION] -> is_incdec ty = false.
Proof. cbn [In]. intros H. repeat (destruct H as [<-|H]; [reflexivity|]). destruct H. Qed.
Lemma incdec_is ty z z' r : incdec ty z z' r -> is_incdec ty = true.
Proof. intros [(-> & _)|[(-> & _)|[(-> & _)|(-> & _)]]]; reflexivity. Qed.

Ltac inlist := first [reflexivity | cbn [In]; tauto].

Lemma folds_bin ty x y v w : folds ty x (Some y) v -> binop ty (VInt x) (VInt y) w -> w = VInt v.
Proof.
  intros F B. inversion F; subst; inversion B; subst;
    match goal with X : number_of (VInt _) = Some _ |- _ => injection X as <- end; try reflexivity.
  f_equal. eapply quotient_fun; eassumption.
Qed.
Lemma folds_un ty x v w : folds ty x None v -> unop ty (VInt x) w -> w = VInt v.
Proof. intros F B. inversion F; subst; inversion B; subst; reflexivity. Qed.

Lemma ffolds_bin ty x y v w : ffolds ty x (Some y) v -> binop ty (VFlt x) (VFlt y) w -> w = VFlt v.
Proof.
  intros F B. inversion F; subst; inversion B; subst; try reflexivity;
    match goal with X : float_of (VFlt _) = Some _ |- _ => injection X as <-; reflexivity end.
Qed.
Lemma ffolds_un ty x v w : ffolds ty x None v -> unop ty (VFlt x) w -> w = VFlt v.
Proof. intros F B. inversion F; subst; inversion B; subst; reflexivity. Qed.

Definition is_number (d : ast) (v : val) : Prop :=
  match v with VInt z => is_int d z | VFlt b => is_float d b | _ => False end.

Lemma ev_spare {HS : Hosts} funs lim mf : forall E h m n v m', ev funs lim mf E h m n v m' -> spare lim h.
Proof.
  apply (run_mi _ funs lim mf (fun E h m n v m' => spare lim h) (fun E h m n v m' => True) (fun E h m n v m' => True)
    (fun E h m n v m' => True) (fun E b m e s i o m' => True)); auto.
Qed.

Lemma made_float v line : in_decimal (VFlt v) -> is_float (ANode (made TK_FLOAT (f_to_str v) line) false ANull ANull) v.
Proof. intro D. eexists _, _. split; [reflexivity|]. split; [reflexivity|]. symmetry. exact D. Qed.

(** What folding turned into a number: a number expression, and its value. *)
Lemma ev_imm {HS : Hosts} funs lim mf n : forall E h m v m' d, ev funs lim mf E h m n v m' -> optimize (expandp n false) = Ok d -> immediate d = true ->
  numeric n = true /\ is_number d v /\ m' = m.
Proof.
  induction n as [|t r a IHa b IHb]; intros E h m v m' d V O I; [inversion V|].
  assert (forall ty, In ty [TK_NIL; TK_FUNCTION; TK_IDENTIFIER; TK_ASSIGNMENT; TK_PAREN_OPEN; TK_STRING; TK_FSE; TK_BRACKET_OPEN; TK_CALL_SELF] -> tk_type t = ty -> False) as No.
  { intros ty Hin T. cbn [expandp] in O. rewrite T, not_incdec in O by (cbn [In] in *; tauto).
    apply opt_node in O. destruct O as (_ & d0 & d1 & _ & _ & [->|(F & _)]).
    - apply lit_imm in I. cbn [In] in Hin. repeat (destruct Hin as [<-|Hin]; [destruct I as [I|I]; rewrite T in I; discriminate I|]). destruct Hin.
    - rewrite T in F. cbn [In] in Hin. repeat (destruct Hin as [<-|Hin]; [discriminate F|]). destruct Hin. }
  inversion V; subst; try (exfalso; eapply No; [|eassumption]; inlist).
  - match goal with T : tk_type t = TK_INTEGER |- _ => rename T into TI end.
    cbn [expandp] in O. rewrite TI, not_incdec in O by inlist. cbn [optimize bind] in O. rewrite TI in O. injection O as <-.
    cbn [numeric]. rewrite TI. split; [reflexivity|]. split; [|reflexivity]. eexists _, _. split; [reflexivity|]. split; [eassumption|reflexivity].
  - match goal with T : tk_type t = TK_FLOAT |- _ => rename T into TI end.
    cbn [expandp] in O. rewrite TI, not_incdec in O by inlist. cbn [optimize bind] in O. rewrite TI in O. injection O as <-.
    cbn [numeric]. rewrite TI. split; [reflexivity|]. split; [|reflexivity]. eexists _, _. split; [reflexivity|]. split; [eassumption|reflexivity].
  - match goal with T : unop _ _ _, V : ev _ _ _ _ _ _ a _ _, D : numeric a = true -> _ |- _ => rename T into HU; rename V into HA; rename D into HD end.
    pose proof (unop_types _ _ _ HU) as Ty.
    cbn [expandp] in O. rewrite not_incdec in O by (destruct Ty as [-> | ->]; cbn [In]; tauto).
    apply opt_node in O. destruct O as (_ & d0 & d1 & O0 & O1 & [->|(F & I0 & _ & _ & G)]).
    + apply lit_imm in I. exfalso. destruct Ty as [Ty|Ty], I as [I|I]; rewrite Ty in I; discriminate I.
    + injection O1 as <-. assert (tk_type t = TK_MINUS) as M by (destruct Ty as [M|M]; [exact M|rewrite M in F; discriminate]).
      destruct (IHa _ _ _ _ _ _ HA O0 I0) as (Na & X & ->). destruct (G (fun _ => M)) as [Gi Gf]. specialize (HD Na).
      split; [cbn [numeric]; rewrite M, Na; reflexivity|]. split; [|reflexivity].
      destruct x as [x0|x0| | | |]; try contradiction; cbn [is_number] in X.
      * destruct (Gi _ X) as [G1 _]. destruct (G1 eq_refl) as (w & W & Fo). rewrite (folds_un _ _ _ _ Fo HU). exact W.
      * destruct (Gf _ X) as [G1 _]. destruct (G1 eq_refl) as (w & line & -> & Fo). pose proof (ffolds_un _ _ _ _ Fo HU) as Ev. subst v. apply made_float. exact HD.
  - match goal with T : binop _ _ _ _, V : ev _ _ _ _ _ _ a _ _, W : ev _ _ _ _ _ _ b _ _, D : _ = true -> _ |- _ => rename T into HU; rename V into HA; rename W into HB; rename D into HD end.
    pose proof (binop_types _ _ _ _ HU) as Ty.
    cbn [expandp] in O. rewrite not_incdec in O by (cbn [In] in *; tauto).
    apply opt_node in O. destruct O as (_ & d0 & d1 & O0 & O1 & [->|(F & I0 & I1 & _ & G)]).
    + apply lit_imm in I. cbn [In] in Ty. exfalso. destruct I as [I|I]; rewrite I in Ty; repeat (destruct Ty as [Ty|Ty]; [discriminate Ty|]); destruct Ty.
    + pose proof (opt_null _ _ O1) as Nn. rewrite expand_null, (ev_nonnull _ _ _ _ _ _ _ _ _ HB) in Nn. rewrite Nn in I1. cbn [orb] in I1.
      destruct (IHa _ _ _ _ _ _ HA O0 I0) as (Na & X & ->). destruct (IHb _ _ _ _ _ _ HB O1 I1) as (Nb & Y & ->).
      destruct (G ltac:(intros ->; discriminate Nn)) as [Gi Gf]. destruct HD as [Sk HD]; [rewrite Na, Nb; reflexivity|].
      split; [cbn [numeric]; rewrite Na, Nb; rewrite !Bool.andb_true_r; unfold foldable in F; rewrite F; apply Bool.orb_true_r|]. split; [|reflexivity].
      destruct x as [x0|x0| | | |]; try contradiction; destruct y as [y0|y0| | | |]; try contradiction; try discriminate Sk; cbn [is_number] in X, Y.
      * destruct (Gi _ X) as [_ G1]. destruct (G1 _ Y) as (w & W & Fo). rewrite (folds_bin _ _ _ _ _ Fo HU). exact W.
      * destruct (Gf _ X) as [_ G1]. destruct (G1 _ Y) as (w & line & -> & Fo). pose proof (ffolds_bin _ _ _ _ _ Fo HU) as Ev. subst v. apply made_float. exact HD.
  - match goal with T : incdec _ _ _ _, V : tk_type _ = TK_IDENTIFIER |- _ => rename T into HI; rename V into HT end.
    cbn [expandp] in O. rewrite (incdec_is _ _ _ _ HI) in O. destruct (expand_opt t _ root0 false HT) as [Oe Ie]. rewrite Oe in O. injection O as <-. congruence.
  - match goal with T : incdec _ _ _ _, V : tk_type _ = TK_BRACKET_OPEN |- _ => rename T into HI; rename V into HT end.
    cbn [expandp] in O. rewrite (incdec_is _ _ _ _ HI) in O. destruct (expand_field_opt _ _ _ _ _ _ _ HT O) as (a' & b' & _ & _ & -> & Ie). congruence.
Qed.

(** Expressions without increments inside are left alone by the expansion; and
    code only exists for those when they are not expanded. *)
Fixpoint leafy (n : ast) : Prop :=
  match n with
  | ANull => True
  | ANode t _ a b =>
    (tk_type t = TK_INTEGER \/ tk_type t = TK_FLOAT \/ tk_type t = TK_IDENTIFIER -> a = ANull /\ b = ANull) /\
    (tk_type t = TK_ASSIGNMENT -> match a with ANull => True | ANode t0 _ _ _ => is_incdec (tk_type t0) = false end) /\
    leafy a /\ leafy b
  end.

Lemma ev_leafy {HS : Hosts} funs lim mf : 
  (forall E h m n v m', ev funs lim mf E h m n v m' -> leafy n) /\ (forall E h m n v m', evs funs lim mf E h m n v m' -> leafy n).
Proof.
  destruct (run_mi _ funs lim mf (fun E h m n v m' => leafy n) (fun E h m n v m' => leafy n) (fun E h m n v m' => True)
    (fun E h m n v m' => True) (fun E b m e s i o m' => True)) as (A & B & _); auto; intros; cbn [leafy].
  all: repeat match goal with T : tk_type _ = _ |- _ => rewrite T; clear T | T : _ \/ _ |- _ => destruct T as [-> | ->] | U : unop _ _ _ |- _ => apply unop_types in U; destruct U as [U|U] 
    | I : incdec _ _ _ _ |- _ => destruct I as [(I & _)|[(I & _)|[(I & _)|(I & _)]]] end.
  all: try match goal with U : binop _ _ _ _ |- _ => apply binop_types in U; cbn [In] in U; repeat (destruct U as [<-|U]); try contradiction end.
  all: repeat match goal with
  | |- _ /\ _ => split
  | |- _ -> _ => let Q := fresh in intro Q; try discriminate Q; try solve [destruct Q as [Q|[Q|Q]]; discriminate Q]
  end; auto.
Qed.

Lemma imm_plain n : forall n', leafy n -> optimize n = Ok n' -> immediate n' = true -> expandp n false = n.
Proof.
  induction n as [|t r a IHa b IHb]; intros n' L O I; [reflexivity|]. destruct L as (Lf & _ & La & Lb).
  apply opt_node in O. destruct O as (_ & d0 & d1 & O0 & O1 & [->|(F & I0 & I1 & _)]).
  - apply lit_imm in I. destruct Lf as [-> ->]; [tauto|]. cbn [expandp]. destruct I as [-> | ->]; reflexivity.
  - cbn [expandp]. rewrite (IHa _ La O0 I0).
    assert (expandp b false = b) as ->.
    { destruct (is_null d1) eqn:N; [|apply (IHb _ Lb O1 I1)]. rewrite (opt_null _ _ O1) in N. destruct b; [reflexivity|discriminate N]. }
    rewrite not_incdec; [reflexivity|]. unfold foldable in F. rewrite !Bool.orb_true_iff, !Z.eqb_eq in F. cbn [In]. intuition auto.
Qed.

Lemma no_tail {LT : Lits} sc off t root c1 ws off' : tail_code sc off t root c1 ws off' -> is_incdec (tk_type t) = false.
Proof.
  intro H. destruct (is_incdec (tk_type t)) eqn:I; [|reflexivity]. exfalso. unfold is_incdec in I. rewrite !Bool.orb_true_iff, !Z.eqb_eq in I. unfold tail_code in H.
  destruct I as [[[I|I]|I]|I]; rewrite I in H; eqbs H; destruct H as (op & P & _); discriminate P.
Qed.

Lemma code_plain {LT : Lits} n : leafy n ->
  (forall sc off n' ws off', optimize n = Ok n' -> ecode sc off n' ws off' -> expandp n false = n) /\
  match n with ANull => True | ANode _ _ a b =>
    (forall sc off n' ws off', optimize a = Ok n' -> ecode sc off n' ws off' -> expandp a false = a) /\
    (forall sc off n' ws off', optimize b = Ok n' -> ecode sc off n' ws off' -> expandp b false = b) end.
Proof.
  induction n as [|t r a IHa b IHb]; intro L; [split; auto|]. pose proof L as (Lf & Ls & La & Lb).
  destruct (IHa La) as [Ha Ka]. destruct (IHb Lb) as [Hb _]. split; [|split; assumption].
  intros sc off n' ws off' O Ec. pose proof O as O'. apply opt_node in O. destruct O as (_ & d0 & d1 & O0 & O1 & [->|(F & I0 & I1 & In & _)]); [|apply (imm_plain _ _ L O' In)].
  cbn [ecode] in Ec. cbn [expandp]. destruct (Z.eqb_spec (tk_type t) TK_ASSIGNMENT) as [T|T].
  - rewrite T. change (is_incdec TK_ASSIGNMENT) with false. cbv iota. destruct Ec as (w1 & o1 & E1 & K).
    rewrite (Hb _ _ _ _ _ O1 E1). f_equal. destruct a as [|t0 r0 a0 b0]; [reflexivity|]. specialize (Ls T). cbn in Ls.
    pose proof O0 as O0'. apply opt_node in O0. destruct O0 as (_ & e0 & e1 & P0 & P1 & [->|(_ & _ & _ & In & _)]); [|apply (imm_plain _ _ La O0' In)].
    destruct (Z.eqb_spec (tk_type t0) TK_IDENTIFIER) as [T0|T0].
    + destruct La as (Lf0 & _). destruct Lf0 as [-> ->]; [tauto|]. cbn [expandp]. rewrite Ls. reflexivity.
    + destruct K as (_ & w2 & o2 & w3 & o3 & E2 & E3 & _). destruct Ka as [K0 K1]. cbn [expandp]. rewrite Ls, (K0 _ _ _ _ _ P0 E2), (K1 _ _ _ _ _ P1 E3). reflexivity.
  - destruct Ec as (w0 & o0 & w1 & o1 & w2 & E0 & E1 & Tl & _). rewrite (no_tail _ _ _ _ _ _ _ Tl), (Ha _ _ _ _ _ O0 E0), (Hb _ _ _ _ _ O1 E1). reflexivity.
Qed.

(** ** Code stays in range *)

Scheme scode_mi := Minimality for scode Sort Prop with sscode_mi := Minimality for sscode Sort Prop.
Combined Scheme code_mi from scode_mi, sscode_mi.

Lemma words_range C a ws : mem_words (code C) a ws -> 0 <= a <= zlen C -> 0 <= a + zlen ws <= zlen C.
Proof.
  intros W R. pose proof (zlen_nonneg ws). destruct (Z.eq_dec (zlen ws) 0) as [Z|Z]; [lia|].
  destruct (znth ws (zlen ws - 1)) as [w|] eqn:Q.
  - apply W in Q. apply znth_some_range in Q. lia.
  - exfalso. apply znth_none_range in Q. lia.
Qed.
Lemma pcode_range {LT : Lits} C d E e a b u : pcode (code C) d E e a b u -> 0 <= a <= zlen C -> 0 <= b <= zlen C.
Proof. intros (n & ws & _ & _ & W & ->) R. eapply words_range; eauto. Qed.
Lemma skips_range {LT : Lits} C ng l a b : skips (code C) ng l a b -> 0 <= a <= zlen C -> 0 <= b <= zlen C.
Proof.
  induction 1; intro R; [exact R|]. apply IHskips.
  match goal with X : exists w, _ |- _ => destruct X as (w & X); apply znth_some_range in X end. lia.
Qed.
Lemma xcode_range {LT : Lits} C ng d E e a b u : xcode (code C) ng d E e a b u -> 0 <= a <= zlen C -> 0 <= b <= zlen C.
Proof. intros (_ & a1 & S & P) R. eapply pcode_range; [exact P|]. eapply skips_range; eauto. Qed.

(** The function expressions that were evaluated. *)
Fixpoint flits (n : ast) : list token :=
  match n with
  | ANull => []
  | ANode t _ a b => (if tk_type t =? TK_FUNCTION then [t] else []) ++ flits a ++ flits b
  end.
Lemma ev_flits {HS : Hosts} funs lim mf :
  (forall E h m n v m', ev funs lim mf E h m n v m' -> forall t, In t (flits n) -> usable funs (number t)) /\
  (forall E h m n v m', evs funs lim mf E h m n v m' -> forall t, In t (flits n) -> usable funs (number t)).
Proof.
  destruct (run_mi _ funs lim mf (fun E h m n v m' => forall t, In t (flits n) -> usable funs (number t)) (fun E h m n v m' => forall t, In t (flits n) -> usable funs (number t)) (fun E h m n v m' => True)
    (fun E h m n v m' => True) (fun E b m e s i o m' => True)) as (A & B & _); auto; intros; cbn [flits] in *.
  all: repeat match goal with T : tk_type _ = _, I : In _ _ |- _ => rewrite T in I; clear T | T : _ \/ _ |- _ => destruct T as [T|T] | U : unop _ _ _ |- _ => apply unop_types in U; destruct U as [U|U] 
    | I : incdec _ _ _ _ |- _ => destruct I as [(I & _)|[(I & _)|[(I & _)|(I & _)]]] end.
  all: try match goal with U : binop _ _ _ _ |- _ => apply binop_types in U; cbn [In] in U; repeat (destruct U as [<-|U]); try contradiction end.
  all: repeat match goal with
  | I : In _ (_ ++ _) |- _ => apply in_app_iff in I; destruct I as [I|I]
  | I : In _ [] |- _ => destruct I
  | I : In _ (if ?c then _ else _) |- _ => let Q := fresh in destruct c eqn:Q; [try discriminate Q|destruct I]
  | I : In _ [_] |- _ => destruct I as [<-|I]
  end; auto.
  match goal with Q : (_ =? _) = true |- _ => apply Z.eqb_eq in Q; rewrite Q in *; exfalso end.
  match goal with X : _ \/ _ |- _ => repeat (destruct X as [X|X]; [discriminate X|]); destruct X end.
Qed.
Lemma lits_flits : (forall e, TraceProofs.neat e -> forall ts t, In (ts, t) (lits e) -> In t (flits (tree e))) /\
  (forall a, TraceProofs.args_neat a -> forall o ts t, In (ts, t) (args_lits a) -> In t (flits (chain o a))).
Proof.
  apply TraceProofs.expr_args_mi2; intros; cbn [lits args_lits tree chain flits] in *;
  match goal with N : TraceProofs.neat _ |- _ => destruct N as [G Sn]; cbn [grouped TraceProofs.sane] in G, Sn | N : TraceProofs.args_neat _ |- _ => destruct N as [G Sn]; cbn [args_grouped TraceProofs.args_sane] in G, Sn end;
  repeat match goal with
  | X : _ /\ _ |- _ => destruct X
  | X : In _ (_ ++ _) |- _ => apply in_app_iff in X; destruct X as [X|X]
  | X : In _ [] |- _ => destruct X
  end; unfold TraceProofs.neat, TraceProofs.args_neat in *.
  all: rewrite ?in_app_iff; try solve [eauto 8].
  - match goal with X : In _ [_] |- _ => destruct X as [X|X]; [injection X as -> ->|destruct X] end. match goal with T : tk_type _ = TK_FUNCTION |- _ => rewrite T end. do 2 left. reflexivity.
  - specialize (H (conj H5 H1) _ _ H2). destruct (bare e && names_fse (tree e))%bool eqn:B.
    + exfalso. specialize (H4 eq_refl). apply andb_true_iff in B. destruct B as [_ B]. destruct (tree e) as [|t0 r0 c0 c1]; [destruct H|].
      cbn [names_fse] in B. apply Z.eqb_eq in B. destruct c0, c1; try contradiction. cbn [flits] in H. rewrite B in H. destruct H.
    + cbn [flits]. rewrite !in_app_iff. auto.
  - destruct (bare e && names_fse (tree e))%bool; cbn [flits]; rewrite !in_app_iff; eauto 8.
Qed.

Lemma code_range {LT : Lits} C ng :
  (forall fa lp E s a b E', scode (code C) ng fa lp E s a b E' -> 0 <= a <= zlen C -> 0 <= b <= zlen C) /\
  (forall fa lp E s a b E', sscode (code C) ng fa lp E s a b E' -> 0 <= a <= zlen C -> 0 <= b <= zlen C).
Proof.
  assert (J : forall op a b, zlen (jump_words op a b) = 3) by reflexivity.
  apply code_mi; intros; auto;
  repeat match goal with
  | X : xcode _ _ _ _ _ ?a _ _, R : 0 <= ?a <= zlen C |- _ => pose proof (xcode_range _ _ _ _ _ _ _ _ X R); clear X
  | X : pcode _ _ _ _ ?a _ _, R : 0 <= ?a <= zlen C |- _ => pose proof (pcode_range _ _ _ _ _ _ _ X R); clear X
  | X : skips _ _ _ ?a _, R : 0 <= ?a <= zlen C |- _ => pose proof (skips_range _ _ _ _ _ X R); clear X
  | X : skips _ _ _ (?a + 3) _ |- _ => rewrite ?J in *; assert (0 <= a + 3 <= zlen C) by assumption
  | X : mem_words _ ?a ?w, R : 0 <= ?a <= zlen C |- _ => pose proof (words_range _ _ _ X R); clear X
  | X : 0 <= ?a <= zlen C -> _, R : 0 <= ?a <= zlen C |- _ => specialize (X R)
  | X : 0 <= ?a + 3 <= zlen C -> _ |- _ => rewrite ?J in *; assert (0 <= a + 3 <= zlen C) by assumption; specialize (X ltac:(assumption))
  | X : ?b = ?a |- _ => is_var b; subst b
  end; auto.
  - match goal with X : exists w, _ |- _ => destruct X as (w & X); apply znth_some_range in X end. lia.
Qed.
