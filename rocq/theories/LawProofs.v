(** * LawProofs: an expression the compiler accepts does not begin with a keyword *)

From Coq Require Import ZArith List Lia Bool.
From Verif Require Import Base BaseFacts State TokenModel ExprModel CsModel CompModel ParseSpec RunSpec CodeRel.
Import ListNotations.
Open Scope Z_scope.

Definition leaf_type (ty : Z) : bool := (ty =? TK_INTEGER) || (ty =? TK_FLOAT) || (ty =? TK_IDENTIFIER).
(** A keyword down the left side of the tree, below operators only. *)
Fixpoint stray (n : ast) : Prop :=
  match n with
  | ANull => False
  | ANode t _ a _ => keyword (tk_type t) \/ (leaf_type (tk_type t) = false /\ stray a)
  end.

Ltac kws H := unfold keyword in H; cbn [In] in H; repeat (destruct H as [H|H]; [rewrite <- H in *|]); [..|destruct H].

Lemma keyword_fold t : keyword t -> foldable t = false.
Proof. intro H. kws H; reflexivity. Qed.
Lemma keyword_incdec t : keyword t -> is_incdec t = false.
Proof. intro H. kws H; reflexivity. Qed.
Lemma keyword_leaf t : keyword t -> leaf_type t = false.
Proof. intro H. kws H; reflexivity. Qed.

Lemma stray_expand n d : stray n -> stray (expandp n d).
Proof.
  revert d. induction n as [|t root c0 IH0 c1 _]; intros d H; [destruct H|]. cbn [stray expandp] in *.
  destruct H as [H|[L H]].
  - rewrite (keyword_incdec _ H). left. exact H.
  - destruct (is_incdec (tk_type t)) eqn:Q; [|right; auto].
    unfold expand_node. destruct ((tk_type t =? TK_POSTINC) || (tk_type t =? TK_POSTDEC)), (negb d), ((tk_type t =? TK_INCREMENT) || (tk_type t =? TK_POSTINC));
      cbn [andb stray made tk_type]; right; repeat (split; [reflexivity|]); auto; right; split; auto.
Qed.

Lemma immediate_stray n : immediate n = true -> ~ stray n.
Proof.
  destruct n as [|t r a b]; [discriminate|]. cbn [immediate stray]. intros I [K|[L _]].
  - kws K; discriminate.
  - unfold leaf_type in L. apply orb_false_elim in L. destruct L as [L _]. congruence.
Qed.

Lemma stray_optimize n : forall n', optimize n = Ok n' -> stray n -> stray n'.
Proof.
  induction n as [|t root c0 IH0 c1 IH1]; intros n' H L; [destruct L|]. cbn [optimize] in H.
  destruct (optimize c0) as [d0|] eqn:O0; [|discriminate]. destruct (optimize c1) as [d1|] eqn:O1; [|discriminate]. cbn [bind] in H.
  assert (stray (ANode t root d0 d1)) as Same. { cbn [stray] in *. destruct L as [L|[L M]]; auto. }
  destruct (foldable (tk_type t)) eqn:Fo; cbn [negb] in H; [|injection H as <-; exact Same].
  destruct (negb (immediate d0) || negb (is_null d1 || immediate d1)) eqn:Im; [injection H as <-; exact Same|].
  exfalso. apply orb_false_elim in Im. destruct Im as [I0 _]. apply negb_false_iff in I0. apply immediate_stray in I0.
  cbn [stray] in Same. destruct Same as [K|[_ K]]; [|contradiction]. apply keyword_fold in K. congruence.
Qed.

Section WithLits.
Context {LT : Lits}.
Lemma stray_code sc n : forall off ws off', ecode sc off n ws off' -> stray n -> False.
Proof.
  revert n. fix IH 1. intros [|t root c0 c1] off ws off' H S; [destruct S|]. cbn [ecode] in H. cbn [stray] in S.
  destruct (Z.eqb_spec (tk_type t) TK_ASSIGNMENT) as [Ta|Ta].
  - destruct S as [K|[_ S]]; [rewrite Ta in K; kws K; discriminate|]. destruct H as (w1 & off1 & _ & H).
    destruct c0 as [|t0 r0 c00 c01]; [contradiction|]. cbn [stray] in S. destruct (Z.eqb_spec (tk_type t0) TK_IDENTIFIER) as [Ti|Ti].
    + rewrite Ti in S. destruct S as [K|[L _]]; [kws K; discriminate|discriminate].
    + destruct H as (B & w2 & off2 & w3 & off3 & Ha & _). destruct S as [K|[_ S]]; [rewrite B in K; kws K; discriminate|exact (IH _ _ _ _ Ha S)].
  - destruct H as (w0 & off0 & w1 & off1 & w2 & H0 & H1 & Ht & _). destruct S as [K|[_ S]]; [|exact (IH _ _ _ _ H0 S)].
    unfold tail_code in Ht. kws K; cbn in Ht; destruct Ht as (op & Ht & _); discriminate.
Qed.
End WithLits.

Lemma first_app (e : expr) l : text e <> [] -> starts keyword (text e ++ l) -> starts keyword (text e).
Proof. destruct (text e); [congruence|]. exact (fun _ H => H). Qed.
Lemma text_some e : grouped e -> text e <> [].
Proof. induction e; cbn [grouped text]; intro G; try discriminate; try (intro Q; apply app_eq_nil in Q; destruct Q; try discriminate; intuition).
  intros ->. apply G.
Qed.

Lemma rank_leaf t n : rank t n -> leaf_type t = false.
Proof.
  intros (l & A & B). do 8 (destruct n as [|n]; [cbn in A; try discriminate A; injection A as <-; cbn in B; repeat (destruct B as [<-|B]; [reflexivity|]); destruct B|]).
  cbn in A. destruct n; discriminate.
Qed.

Lemma stray_tree e : grouped e -> starts keyword (text e) -> stray (tree e).
Proof.
  induction e; cbn [grouped text tree]; intros G S.
  - left. exact S.
  - destruct G as [_ G]. destruct ts; [contradiction|]. cbn in S. rewrite G in S. kws S; discriminate.
  - destruct G as (T & _). cbn in S. rewrite T in S. kws S; discriminate.
  - destruct G as (P & _). cbn in S. unfold prefix_op in P. cbn in P. repeat (destruct P as [P|P]; [rewrite <- P in S; kws S; discriminate|]). destruct P.
  - destruct G as (G & _ & _). apply first_app in S; [|apply text_some, G]. destruct (_ =? TK_INCREMENT); right; split; auto.
  - destruct G as (G & _ & P & _). apply first_app in S; [|apply text_some, G]. cbn [stray]. right. rewrite P. split; auto.
  - destruct G as (G & _ & P & _). apply first_app in S; [|apply text_some, G]. cbn [stray]. right. split; auto.
  - destruct G as (G & _ & P & _). apply first_app in S; [|apply text_some, G]. pose proof (IHe G S) as X.
    destruct (bare e && names_fse (tree e)) eqn:B; [|cbn [stray]; right; rewrite P; split; auto].
    exfalso. apply andb_prop in B. destruct B as [B F]. destruct e; try discriminate B.
    + cbn in S, F. apply Z.eqb_eq in F. rewrite F in S. kws S; discriminate.
    + cbn in S, G. destruct G as [_ G]. destruct ts; [contradiction|]. cbn in S. rewrite G in S. kws S; discriminate.
    + cbn in S, G. destruct G as [G _]. rewrite G in S. kws S; discriminate.
  - destruct G as (G & _). apply first_app in S; [|apply text_some, G]. cbn [stray]. right. split; [reflexivity|]. right. split; auto.
  - destruct G as (G1 & _ & n & R & _). apply first_app in S; [|apply text_some, G1]. cbn [stray]. right. split; [exact (rank_leaf _ _ R)|auto].
Qed.

Lemma accepted_readable {LT : Lits} sc e d v off ws off' : grouped e -> optimize (expandp (tree e) d) = Ok v -> ecode sc off v ws off' -> readable e.
Proof.
  intros G O C. split; [exact G|]. intro S. exact (stray_code _ _ _ _ _ C (stray_optimize _ _ O (stray_expand _ d (stray_tree _ G S)))).
Qed.
