(** * DetProofs: a script does one thing *)

From Coq Require Import ZArith List Lia Bool.
From Verif Require Import Base BaseFacts TokenModel ExprModel ParseSpec FoldSpec FoldProperties RunSpec UseProofs.
Import ListNotations.
Open Scope Z_scope.

Ltac same_some := repeat match goal with
  | A : ?x = Some ?a, B : ?x = Some ?b |- _ => first [constr_eq a b; clear B | rewrite A in B; injection B as B; try subst]
  end.

Lemma order_objects a b c : a <> b -> order (VObj a) (VObj b) = Some c -> False.
Proof. intros N H. cbn in H. destruct (Z.eqb_spec a b); [contradiction|discriminate]. Qed.

Lemma binop_one ty a b v v' : binop ty a b v -> binop ty a b v' -> v' = v.
Proof.
  intros H H'. remember ty as ty' eqn:T in H'.
  destruct H; inversion H'; subst; try discriminate; same_some; try reflexivity; try congruence;
    try (match goal with A : ?a <> ?b, B : order (VObj ?a) (VObj ?b) = Some _ |- _ => destruct (order_objects _ _ _ A B) end);
    match goal with A : quotient _ _ ?q, B : quotient _ _ ?q' |- _ => rewrite (quotient_fun _ _ _ _ A B); reflexivity end.
Qed.
Lemma unop_one ty a v v' : unop ty a v -> unop ty a v' -> v' = v.
Proof.
  intros H H'. remember ty as ty' eqn:T in H'. destruct H; inversion H'; subst; try discriminate; same_some; reflexivity.
Qed.
Lemma incdec_one ty a v r v' r' : incdec ty a v r -> incdec ty a v' r' -> v' = v /\ r' = r.
Proof.
  unfold incdec. intros H H'.
  destruct H as [(T & H & Q)|[(T & H & Q)|[(T & H & Q)|(T & H & Q)]]], H' as [(T' & H' & Q')|[(T' & H' & Q')|[(T' & H' & Q')|(T' & H' & Q')]]];
    try (rewrite T in T'; discriminate T'); pose proof (binop_one _ _ _ _ _ H H') as ->; split; try reflexivity; try congruence; exact (binop_one _ _ _ _ _ Q Q').
Qed.
(** The tokens that have such a meaning. *)
Definition binary_type (ty : Z) : Prop := In ty [TK_PLUS; TK_MINUS; TK_MULTIPLY; TK_DIVIDE; TK_MODULO; TK_LT; TK_GT; TK_LE; TK_GE; TK_EQ; TK_NE; TK_SAME; TK_AND; TK_OR].
Lemma binop_type ty a b v : binop ty a b v -> binary_type ty.
Proof. intros []; unfold binary_type; cbn; tauto. Qed.
Lemma unop_type ty a v : unop ty a v -> In ty [TK_MINUS; TK_NOT].
Proof. intros []; cbn; tauto. Qed.
Lemma incdec_type ty a v r : incdec ty a v r -> In ty [TK_INCREMENT; TK_DECREMENT; TK_POSTINC; TK_POSTDEC].
Proof. unfold incdec. cbn. intuition. Qed.

Section Det.
Context {HS : Hosts}.
Variable funs : Z -> option fundef.
Variable lim mf : Z.
Hypothesis Hone : forall id vs m v m' v2 m2, hosts id vs m v m' -> hosts id vs m v2 m2 -> v2 = v /\ m2 = m'.
Hypothesis Hown : forall id vs m v m', hosts id vs m v m' -> funs id = None.

Lemma ev_null E h m v m' : ev funs lim mf E h m ANull v m' -> False.
Proof. intro H. inversion H. Qed.

Ltac clash := exfalso; solve [
  match goal with A : ev _ _ _ _ _ _ ANull _ _ |- _ => exact (ev_null _ _ _ _ _ A) end
| match goal with A : tk_type ?t = ?a, B : tk_type ?t = ?b |- _ => rewrite A in B; discriminate B end
| match goal with A : tk_type ?t = ?a, B : unop (tk_type ?t) _ _ |- _ => apply unop_type in B; rewrite A in B; cbn in B; intuition discriminate end
| match goal with A : tk_type ?t = ?a, B : binop (tk_type ?t) _ _ _ |- _ => apply binop_type in B; rewrite A in B; cbn in B; intuition discriminate end
| match goal with A : tk_type ?t = ?a, B : incdec (tk_type ?t) _ _ _ |- _ => apply incdec_type in B; rewrite A in B; cbn in B; intuition discriminate end
| match goal with A : unop ?t _ _, B : incdec ?t _ _ _ |- _ => apply incdec_type in B; apply unop_type in A; cbn in A, B; unfold TK_MINUS, TK_NOT, TK_INCREMENT, TK_DECREMENT, TK_POSTINC, TK_POSTDEC in *; lia end ].

Ltac vals := repeat match goal with
  | A : VObj _ = VObj _ |- _ => injection A as A; try subst
  | A : VFun _ = VFun _ |- _ => injection A as A; try subst
  | A : oget ?k ?l = VFun ?a, B : oget ?k ?l = VFun ?b |- _ => first [constr_eq a b; clear B | rewrite A in B]
  | A : Returned _ = Returned _ |- _ => injection A as A; try subst
  end.
Ltac uni := repeat (progress (vals; same_some; match goal with
  | IH : forall v2 m2, ev _ _ _ ?E ?h ?m ?a v2 m2 -> _, X : ev _ _ _ ?E ?h ?m ?a _ _ |- _ => destruct (IH _ _ X) as [? ?]; clear X; try subst
  | IH : forall v2 m2, evs _ _ _ ?E ?h ?m ?a v2 m2 -> _, X : evs _ _ _ ?E ?h ?m ?a _ _ |- _ => destruct (IH _ _ X) as [? ?]; clear X; try subst
  | IH : forall v2 m2, ex _ _ _ ?E ?h ?m ?a v2 m2 -> _, X : ex _ _ _ ?E ?h ?m ?a _ _ |- _ => destruct (IH _ _ X) as [? ?]; clear X; try subst
  | IH : forall v2 m2, exs _ _ _ ?E ?h ?m ?a v2 m2 -> _, X : exs _ _ _ ?E ?h ?m ?a _ _ |- _ => destruct (IH _ _ X) as [? ?]; clear X; try subst
  | IH : forall v2 m2, loops _ _ _ ?E ?h ?m ?a ?s ?i v2 m2 -> _, X : loops _ _ _ ?E ?h ?m ?a ?s ?i _ _ |- _ => destruct (IH _ _ X) as [? ?]; clear X; try subst
  | A : unop ?t ?a _, B : unop ?t ?a _ |- _ => pose proof (unop_one _ _ _ _ A B); clear B; try subst
  | A : binop ?t ?a ?b _, B : binop ?t ?a ?b _ |- _ => pose proof (binop_one _ _ _ _ _ A B); clear B; try subst
  | A : incdec ?t ?a _ _, B : incdec ?t ?a _ _ |- _ => destruct (incdec_one _ _ _ _ _ _ A B); clear B; try subst
  | A : hosts ?i ?x ?m _ _, B : hosts ?i ?x ?m _ _ |- _ => destruct (Hone _ _ _ _ _ _ _ A B); clear B; try subst
  | A : hosts ?i ?x ?m _ _, B : funs ?i = Some _ |- _ => rewrite (Hown _ _ _ _ _ A) in B; discriminate B
  end)).
Ltac done_ := vals; same_some; try (split; [reflexivity|reflexivity]); try congruence;
  try (match goal with A : _ /\ _ \/ _ = Returned _, B : _ /\ _ \/ _ = Returned _ |- _ =>
    destruct A as [(? & ? & ?)|?], B as [(? & ? & ?)|?]; subst; vals; try discriminate; split; congruence end).

Lemma meaning_one :
  (forall E h m n v m', ev funs lim mf E h m n v m' -> forall v2 m2, ev funs lim mf E h m n v2 m2 -> v2 = v /\ m2 = m') /\
  (forall E h m n v m', evs funs lim mf E h m n v m' -> forall v2 m2, evs funs lim mf E h m n v2 m2 -> v2 = v /\ m2 = m') /\
  (forall E h m n v m', ex funs lim mf E h m n v m' -> forall v2 m2, ex funs lim mf E h m n v2 m2 -> v2 = v /\ m2 = m') /\
  (forall E h m n v m', exs funs lim mf E h m n v m' -> forall v2 m2, exs funs lim mf E h m n v2 m2 -> v2 = v /\ m2 = m') /\
  (forall E h m e s i v m', loops funs lim mf E h m e s i v m' -> forall v2 m2, loops funs lim mf E h m e s i v2 m2 -> v2 = v /\ m2 = m').
Proof.
  apply (run_mi HS funs lim mf).
  all: intros; match goal with X : ev _ _ _ _ _ _ _ ?v ?m |- ?v = _ /\ ?m = _ => inversion X; subst | X : evs _ _ _ _ _ _ _ ?v ?m |- ?v = _ /\ ?m = _ => inversion X; subst
    | X : ex _ _ _ _ _ _ _ ?v ?m |- ?v = _ /\ ?m = _ => inversion X; subst | X : exs _ _ _ _ _ _ _ ?v ?m |- ?v = _ /\ ?m = _ => inversion X; subst
    | X : loops _ _ _ _ _ _ _ _ _ ?v ?m |- ?v = _ /\ ?m = _ => inversion X; subst end; try clash; try solve [uni; done_].
Qed.
End Det.

(** More functions do no harm. *)
Section More.
Context {HS : Hosts}.
Variable funs funs' : Z -> option fundef.
Variable lim mf : Z.
Hypothesis Incl : forall id fd, funs id = Some fd -> funs' id = Some fd.
Lemma usable_more id : usable funs id -> usable funs' id.
Proof. intros (fd & A & B). exists fd. auto. Qed.
Lemma meaning_more :
  (forall E h m n v m', ev funs lim mf E h m n v m' -> ev funs' lim mf E h m n v m') /\
  (forall E h m n v m', evs funs lim mf E h m n v m' -> evs funs' lim mf E h m n v m') /\
  (forall E h m n v m', ex funs lim mf E h m n v m' -> ex funs' lim mf E h m n v m') /\
  (forall E h m n v m', exs funs lim mf E h m n v m' -> exs funs' lim mf E h m n v m') /\
  (forall E h m e s i v m', loops funs lim mf E h m e s i v m' -> loops funs' lim mf E h m e s i v m').
Proof.
  apply (run_mi HS funs lim mf); intros; try solve [econstructor; eauto using usable_more].
Qed.
End More.
