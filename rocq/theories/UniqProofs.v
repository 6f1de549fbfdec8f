(** * UniqProofs: a text has one reading *)

From Coq Require Import ZArith List Lia Bool Arith.
From Verif Require Import Base BaseFacts TokenModel ExprModel ParseSpec ParseProofs RunSpec UniqSpec.
Import ListNotations.
Open Scope Z_scope.

Definition ewell (e : expr) : Prop := grouped e /\ forall ts t, In (ts, t) (lits e) -> exists funs E, literal funs E ts t.
Definition awell (a : args) : Prop := args_grouped a /\ forall ts t, In (ts, t) (args_lits a) -> exists funs E, literal funs E ts t.
Definition swell (s : stmt) : Prop := written s /\ exists funs E, defined funs E s.
Definition sswell (l : stmts) : Prop := swritten l /\ exists funs E, sdefined funs E l.

Lemma rank_fun2 t n m : rank t n -> rank t m -> n = m.
Proof. apply rank_fun. Qed.

(** ** Infix operators *)

Fixpoint flat (e : expr) : expr * list (token * expr) :=
  match e with
  | EInfix a o b => (fst (flat a), snd (flat a) ++ (o, fst (flat b)) :: snd (flat b))
  | _ => (e, [])
  end.
Definition ltext (l : list (token * expr)) : list token := flat_map (fun p => fst p :: text (snd p)) l.
Lemma ltext_app a b : ltext (a ++ b) = ltext a ++ ltext b.
Proof. apply flat_map_app. Qed.

Lemma flat_text e : text e = text (fst (flat e)) ++ ltext (snd (flat e)).
Proof.
  induction e; cbn [flat fst snd]; try (cbn [ltext flat_map]; rewrite app_nil_r; reflexivity).
  cbn [text]. rewrite IHe1, IHe2, ltext_app. cbn [ltext flat_map fst snd app]. rewrite <- !app_assoc. cbn [app]. reflexivity.
Qed.

Lemma flat_norm e : flat (norm e) = (norm (fst (flat e)), map (fun p => (fst p, norm (snd p))) (snd (flat e))).
Proof.
  induction e; cbn [flat norm fst snd map]; try reflexivity. rewrite IHe1, IHe2. cbn [fst snd]. rewrite map_app. reflexivity.
Qed.

Definition oper (e : expr) : Prop := ewell e /\ ~ is_infix e.
Lemma flat_oper e : ewell e -> oper (fst (flat e)) /\ Forall (fun p => (exists n, rank (tk_type (fst p)) n) /\ oper (snd p)) (snd (flat e)).
Proof.
  induction e; cbn [flat fst snd]; intro W; try (split; [split; [exact W|exact (fun f => f)]|constructor]).
  destruct W as [(G1 & G2 & n & R & _) L]. cbn [lits] in L.
  destruct IHe1 as [A1 B1]. { split; [exact G1|]. intros; apply L, in_or_app; auto. }
  destruct IHe2 as [A2 B2]. { split; [exact G2|]. intros; apply L, in_or_app; auto. }
  split; [exact A1|]. apply Forall_app. split; [exact B1|]. constructor; [|exact B2]. cbn [fst snd]. eauto.
Qed.

(** All operators of [e] outside parentheses rank at most [n]. *)
Lemma flat_rank e : grouped e -> forall n, (forall m, infix_at e m -> (m <= n)%nat) -> Forall (fun p => exists m, rank (tk_type (fst p)) m /\ (m <= n)%nat) (snd (flat e)).
Proof.
  induction e; cbn [flat snd]; intros G lim H; try constructor.
  destruct G as (G1 & G2 & k & R & La & Lb). cbn [infix_at] in H. pose proof (H _ R) as Hk. apply Forall_app. split; [|constructor].
  - apply IHe1; [exact G1|]. intros m I. apply La in I. lia.
  - exists k. auto.
  - apply IHe2; [exact G2|]. intros m I. apply Lb in I. lia.
Qed.

Lemma split_same {A} (l l' : list A) x x' m m' : l ++ x :: m = l' ++ x' :: m' ->
  (l = l' /\ x = x' /\ m = m') \/ (In x' m /\ In x l') \/ (In x m' /\ In x' l).
Proof.
  revert l'. induction l as [|a l IH]; intros [|b l'] H; cbn [app] in H.
  - injection H as -> ->. auto.
  - injection H as -> ->. right. left. split; [apply in_or_app; right; left; reflexivity|left; reflexivity].
  - injection H as -> <-. right. right. split; [apply in_or_app; right; left; reflexivity|left; reflexivity].
  - injection H as -> H. destruct (IH _ H) as [(-> & -> & ->)|[[A1 A2]|[A1 A2]]]; [auto|right; left; split; [exact A1|right; exact A2]|right; right; split; [exact A1|right; exact A2]].
Qed.

Lemma flat_one e : snd (flat e) = [] -> fst (flat e) = e.
Proof. destruct e; cbn [flat fst snd]; auto. intro H. destruct (snd (flat e1)); discriminate. Qed.

Lemma regroup e : forall e', grouped e -> grouped e' -> flat e = flat e' -> e = e'.
Proof.
  assert (forall e e', ~ is_infix e -> flat e = flat e' -> e = e') as Leaf.
  { intros x y N H. assert (flat x = (x, [])) as Q by (destruct x; try reflexivity; destruct N; exact I). rewrite Q in H.
    symmetry. rewrite <- (flat_one y); rewrite <- H; reflexivity. }
  induction e; intros e' G G' H; try (apply Leaf; [exact (fun f => f)|exact H]).
  destruct e'; try (symmetry; apply Leaf; [exact (fun f => f)|symmetry; exact H]).
  destruct G as (G1 & G2 & n & R & La & Lb), G' as (G1' & G2' & n' & R' & La' & Lb').
  cbn [flat] in H. injection H as Hf Hs.
  pose proof (flat_rank _ G1 _ La) as Ra. pose proof (flat_rank _ G1' _ La') as Ra'.
  assert (forall x n, grouped x -> (forall m, infix_at x m -> (m < n)%nat) -> Forall (fun p => exists m, rank (tk_type (fst p)) m /\ (m < n)%nat) (snd (flat x))) as Below.
  { clear. intros x n G L. destruct n as [|n].
    - assert (~ is_infix x) as N. { destruct x; try exact (fun f => f). destruct G as (_ & _ & k & R & _). specialize (L _ R). lia. }
      destruct x; try constructor. destruct N. exact I.
    - eapply Forall_impl; [|apply (flat_rank x G n)]. { intros p (m & A & B). exists m. split; [exact A|lia]. } intros m I. apply L in I. lia. }
  pose proof (Below _ _ G2 Lb) as Rb. pose proof (Below _ _ G2' Lb') as Rb'. clear Below.
  rewrite Forall_forall in Ra, Ra', Rb, Rb'.
  apply split_same in Hs. destruct Hs as [(Ha & Hx & Hb)|[[I1 I2]|[I1 I2]]].
  - injection Hx as -> Hx. f_equal.
    + apply IHe1; auto. rewrite (surjective_pairing (flat e1)), (surjective_pairing (flat e'1)). congruence.
    + apply IHe2; auto. rewrite (surjective_pairing (flat e2)), (surjective_pairing (flat e'2)). congruence.
  - exfalso. apply Rb in I1. apply Ra' in I2. cbn [fst] in *. destruct I1 as (m & A & B), I2 as (m' & A' & B').
    rewrite (rank_fun2 _ _ _ A R') in B. rewrite (rank_fun2 _ _ _ A' R) in B'. lia.
  - exfalso. apply Rb' in I1. apply Ra in I2. cbn [fst] in *. destruct I1 as (m & A & B), I2 as (m' & A' & B').
    rewrite (rank_fun2 _ _ _ A R) in B. rewrite (rank_fun2 _ _ _ A' R') in B'. lia.
Qed.

Lemma norm_grouped e : grouped e -> grouped (norm e)
with args_norm_grouped a : args_grouped a -> args_grouped (args_norm a).
Proof.
  - assert (forall e, (is_infix (norm e) <-> is_infix e) /\ (is_pre (norm e) <-> is_pre e) /\ forall m, infix_at (norm e) m <-> infix_at e m) as K by (intros []; cbn; tauto).
    assert (forall e, tight e -> tight (norm e)) as Kt. { intros x [A B]. destruct (K x) as (P & Q & _). split; tauto. }
    destruct e; cbn [grouped norm]; intro G.
    + exact G.
    + split; [reflexivity|apply G].
    + destruct G as (A & B & C). auto.
    + destruct G as (A & B & C). destruct (K e) as (P & _). repeat split; auto. tauto.
    + destruct G as (A & B & C). auto.
    + destruct G as (A & B & C & D & F). auto 10.
    + destruct G as (A & B & C). auto.
    + destruct G as (A & B & C & D & F). auto 10.
    + destruct G as (A & B & C & D & F & H & J). auto 10.
    + destruct G as (A & B & n & R & La & Lb). repeat split; auto. exists n. split; [exact R|]. destruct (K e1) as (_ & _ & P), (K e2) as (_ & _ & Q). split; intros m I; [apply P in I|apply Q in I]; auto.
  - destruct a; cbn [args_grouped args_norm]; intro G; auto. destruct G as (A & B & C). auto.
Qed.

(** ** Postfix operators *)

Inductive post :=
| PInc (o : token)
| PIdx (o : token) (i : expr) (c : token)
| PFld (d n : token)
| PCall (o : token) (a : args) (c : token)
| PMeth (d n o : token) (a : args) (c : token).
Definition put (e : expr) (p : post) : expr :=
  match p with
  | PInc o => EIncDec e o
  | PIdx o i c => EIndex e o i c
  | PFld d n => EField e d n
  | PCall o a c => ECall e o a c
  | PMeth d n o a c => EMethod e d n o a c
  end.
Definition build (e : expr) (l : list post) : expr := fold_left put l e.
Definition posttext (p : post) : list token :=
  match p with
  | PInc o => [o]
  | PIdx o i c => o :: text i ++ [c]
  | PFld d n => [d; n]
  | PCall o a c => o :: args_text a ++ [c]
  | PMeth d n o a c => d :: n :: o :: args_text a ++ [c]
  end.
Definition postnorm (p : post) : post :=
  match p with
  | PInc o => PInc o
  | PIdx o i c => PIdx o (norm i) c
  | PFld d n => PFld d n
  | PCall o a c => PCall o (args_norm a) c
  | PMeth d n o a c => PMeth d n o (args_norm a) c
  end.
Definition postwell (p : post) : Prop :=
  match p with
  | PInc o => In (tk_type o) [TK_INCREMENT; TK_DECREMENT]
  | PIdx o i c => tk_type o = TK_BRACKET_OPEN /\ ewell i /\ tk_type c = TK_BRACKET_CLOSE
  | PFld d n => tk_type d = TK_DOT
  | PCall o a c => tk_type o = TK_PAREN_OPEN /\ awell a /\ tk_type c = TK_PAREN_CLOSE
  | PMeth d n o a c => tk_type d = TK_INDIRECTION /\ awell a /\ tk_type c = TK_PAREN_CLOSE
  end.
Definition prim (e : expr) : Prop := match e with EAtom _ | EFunc _ _ | EGroup _ _ _ => True | _ => False end.

Lemma build_text l : forall e, text (build e l) = text e ++ flat_map posttext l.
Proof.
  induction l as [|p l IH]; intro e; [symmetry; apply app_nil_r|]. unfold build in *. cbn [fold_left flat_map]. rewrite IH, app_assoc. f_equal.
  destruct p; cbn [put text posttext]; reflexivity.
Qed.
Lemma build_norm l : forall e, norm (build e l) = build (norm e) (map postnorm l).
Proof.
  induction l as [|p l IH]; intro e; [reflexivity|]. unfold build in *. cbn [fold_left map]. rewrite IH. destruct p; reflexivity.
Qed.
Lemma build_snoc e l p : put (build e l) p = build e (l ++ [p]).
Proof. unfold build. rewrite fold_left_app. reflexivity. Qed.

Lemma ewell_l (P : expr -> Prop) a l : grouped a -> (forall ts t, In (ts, t) (lits a ++ l) -> exists funs E, literal funs E ts t) -> ewell a.
Proof. intros G L. split; [exact G|]. intros. apply L, in_or_app. auto. Qed.

Lemma peel e : ewell e -> tight e -> exists p l, e = build p l /\ prim p /\ ewell p /\ Forall postwell l.
Proof.
  assert (forall p l q, Forall postwell l -> postwell q -> Forall postwell (l ++ [q]) /\ put (build p l) q = build p (l ++ [q])) as Snoc.
  { intros p l q A B. split; [apply Forall_app; auto|apply build_snoc]. }
  induction e; intros W [Ti Tp]; try (exfalso; first [exact (Ti I)|exact (Tp I)]).
  1-3: eexists _, []; split; [reflexivity|]; split; [exact I|]; split; [exact W|constructor].
  - destruct W as [(G & T & O) L]. destruct IHe as (p & l & -> & P & Wp & F); [split; auto|exact T|].
    destruct (Snoc p l (PInc o) F O) as [A B]. exists p, (l ++ [PInc o]). rewrite <- B. auto.
  - destruct W as [(G & T & O & Gi & C) L]. cbn [lits] in L. destruct IHe1 as (p & l & -> & P & Wp & F); [split; [exact G|]; intros; apply L, in_or_app; auto|exact T|].
    destruct (Snoc p l (PIdx o e2 c) F) as [A B]. { repeat split; auto. intros; apply L, in_or_app; auto. } exists p, (l ++ [PIdx o e2 c]). rewrite <- B. auto.
  - destruct W as [(G & T & O & N) L]. destruct IHe as (p & l & -> & P & Wp & F); [split; auto|exact T|].
    destruct (Snoc p l (PFld d n) F O) as [A B]. exists p, (l ++ [PFld d n]). rewrite <- B. auto.
  - destruct W as [(G & T & O & Ga & C) L]. cbn [lits] in L. destruct IHe as (p & l & -> & P & Wp & F); [split; [exact G|]; intros; apply L, in_or_app; auto|exact T|].
    destruct (Snoc p l (PCall o a c) F) as [A B]. { repeat split; auto. intros; apply L, in_or_app; auto. } exists p, (l ++ [PCall o a c]). rewrite <- B. auto.
  - destruct W as [(G & T & D & N & O & Ga & C) L]. cbn [lits] in L. destruct IHe as (p & l & -> & P & Wp & F); [split; [exact G|]; intros; apply L, in_or_app; auto|exact T|].
    destruct (Snoc p l (PMeth d n o a c) F) as [A B]. { repeat split; auto. intros; apply L, in_or_app; auto. } exists p, (l ++ [PMeth d n o a c]). rewrite <- B. auto.
Qed.

(** ** First tokens *)

Definition follow (r : list token) : Prop := r = [] \/ starts ender r.
Definition stop (r : list token) : Prop := r = [] \/ starts (fun t => ender t \/ exists n, rank t n) r.
Definition noelse (r : list token) : Prop := ~ starts (eq TK_ELSE) r.

Ltac cases H := unfold ender, prefix_op, closer, keyword in H; cbn [In] in H; repeat (destruct H as [H|H]); [..|try destruct H].
Ltac ne := repeat match goal with
  | H : ?a = tk_type _, H2 : ?b = tk_type _ |- _ => rewrite <- H2 in H; discriminate H
  | H : ?a = ?b |- _ => discriminate H end.

Lemma starts_app (p : Z -> Prop) l r : l <> [] -> starts p (l ++ r) <-> starts p l.
Proof. destruct l; [congruence|]. intros _. cbn. tauto. Qed.
Lemma text_more e : grouped e -> text e <> [].
Proof.
  induction e; cbn [grouped text]; intro G; try discriminate; try (intro Q; apply app_eq_nil in Q; destruct Q; try discriminate; intuition).
  intros ->. apply G.
Qed.

(** What an expression begins with. *)
Definition begins (t : Z) : Prop := operand t \/ prefix_op t \/ t = TK_PAREN_OPEN \/ t = TK_FUNCTION.
Lemma text_begins e : grouped e -> starts begins (text e).
Proof.
  unfold begins. induction e; cbn [grouped text]; intro G.
  - left. exact G.
  - destruct G as [_ G]. destruct ts; [contradiction|]. cbn. auto.
  - cbn. destruct G. auto.
  - cbn. destruct G. auto.
  - destruct G as [G _]. apply starts_app; [apply text_more, G|auto].
  - destruct G as [G _]. apply starts_app; [apply text_more, G|auto].
  - destruct G as [G _]. apply starts_app; [apply text_more, G|auto].
  - destruct G as [G _]. apply starts_app; [apply text_more, G|auto].
  - destruct G as [G _]. apply starts_app; [apply text_more, G|auto].
  - destruct G as [G _]. apply starts_app; [apply text_more, G|auto].
Qed.
Lemma begins_ender t : begins t -> ~ ender t.
Proof.
  intros [[A _]|[P|[->| ->]]] E; [tauto| | |].
  - unfold prefix_op in P. cbn in P. repeat (destruct P as [<-|P]; [cases E; discriminate|]). destruct P.
  - cases E; discriminate.
  - cases E; discriminate.
Qed.
Lemma begin_follow e r : grouped e -> follow (text e ++ r) -> False.
Proof.
  intros G [Q|S]; [apply app_eq_nil in Q; exact (text_more _ G (proj1 Q))|]. pose proof (text_begins _ G) as B.
  destruct (text e) as [|t l]; [destruct B|]. exact (begins_ender _ B S).
Qed.

Definition post_token (t : Z) : Prop := In t [TK_INCREMENT; TK_DECREMENT; TK_BRACKET_OPEN; TK_DOT; TK_PAREN_OPEN; TK_INDIRECTION].
Lemma post_starts p r : postwell p -> starts post_token (posttext p ++ r).
Proof.
  unfold post_token. destruct p; cbn; intro W; try (destruct W as (-> & _); tauto); [|rewrite W; tauto]. cbn in W. intuition.
Qed.
Lemma rank_cases t n : rank t n -> In t (concat tiers).
Proof. intros (l & A & B). apply in_concat. exists l. split; [exact (nth_error_In _ _ A)|exact B]. Qed.
Lemma post_stop p r : postwell p -> stop (posttext p ++ r) -> False.
Proof.
  intros W S. pose proof (post_starts p r W) as P. destruct S as [Q|S]; [rewrite Q in P; exact P|].
  destruct (posttext p ++ r) as [|t l]; [exact P|]. cbn in P, S. unfold post_token in P. cbn [In] in P.
  destruct S as [S|[n S]].
  - repeat (destruct P as [P|P]; [rewrite <- P in S; cases S; discriminate|]). exact P.
  - apply rank_cases in S. cbn [concat tiers app In] in S.
    repeat (destruct P as [P|P]; [rewrite <- P in S; repeat (destruct S as [S|S]; [discriminate S|]); exact S|]). exact P.
Qed.
Lemma posts_noelse l r : Forall postwell l -> stop r -> noelse (flat_map posttext l ++ r).
Proof.
  intros F S Q. destruct F as [|p l W F]; cbn [flat_map app] in Q.
  - destruct S as [->|S]; [exact Q|]. destruct r as [|t r]; [exact Q|]. cbn in S, Q. rewrite <- Q in S. destruct S as [S|[n S]]; [cases S; discriminate|].
    apply rank_cases in S. cbn [concat tiers app In] in S. repeat (destruct S as [S|S]; [discriminate S|]). exact S.
  - rewrite <- app_assoc in Q. pose proof (post_starts p (flat_map posttext l ++ r) W) as P. destruct (posttext p ++ _) as [|t x]; [exact P|]. cbn in P, Q. rewrite <- Q in P.
    unfold post_token in P. cbn [In] in P. repeat (destruct P as [P|P]; [discriminate P|]). exact P.
Qed.

(** ** Parameters *)

Ltac tkc := exfalso; match goal with A : tk_type ?x = ?a, B : tk_type ?x = ?b |- _ => rewrite A in B; discriminate B end.

Lemma params_same p : forall p' c c' r r', pwritten p -> pwritten p' -> tk_type c = TK_PAREN_CLOSE -> tk_type c' = TK_PAREN_CLOSE ->
  ptext p ++ c :: r = ptext p' ++ c' :: r' -> p = p' /\ c = c' /\ r = r'.
Proof.
  induction p as [|n|n k p IH]; intros [|n'|n' k' p'] c c' r r' W W' C C' H; cbn [ptext app pwritten] in *.
  - injection H as -> ->. auto.
  - injection H as -> H. tkc.
  - injection H as -> H. destruct W' as (W' & _). tkc.
  - injection H as <- H. tkc.
  - injection H as -> -> ->. auto.
  - injection H as -> -> H. destruct W' as (_ & W' & _). tkc.
  - injection H as <- H. destruct W as (W & _). tkc.
  - injection H as -> <- H. destruct W as (_ & W & _). tkc.
  - injection H as -> -> H. destruct W as (_ & _ & W), W' as (_ & _ & W'). destruct (IH _ _ _ _ _ W W' C C' H) as (-> & -> & ->). auto.
Qed.

(** ** Expressions *)

Section Step.
Variable N : nat.
Hypothesis IE : forall e e' r r', (length (text e) < N)%nat -> ewell e -> ewell e' -> follow r -> follow r' ->
  text e ++ r = text e' ++ r' -> norm e = norm e' /\ r = r'.
Hypothesis IS : forall s s' r r', (length (stext s) < N)%nat -> swell s -> swell s' ->
  (open_ended s = true -> noelse r) -> (open_ended s' = true -> noelse r') ->
  stext s ++ r = stext s' ++ r' -> snorm s = snorm s' /\ r = r'.

Lemma follow_ender t r : ender (tk_type t) -> follow (t :: r).
Proof. right. assumption. Qed.
Ltac fol := apply follow_ender; match goal with H : tk_type _ = _ |- _ => rewrite H end; unfold ender; cbn; tauto.

Lemma close_ender t : tk_type t = TK_PAREN_CLOSE -> ender (tk_type t).
Proof. intros ->. unfold ender. cbn. tauto. Qed.
Lemma comma_ender t : tk_type t = TK_COMMA -> ender (tk_type t).
Proof. intros ->. unfold ender. cbn. tauto. Qed.

Lemma awell_arg e c a : awell (Arg e c a) -> ewell e /\ tk_type c = TK_COMMA /\ awell a.
Proof.
  intros [(G & C & Ga) L]. cbn [args_lits] in L. split; [split; [exact G|]|split; [exact C|split; [exact Ga|]]]; intros; apply L, in_or_app; auto.
Qed.

Lemma args_same a : forall a' c c' r r', (length (args_text a) < N)%nat -> awell a -> awell a' -> tk_type c = TK_PAREN_CLOSE -> tk_type c' = TK_PAREN_CLOSE ->
  args_text a ++ c :: r = args_text a' ++ c' :: r' -> args_norm a = args_norm a' /\ c = c' /\ r = r'.
Proof.
  induction a as [|e|e k a IH]; intros a' c c' r r' Ln W W' C C' H.
  - destruct a' as [|e'|e' k' a']; cbn [args_text app] in H.
    + injection H as -> ->. auto.
    + exfalso. apply (begin_follow e' (c' :: r') (proj1 W')). rewrite <- H. apply follow_ender, close_ender, C.
    + apply awell_arg in W'. exfalso. apply (begin_follow e' ((k' :: args_text a') ++ c' :: r') (proj1 (proj1 W'))). rewrite app_assoc, <- H. apply follow_ender, close_ender, C.
  - destruct a' as [|e'|e' k' a']; cbn [args_text app] in H, Ln.
    + exfalso. apply (begin_follow e (c :: r) (proj1 W)). rewrite H. apply follow_ender, close_ender, C'.
    + destruct (IE e e' (c :: r) (c' :: r') Ln) as [Q R]; auto using follow_ender, close_ender; try exact W; try exact W'. cbn [args_norm]. injection R as -> ->. rewrite Q. auto.
    + apply awell_arg in W'. destruct W' as (We & K & Wa). rewrite <- app_assoc in H.
      destruct (IE e e' (c :: r) (k' :: args_text a' ++ c' :: r') Ln) as [Q R]; auto using follow_ender, close_ender, comma_ender; try exact W. injection R as -> R. tkc.
  - apply awell_arg in W. destruct W as (We & K & Wa). cbn [args_text] in Ln, H. rewrite !app_length in Ln. rewrite <- !app_assoc in H. cbn [length app] in Ln, H.
    destruct a' as [|e'|e' k' a']; cbn [args_text app] in H.
    + exfalso. apply (begin_follow e (k :: args_text a ++ c :: r) (proj1 We)). rewrite H. apply follow_ender, close_ender, C'.
    + destruct (IE e e' (k :: args_text a ++ c :: r) (c' :: r')) as [Q R]; auto using follow_ender, close_ender, comma_ender; try exact W'; [lia|]. injection R as -> R. tkc.
    + apply awell_arg in W'. destruct W' as (We' & K' & Wa'). rewrite <- app_assoc in H. cbn [app] in H.
      destruct (IE e e' (k :: args_text a ++ c :: r) (k' :: args_text a' ++ c' :: r')) as [Q R]; auto using follow_ender, close_ender, comma_ender; [lia|]. injection R as -> R.
      destruct (IH a' c c' r r') as (P & -> & ->); auto; [lia|]. cbn [args_norm]. rewrite P, Q. auto.
Qed.

Lemma post_same p p' r r' : (length (posttext p) <= N)%nat -> postwell p -> postwell p' -> posttext p ++ r = posttext p' ++ r' -> postnorm p = postnorm p' /\ r = r'.
Proof.
  intros Ln W W' H.
  assert (forall t t' l l', t :: l = t' :: l' -> tk_type t = tk_type t') as Hd by (intros; congruence).
  destruct p, p'; cbn [posttext app postwell] in *; rewrite <- ?app_assoc in H; cbn [app] in H; pose proof (Hd _ _ _ _ H) as T; clear Hd;
    try solve [exfalso; cbn [In] in W, W'; unfold TK_INCREMENT, TK_DECREMENT, TK_BRACKET_OPEN, TK_DOT, TK_PAREN_OPEN, TK_INDIRECTION in *; lia].
  - injection H as -> ->. auto.
  - destruct W as (_ & W & C), W' as (_ & W' & C'). injection H as -> H. cbn [length] in Ln. rewrite app_length in Ln. cbn [length] in Ln.
    destruct (IE i i0 (c :: r) (c0 :: r')) as [Q R]; auto; [lia|fol|fol|]. injection R as -> ->. cbn [postnorm]. rewrite Q. auto.
  - injection H as -> -> ->. auto.
  - destruct W as (_ & W & C), W' as (_ & W' & C'). injection H as -> H. cbn [length] in Ln. rewrite app_length in Ln. cbn [length] in Ln.
    destruct (args_same a a0 c c0 r r') as (Q & -> & ->); auto; [lia|]. cbn [postnorm]. rewrite Q. auto.
  - destruct W as (_ & W & C), W' as (_ & W' & C'). injection H as -> -> -> H. cbn [length] in Ln. rewrite app_length in Ln. cbn [length] in Ln.
    destruct (args_same a a0 c c0 r r') as (Q & -> & ->); auto; [lia|]. cbn [postnorm]. rewrite Q. auto.
Qed.

Lemma posts_same l : forall l' r r', (length (flat_map posttext l) <= N)%nat -> Forall postwell l -> Forall postwell l' -> stop r -> stop r' ->
  flat_map posttext l ++ r = flat_map posttext l' ++ r' -> map postnorm l = map postnorm l' /\ r = r'.
Proof.
  induction l as [|p l IH]; intros [|p' l'] r r' Ln F F' S S' H; cbn [flat_map app map] in *; rewrite <- ?app_assoc in H.
  - auto.
  - exfalso. inversion F'; subst. eapply post_stop; eauto.
  - exfalso. inversion F; subst. eapply post_stop with (p := p); eauto.
  - inversion F; inversion F'; subst. rewrite app_length in Ln. destruct (post_same p p' _ _ ltac:(lia) ltac:(assumption) ltac:(assumption) H) as [Q R].
    destruct (IH l' r r' ltac:(lia) ltac:(assumption) ltac:(assumption) S S' R) as [P ->]. rewrite P, Q. auto.
Qed.

Lemma literal_parts funs E ts t : literal funs E ts t -> exists f o p c s, ts = [f; o] ++ ptext p ++ [c] ++ stext s /\ tk_type f = TK_FUNCTION /\ tk_type o = TK_PAREN_OPEN /\
  pwritten p /\ tk_type c = TK_PAREN_CLOSE /\ swell s.
Proof. intro H. inversion H; subst. exists f, o, p, c, s. repeat split; auto. eauto. Qed.

Lemma closer_ender t : closer t -> ender t.
Proof. unfold closer, ender. cbn. intuition. Qed.

Lemma prim_same e e' r r' : (length (text e) <= N)%nat -> ewell e -> ewell e' -> prim e -> prim e' -> noelse r -> noelse r' ->
  text e ++ r = text e' ++ r' -> norm e = norm e' /\ r = r'.
Proof.
  intros Ln W W' P P' Nr Nr' H.
  destruct e; try destruct P; destruct e'; try destruct P'; cbn [text] in H.
  - injection H as -> ->. auto.
  - exfalso. destruct W as [(_ & _ & _ & O) _]. destruct W' as [(_ & G) _]. destruct ts; [exact G|]. injection H as -> _. contradiction.
  - exfalso. destruct W as [(_ & _ & O & _) _]. destruct W' as [(G & _) _]. injection H as -> _. contradiction.
  - exfalso. destruct W' as [(_ & _ & _ & O) _]. destruct W as [(_ & G) _]. destruct ts; [exact G|]. injection H as -> _. contradiction.
  - destruct W as [_ L], W' as [_ L']. destruct (L _ _ (or_introl eq_refl)) as (funs & E & K). destruct (L' _ _ (or_introl eq_refl)) as (funs' & E' & K').
    apply literal_parts in K, K'. destruct K as (f & o & p & c & s & -> & Tf & To & Wp & Tc & Ws). destruct K' as (f' & o' & p' & c' & s' & -> & Tf' & To' & Wp' & Tc' & Ws').
    cbn [text] in Ln. rewrite !app_length in Ln. cbn [length] in Ln. rewrite <- !app_assoc in H. cbn [app] in H. injection H as -> -> H.
    destruct (params_same _ _ _ _ _ _ Wp Wp' Tc Tc' H) as (-> & -> & R). destruct (IS s s' r r' ltac:(lia) Ws Ws' ltac:(auto) ltac:(auto) R) as [Q ->].
    apply app_inv_tail in R. rewrite R. auto.
  - exfalso. destruct W as [(_ & G) _], W' as [(G' & _) _]. destruct ts; [exact G|]. injection H as -> _. rewrite G in G'. discriminate G'.
  - exfalso. destruct W' as [(_ & _ & O & _) _]. destruct W as [(G & _) _]. injection H as -> _. contradiction.
  - exfalso. destruct W' as [(_ & G) _], W as [(G' & _) _]. destruct ts; [exact G|]. injection H as -> _. rewrite G in G'. discriminate G'.
  - destruct W as [(To & G & Tc) L], W' as [(To' & G' & Tc') L']. cbn [text app length] in Ln. rewrite app_length in Ln. cbn [length] in Ln. rewrite <- !app_assoc in H. cbn [app] in H.
    injection H as -> H. destruct (IE e e' (c :: r) (c0 :: r')) as [Q R]; auto using follow_ender, closer_ender; [lia|split; auto..|]. injection R as -> ->. cbn [norm]. rewrite Q. auto.
Qed.

Lemma stop_noelse r : stop r -> noelse r.
Proof. apply (posts_noelse [] r). constructor. Qed.

Lemma prim_starts e r : ewell e -> prim e -> ~ starts prefix_op (text e ++ r).
Proof.
  intros [G _] P S. destruct e; try destruct P; cbn [text grouped] in *.
  - destruct G as (_ & G & _). contradiction.
  - destruct G as [_ G]. destruct ts as [|x ts]; [exact G|]. cbn in S. rewrite G in S. cases S; discriminate.
  - destruct G as [G _]. cbn in S. rewrite G in S. cases S; discriminate.
Qed.

Lemma oper_same e : forall e' r r', (length (text e) <= N)%nat -> oper e -> oper e' -> stop r -> stop r' ->
  text e ++ r = text e' ++ r' -> norm e = norm e' /\ r = r'.
Proof.
  assert (forall e, is_pre e \/ ~ is_pre e) as Pre by (intros []; cbn; auto).
  assert (forall e e' r r', (length (text e) <= N)%nat -> ewell e -> tight e -> ewell e' -> tight e' -> stop r -> stop r' -> text e ++ r = text e' ++ r' -> norm e = norm e' /\ r = r') as Tight.
  { clear Pre. intros y e' r r' Ln W T W' T' S S' H. destruct (peel y W T) as (p & l & -> & P & Wp & F). destruct (peel e' W' T') as (p' & l' & -> & P' & Wp' & F').
    rewrite !build_text, <- ?app_assoc in H. rewrite build_text, app_length in Ln.
    destruct (prim_same p p' _ _ ltac:(lia) Wp Wp' P P' (posts_noelse _ _ F S) (posts_noelse _ _ F' S') H) as [Q R].
    destruct (posts_same l l' r r' ltac:(lia) F F' S S' R) as [Q2 ->]. rewrite !build_norm, Q, Q2. auto. }
  assert (forall e r, ewell e -> tight e -> ~ starts prefix_op (text e ++ r)) as Nop.
  { intros x r W T. destruct (peel x W T) as (p & l & -> & P & Wp & F). rewrite build_text, <- app_assoc. apply prim_starts; assumption. }
  induction e; intros e' r r' Ln [W Ni] [W' Ni'] S S' H; try (destruct Ni; exact I).
  4: { destruct (Pre e') as [P'|P'].
    - destruct e'; try destruct P'. destruct W as [(G1 & G2 & G3) L], W' as [(G1' & G2' & G3') L']. cbn [text app length] in Ln, H. injection H as -> H.
      destruct (IHe e' r r') as [Q ->]; auto; [lia|split; [split|]; auto..|]. cbn [norm]. rewrite Q. auto.
    - exfalso. apply (Nop e' r' W' (conj Ni' P')). rewrite <- H. cbn. apply W. }
  all: destruct (Pre e') as [P'|P']; [destruct e'; try destruct P'; exfalso; eapply Nop; [exact W|split; [exact Ni|exact (fun f => f)]|rewrite H; cbn; apply W']|].
  all: apply Tight; auto; split; auto.
Qed.

Lemma list_same l : forall l' r r', (length (ltext l) <= N)%nat ->
  Forall (fun p => (exists n, rank (tk_type (fst p)) n) /\ oper (snd p)) l -> Forall (fun p => (exists n, rank (tk_type (fst p)) n) /\ oper (snd p)) l' ->
  follow r -> follow r' -> ltext l ++ r = ltext l' ++ r' -> map (fun p => (fst p, norm (snd p))) l = map (fun p => (fst p, norm (snd p))) l' /\ r = r'.
Proof.
  assert (forall t n, rank t n -> ender t -> False) as Not.
  { intros t n R E. apply rank_cases in R. cbn [concat tiers app In] in R. repeat (destruct R as [<-|R]; [cases E; discriminate|]). exact R. }
  assert (forall l r, Forall (fun p => (exists n, rank (tk_type (fst p)) n) /\ oper (snd p)) l -> follow r -> stop (ltext l ++ r)) as St.
  { intros l0 r F S. destruct F as [|[o x] l0 [R _] F]; [destruct S as [->|S]; [left; reflexivity|right; destruct r; [exact S|left; exact S]]|]. right. cbn. right. exact R. }
  induction l as [|[o x] l IH]; intros [|[o' x'] l'] r r' Ln F F' S S' H; cbn [ltext flat_map app map fst snd] in *.
  - auto.
  - exfalso. destruct (Forall_inv F') as [[n R] _]. destruct S as [S|S]; [rewrite S in H; discriminate H|]. rewrite H in S. exact (Not _ _ R S).
  - exfalso. destruct (Forall_inv F) as [[n R] _]. destruct S' as [S'|S']; [rewrite S' in H; discriminate H|]. rewrite <- H in S'. exact (Not _ _ R S').
  - inversion F as [|? ? [_ O] F1]; inversion F' as [|? ? [_ O'] F1']; subst. cbn [snd] in O, O'. injection H as -> H. cbn [length] in Ln. rewrite app_length in Ln. rewrite <- !app_assoc in H.
    destruct (oper_same x x' (ltext l ++ r) (ltext l' ++ r') ltac:(lia) O O' (St _ _ F1 S) (St _ _ F1' S') H) as [Q R].
    destruct (IH l' r r' ltac:(unfold ltext; lia) F1 F1' S S' R) as [P ->]. rewrite P, Q. auto.
Qed.

Lemma expr_same e e' r r' : (length (text e) <= N)%nat -> ewell e -> ewell e' -> follow r -> follow r' ->
  text e ++ r = text e' ++ r' -> norm e = norm e' /\ r = r'.
Proof.
  intros Ln W W' S S' H. rewrite (flat_text e), (flat_text e'), <- !app_assoc in H. rewrite (flat_text e), app_length in Ln.
  destruct (flat_oper _ W) as [O F], (flat_oper _ W') as [O' F'].
  assert (forall l r, Forall (fun p => (exists n, rank (tk_type (fst p)) n) /\ oper (snd p)) l -> follow r -> stop (ltext l ++ r)) as St.
  { clear. intros l r F S. destruct F as [|[o x] l [R _] F]; [destruct S as [->|S]; [left; reflexivity|right; destruct r; [exact S|left; exact S]]|]. right. cbn. right. exact R. }
  destruct (oper_same (fst (flat e)) (fst (flat e')) _ _ ltac:(lia) O O' (St _ _ F S) (St _ _ F' S') H) as [Q R].
  destruct (list_same (snd (flat e)) (snd (flat e')) _ _ ltac:(lia) F F' S S' R) as [Q2 ->]. split; [|reflexivity].
  apply regroup; [apply norm_grouped, W|apply norm_grouped, W'|]. rewrite !flat_norm, Q, Q2. reflexivity.
Qed.
End Step.

(** ** Statements *)

Lemma func_second e r : ewell e -> starts (eq TK_FUNCTION) (text e ++ r) -> exists f o l, text e ++ r = f :: o :: l /\ tk_type o = TK_PAREN_OPEN.
Proof.
  assert (forall e l r, grouped e -> starts (eq TK_FUNCTION) ((text e ++ l) ++ r) -> text e ++ (l ++ r) = (text e ++ l) ++ r /\ starts (eq TK_FUNCTION) (text e ++ (l ++ r))) as Sub.
  { intros x l r0 G S. rewrite <- app_assoc in *. auto. }
  revert r. induction e; intros r [G L] S; cbn [text grouped lits] in *.
  - exfalso. cbn in S. destruct G as (_ & _ & _ & G). congruence.
  - destruct (L _ _ (or_introl eq_refl)) as (funs & E & K). apply literal_parts in K. destruct K as (f & o & p & c & s & -> & Tf & To & _). cbn. eauto 8.
  - exfalso. cbn in S. destruct G as [G _]. rewrite G in S. discriminate S.
  - exfalso. cbn in S. destruct G as [G _]. rewrite <- S in G. cases G; discriminate.
  - destruct (Sub e _ r (proj1 G) S) as [Q S2]. destruct (IHe _ (conj (proj1 G) L) S2) as (f & u & l & H & T). rewrite <- Q. eauto.
  - destruct (Sub e1 _ r (proj1 G) S) as [Q S2]. destruct (IHe1 ([o] ++ text e2 ++ [c] ++ r)) as (f & u & l & H & T); [split; [apply G|intros; apply L, in_or_app; auto]|rewrite <- ?app_assoc in S2; exact S2|]. rewrite <- Q. rewrite <- ?app_assoc. eauto.
  - destruct (Sub e _ r (proj1 G) S) as [Q S2]. destruct (IHe _ (conj (proj1 G) L) S2) as (f & u & l & H & T). rewrite <- Q. eauto.
  - destruct (Sub e _ r (proj1 G) S) as [Q S2]. destruct (IHe (([o] ++ args_text a ++ [c]) ++ r)) as (f & u & l & H & T); [split; [apply G|intros; apply L, in_or_app; auto]|exact S2|]. rewrite <- Q. eauto.
  - destruct (Sub e _ r (proj1 G) S) as [Q S2]. destruct (IHe (([d; n; o] ++ args_text a ++ [c]) ++ r)) as (f & u & l & H & T); [split; [apply G|intros; apply L, in_or_app; auto]|exact S2|]. rewrite <- Q. eauto.
  - destruct (Sub e1 _ r (proj1 G) S) as [Q S2]. destruct (IHe1 (([o] ++ text e2) ++ r)) as (f & u & l & H & T); [split; [apply G|intros; apply L, in_or_app; auto]|exact S2|]. rewrite <- Q. eauto.
Qed.

(** What a statement begins with. *)
Definition lead (s : stmt) : option Z :=
  match s with
  | SExpr _ _ => None
  | SVar _ _ _ | SInit _ _ _ _ _ => Some TK_VAR
  | SReturn _ _ _ => Some TK_RETURN
  | SBlock _ _ _ => Some TK_CURLY_OPEN
  | SIf _ _ _ _ _ | SElse _ _ _ _ _ _ _ => Some TK_IF
  | SWhile _ _ _ _ _ => Some TK_WHILE
  | SDo _ _ _ _ _ _ _ => Some TK_DO
  | SFor _ _ _ _ _ _ _ _ => Some TK_FOR
  | SBreak _ _ => Some TK_BREAK
  | SFunc _ _ _ _ _ _ _ => Some TK_FUNCTION
  end.
Lemma lead_text s t : written s -> lead s = Some t -> exists x l, stext s = x :: l /\ tk_type x = t.
Proof.
  destruct s; cbn [written lead stext app]; intros W H; try discriminate H; injection H as <-; eexists _, _; (split; [reflexivity|apply W]).
Qed.
Lemma lead_keyword s t : lead s = Some t -> t = TK_FUNCTION \/ (keyword t /\ t <> TK_ELSE /\ t <> TK_CURLY_CLOSE).
Proof.
  destruct s; cbn [lead]; intro H; try discriminate H; injection H as <-; try (left; reflexivity); right; (split; [unfold keyword; cbn; tauto|split; discriminate]).
Qed.
Lemma stmt_begin s r : written s -> stext s ++ r <> [] /\ ~ starts (fun t => t = TK_ELSE \/ t = TK_CURLY_CLOSE) (stext s ++ r).
Proof.
  intro W. destruct (lead s) as [t|] eqn:Q.
  - destruct (lead_text _ _ W Q) as (x & l & -> & T). split; [discriminate|]. cbn. apply lead_keyword in Q. rewrite T.
    destruct Q as [->|(_ & A & B)]; intros [K|K]; try discriminate K; contradiction.
  - destruct s; try discriminate Q. destruct W as [[G K] _]. cbn [stext]. rewrite <- app_assoc. pose proof (text_more _ G) as M.
    split; [intro Z; apply app_eq_nil in Z; exact (M (proj1 Z))|]. intro S. apply K. destruct (text e) as [|x l]; [congruence|]. cbn in *.
    unfold keyword. cbn. destruct S as [-> | ->]; tauto.
Qed.
Lemma stmt_noelse s r : written s -> noelse (stext s ++ r).
Proof.
  intros W S. destruct (stmt_begin s r W) as [_ B]. apply B. destruct (stext s ++ r); [exact S|]. cbn in *. auto.
Qed.
Lemma expr_noelse e r : readable e -> noelse (text e ++ r).
Proof.
  intros [G K] S. apply K. pose proof (text_more _ G). destruct (text e) as [|x l]; [congruence|]. cbn in *. rewrite <- S. unfold keyword. cbn. tauto.
Qed.
Lemma noelse_type t r : tk_type t <> TK_ELSE -> noelse (t :: r).
Proof. intros N S. cbn in S. congruence. Qed.

Lemma well_e (P : list token -> token -> Prop) e : readable e -> (forall ts t, In (ts, t) (lits e) -> P ts t) -> (forall ts t, P ts t -> exists funs E, literal funs E ts t) -> ewell e.
Proof. intros [G _] A B. split; [exact G|]. eauto. Qed.

Section Stmts.
Variable N : nat.
Hypothesis IE : forall e e' r r', (length (text e) < N)%nat -> ewell e -> ewell e' -> follow r -> follow r' ->
  text e ++ r = text e' ++ r' -> norm e = norm e' /\ r = r'.
Hypothesis IS : forall s s' r r', (length (stext s) < N)%nat -> swell s -> swell s' ->
  (open_ended s = true -> noelse r) -> (open_ended s' = true -> noelse r') ->
  stext s ++ r = stext s' ++ r' -> snorm s = snorm s' /\ r = r'.

Definition ends (r : list token) : Prop := r = [] \/ starts (eq TK_CURLY_CLOSE) r.
Lemma stmts_same l : forall l' r r', (length (sstext l) < N)%nat -> sswell l -> sswell l' -> ends r -> ends r' ->
  sstext l ++ r = sstext l' ++ r' -> ssnorm l = ssnorm l' /\ r = r'.
Proof.
  assert (forall s r, written s -> ends (stext s ++ r) -> False) as Not.
  { intros s r W [Q|Q]; destruct (stmt_begin s r W) as [A B]; [contradiction|]. apply B. destruct (stext s ++ r); [exact Q|]. cbn in *. auto. }
  assert (forall l r, sswell l -> ends r -> noelse (sstext l ++ r)) as Ne.
  { intros [|s k] r [W _] Er; cbn [sstext app].
    - intro S. destruct Er as [->|Er]; [exact S|]. destruct r; [exact S|]. cbn in *. rewrite <- S in Er. discriminate Er.
    - rewrite <- app_assoc. apply stmt_noelse, W. }
  induction l as [|s l IH]; intros [|s' l'] r r' Ln W W' Er Er' H; cbn [sstext app] in H.
  - auto.
  - exfalso. rewrite <- app_assoc in H. apply (Not s' (sstext l' ++ r')); [apply W'|]. rewrite <- H. exact Er.
  - exfalso. rewrite <- app_assoc in H. apply (Not s (sstext l ++ r)); [apply W|]. rewrite H. exact Er'.
  - destruct W as [[Ws Wl] (funs & E & D)], W' as [[Ws' Wl'] (funs' & E' & D')]. inversion D; inversion D'; subst. cbn [sstext] in Ln. rewrite app_length in Ln. rewrite <- !app_assoc in H.
    assert (sswell l) as Wl1 by (split; eauto). assert (sswell l') as Wl2 by (split; eauto).
    destruct (IS s s' (sstext l ++ r) (sstext l' ++ r')) as [Q R]; auto; [lia|split; eauto..|].
    destruct (IH l' r r') as [Q2 ->]; auto; [lia|]. cbn [ssnorm]. rewrite Q, Q2. auto.
Qed.

Lemma semi_follow t r : tk_type t = TK_SEMICOLON -> follow (t :: r).
Proof. intro T. right. cbn. rewrite T. unfold ender. cbn. tauto. Qed.
Lemma close_follow t r : tk_type t = TK_PAREN_CLOSE -> follow (t :: r).
Proof. intro T. right. cbn. rewrite T. unfold ender. cbn. tauto. Qed.

Lemma lead_same s s' r r' t t' : written s -> written s' -> lead s = Some t -> lead s' = Some t' -> stext s ++ r = stext s' ++ r' -> t = t'.
Proof.
  intros W W' L L' H. destruct (lead_text _ _ W L) as (x & l & Q & T). destruct (lead_text _ _ W' L') as (x' & l' & Q' & T'). rewrite Q, Q' in H. injection H as -> _. congruence.
Qed.
Lemma lead_expr e semi s' r r' t' : swell (SExpr e semi) -> written s' -> lead s' = Some t' -> stext (SExpr e semi) ++ r = stext s' ++ r' -> False.
Proof.
  intros [[[G K] _] (funs & E & D)] W' L' H. assert (ewell e) as We. { split; [exact G|]. inversion D; subst. eauto. }
  destruct (lead_text _ _ W' L') as (x & l & Q & T). cbn [stext] in H. rewrite Q, <- app_assoc in H. cbn [app] in H.
  assert (tk_type x = t') as T2 by exact T. destruct (lead_keyword _ _ L') as [->|(Kw & _)].
  - destruct (func_second e (semi :: r) We) as (f & o & k & A & B); [rewrite H; cbn; auto|]. rewrite A in H. injection H as -> H.
    destruct s'; try discriminate L'. cbn [stext app] in Q. injection Q as -> <-. cbn [app] in H. injection H as -> _. destruct W' as (_ & W' & _). rewrite W' in B. discriminate B.
  - apply K. pose proof (text_more _ G). destruct (text e) as [|y m]; [congruence|]. injection H as -> _. cbn. rewrite T. exact Kw.
Qed.

Ltac well := match goal with
  | |- ewell _ => split; [match goal with H : readable ?e |- grouped ?e => exact (proj1 H) end|eauto]
  | |- swell _ => split; [assumption|eauto]
  | |- sswell _ => split; [assumption|eauto] end.
Ltac side := first [ assumption | lia | well | apply semi_follow; assumption | apply close_follow; assumption | idtac ].
Ltac lens Ln := cbn [stext app length] in Ln; repeat (rewrite app_length in Ln; cbn [length] in Ln).
Ltac flat_eq H := cbn [stext app] in H; repeat (rewrite <- app_assoc in H; cbn [app] in H).

Lemma stmt_same s s' r r' : (length (stext s) <= N)%nat -> swell s -> swell s' ->
  (open_ended s = true -> noelse r) -> (open_ended s' = true -> noelse r') ->
  stext s ++ r = stext s' ++ r' -> snorm s = snorm s' /\ r = r'.
Proof.
  intros Ln W W' O O' H.
  destruct (lead s) as [t|] eqn:L.
  2:{ destruct s; try discriminate L. destruct (lead s') as [t'|] eqn:L'; [exfalso; exact (lead_expr _ _ _ _ _ _ W (proj1 W') L' H)|].
      destruct s'; try discriminate L'. destruct W as [(R & T) (funs & E & D)], W' as [(R' & T') (funs' & E' & D')]. inversion D; inversion D'; subst. lens Ln. flat_eq H.
      destruct (IE e e0 (semi :: r) (semi0 :: r')) as [Q Q2]; side. injection Q2 as -> ->. cbn [snorm]. rewrite Q. auto. }
  destruct (lead s') as [t'|] eqn:L'.
  2:{ exfalso. destruct s'; try discriminate L'. symmetry in H. exact (lead_expr _ _ _ _ _ _ W' (proj1 W) L H). }
  pose proof (lead_same _ _ _ _ _ _ (proj1 W) (proj1 W') L L' H) as <-.
  destruct s; try discriminate L; destruct s'; try discriminate L'; cbn [lead] in L, L'; try (rewrite <- L in L'; discriminate L'); clear L L';
    destruct W as [W (funs & E & D)], W' as [W' (funs' & E' & D')]; inversion D; inversion D'; subst; clear D D'; cbn [written] in W, W'; lens Ln; flat_eq H; cbn [snorm open_ended] in *;
    repeat match goal with X : _ /\ _ |- _ => destruct X end.
  - injection H as -> -> -> ->. auto.
  - injection H as -> -> -> H. tkc.
  - injection H as -> -> -> H. tkc.
  - injection H as -> -> -> H. destruct (IE e e0 (semi :: r) (semi0 :: r')) as [Q Q2]; side. injection Q2 as -> ->. rewrite Q. auto.
  - injection H as -> H. destruct (IE e e0 (semi :: r) (semi0 :: r')) as [Q Q2]; side. injection Q2 as -> ->. rewrite Q. auto.
  - injection H as -> H. destruct (stmts_same l l0 (c :: r) (c0 :: r')) as [Q Q2]; side; try (right; cbn; congruence). injection Q2 as -> ->. rewrite Q. auto.
  - injection H as -> -> H. destruct (IE e e0 (c :: stext s ++ r) (c0 :: stext s' ++ r')) as [Q Q2]; side. injection Q2 as -> Q2.
    destruct (IS s s' r r') as [P ->]; side; auto. rewrite P, Q. auto.
  - exfalso. injection H as -> -> H. destruct (IE e e0 (c :: stext s ++ r) (c0 :: stext s'1 ++ el :: stext s'2 ++ r')) as [Q Q2]; side. injection Q2 as -> Q2.
    destruct (IS s s'1 r (el :: stext s'2 ++ r')) as [P ->]; side; auto; try congruence. apply (O eq_refl). cbn. congruence.
  - exfalso. injection H as -> -> H. destruct (IE e e0 (c :: stext s1 ++ el :: stext s2 ++ r) (c0 :: stext s' ++ r')) as [Q Q2]; side. injection Q2 as -> Q2.
    destruct (IS s1 s' (el :: stext s2 ++ r) r') as [P <-]; side; auto; try congruence. apply (O' eq_refl). cbn. congruence.
  - injection H as -> -> H. destruct (IE e e0 (c :: stext s1 ++ el :: stext s2 ++ r) (c0 :: stext s'1 ++ el0 :: stext s'2 ++ r')) as [Q Q2]; side. injection Q2 as -> Q2.
    destruct (IS s1 s'1 (el :: stext s2 ++ r) (el0 :: stext s'2 ++ r')) as [P P2]; side; try congruence. injection P2 as -> P2.
    destruct (IS s2 s'2 r r') as [P3 ->]; side; auto. rewrite P, P3, Q. auto.
  - injection H as -> -> H. destruct (IE e e0 (c :: stext s ++ r) (c0 :: stext s' ++ r')) as [Q Q2]; side. injection Q2 as -> Q2.
    destruct (IS s s' r r') as [P ->]; side; auto. rewrite P, Q. auto.
  - injection H as -> H. destruct (IS s s' (w :: o :: text e ++ c :: semi :: r) (w0 :: o0 :: text e0 ++ c0 :: semi0 :: r')) as [P P2]; side.
    { intros _. apply noelse_type. intro Z. tkc. } { intros _. apply noelse_type. intro Z. tkc. } injection P2 as -> -> P2.
    destruct (IE e e0 (c :: semi :: r) (c0 :: semi0 :: r')) as [Q Q2]; side. injection Q2 as -> -> ->. rewrite P, Q. auto.
  - injection H as -> -> H. destruct (IS s1 s'1 (text e ++ semi :: text i ++ c :: stext s2 ++ r) (text e0 ++ semi0 :: text i0 ++ c0 :: stext s'2 ++ r')) as [P P2]; side.
    { intros _. apply expr_noelse. assumption. } { intros _. apply expr_noelse. assumption. }
    destruct (IE e e0 (semi :: text i ++ c :: stext s2 ++ r) (semi0 :: text i0 ++ c0 :: stext s'2 ++ r')) as [Q Q2]; side. injection Q2 as -> Q2.
    destruct (IE i i0 (c :: stext s2 ++ r) (c0 :: stext s'2 ++ r')) as [Q3 Q4]; side. injection Q4 as -> Q4.
    destruct (IS s2 s'2 r r') as [P3 ->]; side; auto. rewrite P, P3, Q, Q3. auto.
  - injection H as -> -> ->. auto.
  - injection H as -> -> -> H. destruct (params_same p p0 c c0 (stext s ++ r) (stext s' ++ r')) as (-> & -> & R); side.
    destruct (IS s s' r r') as [P ->]; side; auto. rewrite P. auto.
Qed.
End Stmts.

Lemma one_reading N :
  (forall e e' r r', (length (text e) < N)%nat -> ewell e -> ewell e' -> follow r -> follow r' ->
    text e ++ r = text e' ++ r' -> norm e = norm e' /\ r = r') /\
  (forall s s' r r', (length (stext s) < N)%nat -> swell s -> swell s' ->
    (open_ended s = true -> noelse r) -> (open_ended s' = true -> noelse r') ->
    stext s ++ r = stext s' ++ r' -> snorm s = snorm s' /\ r = r').
Proof.
  induction N as [|N [IE IS]]; [split; intros; lia|]. split; intros.
  - eapply expr_same; eauto. lia.
  - eapply stmt_same; eauto. lia.
Qed.

Theorem script_reading l l' : sswell l -> sswell l' -> sstext l = sstext l' -> same_stmts l l'.
Proof.
  intros W W' H. destruct (one_reading (S (length (sstext l)))) as [IE IS].
  eapply (stmts_same _ IS l l' [] []); auto; try (left; reflexivity). rewrite !app_nil_r. exact H.
Qed.
Theorem expr_reading e e' : ewell e -> ewell e' -> text e = text e' -> same_expr e e'.
Proof.
  intros W W' H. destruct (one_reading (S (length (text e)))) as [IE _].
  eapply (IE e e' [] []); auto; try (left; reflexivity). rewrite !app_nil_r. exact H.
Qed.
(** The functions written in expressions. *)
Theorem literal_reading funs E t funs' E' t' ts fd fd' : literal funs E ts t -> literal funs' E' ts t' -> funs (number t) = Some fd -> funs' (number t') = Some fd' ->
  same_function fd fd'.
Proof.
  intros L L' F F'. remember ts as ts' eqn:Q in L'. destruct L as [E f o p c s t fd0 Tf To Wp Tc Ws -> F0 D]. destruct L' as [E' f' o' p' c' s' t' fd1 Tf' To' Wp' Tc' Ws' -> F1 D'].
  rewrite F in F0. injection F0 as ->. rewrite F' in F1. injection F1 as ->.
  injection Q as -> -> Q. symmetry in Q.
  destruct (params_same _ _ _ _ _ _ Wp Wp' Tc Tc' Q) as (-> & -> & R).
  split; [reflexivity|]. cbn [fd_body]. destruct (one_reading (S (length (stext s)))) as [_ IS]. unfold same_stmt.
  assert (noelse []) as Ne by (intros []). eapply (IS s s' [] []); auto; [split; eauto..|]. rewrite !app_nil_r. exact R.
Qed.

Lemma norm_plain e : no_func (norm e) -> norm e = e
with args_norm_plain a : args_no_func (args_norm a) -> args_norm a = a.
Proof.
  - destruct e; cbn [norm no_func]; intro H; try destruct H; rewrite ?norm_plain, ?args_norm_plain by assumption; reflexivity.
  - destruct a; cbn [args_norm args_no_func]; intro H; try destruct H; rewrite ?norm_plain, ?args_norm_plain by assumption; reflexivity.
Qed.
Lemma norm_free e : no_func e -> norm e = e
with args_norm_free a : args_no_func a -> args_norm a = a.
Proof.
  - destruct e; cbn [norm no_func]; intro H; try destruct H; rewrite ?norm_free, ?args_norm_free by assumption; reflexivity.
  - destruct a; cbn [args_norm args_no_func]; intro H; try destruct H; rewrite ?norm_free, ?args_norm_free by assumption; reflexivity.
Qed.
Lemma snorm_plain s : no_functions (snorm s) -> snorm s = s
with ssnorm_plain l : all_no_functions (ssnorm l) -> ssnorm l = l.
Proof.
  - destruct s; cbn [snorm no_functions]; intro H; repeat match goal with X : _ /\ _ |- _ => destruct X end; try contradiction; rewrite ?snorm_plain, ?ssnorm_plain, ?norm_plain by assumption; reflexivity.
  - destruct l; cbn [ssnorm all_no_functions]; intro H; repeat match goal with X : _ /\ _ |- _ => destruct X end; rewrite ?snorm_plain, ?ssnorm_plain by assumption; reflexivity.
Qed.
Lemma snorm_free s : no_functions s -> snorm s = s
with ssnorm_free l : all_no_functions l -> ssnorm l = l.
Proof.
  - destruct s; cbn [snorm no_functions]; intro H; repeat match goal with X : _ /\ _ |- _ => destruct X end; try contradiction; rewrite ?snorm_free, ?ssnorm_free, ?norm_free by assumption; reflexivity.
  - destruct l; cbn [ssnorm all_no_functions]; intro H; repeat match goal with X : _ /\ _ |- _ => destruct X end; rewrite ?snorm_free, ?ssnorm_free by assumption; reflexivity.
Qed.
Lemma same_free l l' : same_stmts l l' -> all_no_functions l -> l' = l.
Proof.
  unfold same_stmts. intros H F. rewrite (ssnorm_free _ F) in H. rewrite <- (ssnorm_plain l'); [auto|]. rewrite <- H. exact F.
Qed.
