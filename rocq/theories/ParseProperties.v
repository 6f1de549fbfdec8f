(** * ParseProperties: C35, operator precedence and associativity *)

From Verif Require Import Base BaseFacts State CompModel KFacts ParseSpec ParseProofs ParseAccept VmModel.
From Coq Require Import Lia.

(** The parser started in compiler state [k]; [n] bounds the nesting of the
    model's recursion. *)
Definition parse (n : nat) : K ast := r_expr (compiler n).

(** Whatever the parser accepts is a text with a correct grouping, none of
    whose tokens is lost or moved, and it stops in front of a token that ends
    an expression. *)
Theorem C35_grouping : forall n k v k', parse n k = Ok (v, k') -> v <> ANull ->
  exists e, grouped e /\ tree e = v /\ k_toks k = text e ++ k_toks k' /\ ender (cur_type k').
Proof.
  intros n k v k' H N. destruct (sd_expr _ (compiler_sound n) k v k' H) as [E | (e & (G & T & s & X & Y) & En)];
    [contradiction | ].
  exists e. cbn [app] in X. subst s. repeat split; assumption.
Qed.
Print Assumptions C35_grouping.

Lemma past_errs l : forall k, v_errs (k_vm (past l k)) = v_errs (k_vm k).
Proof.
  induction l as [ | t l IH]; intros k; cbn [past]; [reflexivity | ]. rewrite IH. unfold nxt.
  destruct (k_toks k) as [ | t0 [ | t1 r]]; try reflexivity.
  destruct (negb (s32 (k_line k) =? tk_line t1) || negb (k_file k =? tk_file t1)); reflexivity.
Qed.

(** Every correct grouping is accepted and gives its own tree: the parser
    consumes the text, adds no error and restores the nesting count. *)
Theorem C35_accepts : forall e k rest,
  grouped e -> no_func e -> plain_calls e ->
  k_toks k = text e ++ rest -> match rest with [] => True | t :: _ => ender (tk_type t) end ->
  0 <= k_rec k -> k_rec k + depth e <= 256 ->
  exists n0 k', (forall n, (n0 <= n)%nat -> parse n k = Ok (tree e, k')) /\
    k_toks k' = rest /\ k_rec k' = k_rec k /\ v_errs (k_vm k') = v_errs (k_vm k).
Proof.
  intros e k rest G Nf Pc T F R0 R1. destruct (accept e (conj G (conj Nf Pc)) k rest T R0 R1 F) as [n0 E].
  exists n0, (past (text e) k). split; [exact E | ]. split; [exact (past_toks _ _ _ T) | ].
  split; [apply past_rec | apply past_errs].
Qed.
Print Assumptions C35_accepts.

(** So a text has only one correct grouping. *)
Theorem C35_unambiguous : forall e e',
  grouped e -> no_func e -> plain_calls e -> depth e <= 256 ->
  grouped e' -> no_func e' -> plain_calls e' -> depth e' <= 256 ->
  text e = text e' -> tree e = tree e'.
Proof.
  intros e e' G Nf Pc D G' Nf' Pc' D' T.
  set (k := set_k_toks (text e) (comp_init vm_init)).
  assert (R : k_rec k = 0) by reflexivity.
  destruct (C35_accepts e k [] G Nf Pc) as (n & k1 & H & _); try exact I; try lia.
  { rewrite app_nil_r. reflexivity. }
  destruct (C35_accepts e' k [] G' Nf' Pc') as (n' & k2 & H' & _); try exact I; try lia.
  { rewrite app_nil_r, <- T. reflexivity. }
  pose proof (H (n + n')%nat) as A. pose proof (H' (n + n')%nat) as B.
  rewrite A in B by lia. specialize (B ltac:(lia)). congruence.
Qed.
Print Assumptions C35_unambiguous.

(** Three operands: the operator that is not looser goes first. *)
Definition name_at (t : token) : Prop := In (tk_type t) [TK_INTEGER; TK_FLOAT; TK_STRING; TK_IDENTIFIER].
Lemma name_operand t : name_at t -> operand (tk_type t).
Proof.
  intros H. unfold name_at in H. cbn [In] in H.
  repeat (destruct H as [H | H]; [rewrite <- H; unfold operand, ender, prefix_op; cbn; intuition discriminate | ]).
  contradiction.
Qed.
Theorem C35_two_operators : forall k a o b p c rest i j,
  name_at a -> name_at b -> name_at c -> rank (tk_type o) i -> rank (tk_type p) j ->
  k_toks k = a :: o :: b :: p :: c :: rest -> match rest with [] => True | t :: _ => ender (tk_type t) end ->
  0 <= k_rec k <= 256 ->
  let leaf t := ANode t false ANull ANull in
  exists n0 k', (forall n, (n0 <= n)%nat -> parse n k = Ok (
      if (i <=? j)%nat then ANode p false (ANode o false (leaf a) (leaf b)) (leaf c)
      else ANode o false (leaf a) (ANode p false (leaf b) (leaf c)), k')) /\ k_toks k' = rest.
Proof.
  intros k a o b p c rest i j A B C Ro Rp T F Rk leaf.
  apply name_operand in A, B, C.
  destruct (Nat.leb_spec i j) as [Le | Gt].
  - destruct (C35_accepts (EInfix (EInfix (EAtom a) o (EAtom b)) p (EAtom c)) k rest) as (n0 & k' & H & T' & _).
    + cbn [grouped]. split; [ | split; [exact C | ]].
      * split; [exact A | ]. split; [exact B | ]. exists i. split; [exact Ro | ]. split; intros m [].
      * exists j. split; [exact Rp | ]. split; [ | intros m []]. intros m Hm. rewrite (rank_fun _ _ _ Hm Ro). exact Le.
    + repeat split.
    + repeat split.
    + exact T.
    + exact F.
    + lia.
    + cbn [depth]. lia.
    + exists n0, k'. split; [exact H | exact T'].
  - destruct (C35_accepts (EInfix (EAtom a) o (EInfix (EAtom b) p (EAtom c))) k rest) as (n0 & k' & H & T' & _).
    + cbn [grouped]. split; [exact A | ]. split.
      * split; [exact B | ]. split; [exact C | ]. exists j. split; [exact Rp | ]. split; intros m [].
      * exists i. split; [exact Ro | ]. split; [intros m [] | ]. intros m Hm. rewrite (rank_fun _ _ _ Hm Rp). exact Gt.
    + repeat split.
    + repeat split.
    + exact T.
    + exact F.
    + lia.
    + cbn [depth]. lia.
    + exists n0, k'. split; [exact H | exact T'].
Qed.
Print Assumptions C35_two_operators.

(** ** Cases *)

Definition tk (ty : Z) (s : bytes) : token := mkTok ty s 1 0 1.
Definition nm (s : bytes) : token := tk TK_IDENTIFIER s.
(** [x = a + b * -c[d].e(f, g) + h] *)
Definition ex_e : expr :=
  EInfix (EAtom (nm (bs "x"))) (tk TK_ASSIGNMENT (bs "="))
   (EInfix
     (EInfix (EAtom (nm (bs "a"))) (tk TK_PLUS (bs "+"))
       (EInfix (EAtom (nm (bs "b"))) (tk TK_MULTIPLY (bs "*"))
         (EPre (tk TK_MINUS (bs "-"))
           (ECall
             (EField (EIndex (EAtom (nm (bs "c"))) (tk TK_BRACKET_OPEN (bs "[")) (EAtom (nm (bs "d")))
                        (tk TK_BRACKET_CLOSE (bs "]")))
               (tk TK_DOT (bs ".")) (nm (bs "e")))
             (tk TK_PAREN_OPEN (bs "("))
             (Arg (EAtom (nm (bs "f"))) (tk TK_COMMA (bs ",")) (LastArg (EAtom (nm (bs "g")))))
             (tk TK_PAREN_CLOSE (bs ")"))))))
     (tk TK_PLUS (bs "+")) (EAtom (nm (bs "h")))).

Lemma ex_operand s : operand (tk_type (nm s)).
Proof. apply name_operand. unfold name_at. cbn. tauto. Qed.
Lemma ex_e_good : grouped ex_e /\ no_func ex_e /\ plain_calls ex_e /\ depth ex_e = 2.
Proof.
  split; [ | repeat split]. unfold ex_e. cbn [grouped args_grouped].
  assert (R6 : rank (tk_type (tk TK_ASSIGNMENT (bs "="))) 6) by (eexists; split; [reflexivity | cbn; tauto]).
  assert (R1 : rank (tk_type (tk TK_PLUS (bs "+"))) 1) by (eexists; split; [reflexivity | cbn; tauto]).
  assert (R0 : rank (tk_type (tk TK_MULTIPLY (bs "*"))) 0) by (eexists; split; [reflexivity | cbn; tauto]).
  pose proof ex_operand as O.
  split; [apply O | ]. split.
  - split.
    + split; [apply O | ]. split.
      * split; [apply O | ]. split.
        -- split; [cbn; tauto | ]. split; [ | intros F; exact F].
           repeat split; try apply O; intros F; exact F.
        -- exists 0%nat. split; [exact R0 | ]. split; intros m [].
      * exists 1%nat. split; [exact R1 | ]. split; [intros m [] | ].
        intros m Hm. cbn [infix_at] in Hm. rewrite (rank_fun _ _ _ Hm R0). lia.
    + split; [apply O | ]. exists 1%nat. split; [exact R1 | ]. split; [ | intros m []].
      intros m Hm. cbn [infix_at] in Hm. rewrite (rank_fun _ _ _ Hm R1). lia.
  - exists 6%nat. split; [exact R6 | ]. split; [intros m [] | ].
    intros m Hm. cbn [infix_at] in Hm. rewrite (rank_fun _ _ _ Hm R1). lia.
Qed.

Definition ex_k (l : list token) : comp := set_k_toks l (comp_init vm_init).

Example C35_accepts_case :
  match parse 40 (ex_k (text ex_e ++ [tk TK_SEMICOLON (bs ";")])) with
  | Ok (v, k') => v = tree ex_e /\ k_toks k' = [tk TK_SEMICOLON (bs ";")]
  | Ub _ => False
  end.
Proof. vm_compute. split; reflexivity. Qed.
Example C35_accepts_case_hyps : grouped ex_e /\ no_func ex_e /\ plain_calls ex_e /\
  k_rec (ex_k (text ex_e)) + depth ex_e <= 256.
Proof. destruct ex_e_good as (G & N & P & D). rewrite D. refine (conj G (conj N (conj P _))). change (k_rec (ex_k (text ex_e))) with 0. lia. Qed.

(** [f(function() { return 1; })] is accepted: the theorem above covers function
    literals too. *)
Example C35_grouping_case :
  match parse 40 (ex_k ([nm (bs "f"); tk TK_PAREN_OPEN (bs "("); tk TK_FUNCTION (bs "function");
      tk TK_PAREN_OPEN (bs "("); tk TK_PAREN_CLOSE (bs ")"); tk TK_CURLY_OPEN (bs "{");
      tk TK_RETURN (bs "return"); tk TK_INTEGER (bs "1"); tk TK_SEMICOLON (bs ";");
      tk TK_CURLY_CLOSE (bs "}"); tk TK_PAREN_CLOSE (bs ")")])) with
  | Ok (v, k') => v <> ANull /\ k_toks k' = []
  | Ub _ => False
  end.
Proof. vm_compute. split; [discriminate | reflexivity]. Qed.

(** ** Where the parser is laxer than the grammar in the documentation *)

(** A parenthesis may be closed by a bracket or a comma: [(a]]. *)
Theorem C35_closers_refuted : exists n k v k', parse n k = Ok (v, k') /\ v <> ANull /\
  has_errors (k_vm k') = false /\
  map tk_type (k_toks k) = [TK_PAREN_OPEN; TK_IDENTIFIER; TK_BRACKET_CLOSE] /\ k_toks k' = [].
Proof.
  exists 20%nat, (ex_k [tk TK_PAREN_OPEN (bs "("); nm (bs "a"); tk TK_BRACKET_CLOSE (bs "]")]).
  eexists. eexists. split; [vm_compute; reflexivity | ]. split; [discriminate | ]. repeat split.
Qed.
(** An operator alone is taken as a value: [*]. *)
Theorem C35_operand_refuted : exists n k v k', parse n k = Ok (v, k') /\ v <> ANull /\
  has_errors (k_vm k') = false /\ map tk_type (k_toks k) = [TK_MULTIPLY] /\ k_toks k' = [].
Proof.
  exists 20%nat, (ex_k [tk TK_MULTIPLY (bs "*")]).
  eexists. eexists. split; [vm_compute; reflexivity | ]. split; [discriminate | ]. repeat split.
Qed.
(** Calling the result of a parenthesized [object()] is not a second call:
    [(object())()] parses as [object()]. *)
Theorem C35_second_call_refuted : exists n k k1 v v1 k' k1',
  parse n k = Ok (v, k') /\ parse n k1 = Ok (v1, k1') /\ v = v1 /\ v <> ANull /\
  map tk_type (k_toks k1) = [TK_FSE; TK_PAREN_OPEN; TK_PAREN_CLOSE] /\
  map tk_type (k_toks k) = [TK_PAREN_OPEN; TK_FSE; TK_PAREN_OPEN; TK_PAREN_CLOSE; TK_PAREN_CLOSE;
    TK_PAREN_OPEN; TK_PAREN_CLOSE] /\ k_toks k' = [].
Proof.
  exists 20%nat, (ex_k [tk TK_PAREN_OPEN (bs "("); tk TK_FSE (bs "object"); tk TK_PAREN_OPEN (bs "(");
    tk TK_PAREN_CLOSE (bs ")"); tk TK_PAREN_CLOSE (bs ")"); tk TK_PAREN_OPEN (bs "("); tk TK_PAREN_CLOSE (bs ")")]),
    (ex_k [tk TK_FSE (bs "object"); tk TK_PAREN_OPEN (bs "("); tk TK_PAREN_CLOSE (bs ")")]).
  eexists. eexists. eexists. eexists.
  split; [vm_compute; reflexivity | ]. split; [vm_compute; reflexivity | ].
  split; [reflexivity | ]. split; [discriminate | ]. repeat split.
Qed.
(** [(len(a))(b)] fails an assertion of the compiler. *)
Theorem C35_assertion_refuted : exists n k, parse n k = Ub UbAssert.
Proof.
  exists 20%nat, (ex_k [tk TK_PAREN_OPEN (bs "("); tk TK_FSE (bs "len"); tk TK_PAREN_OPEN (bs "("); nm (bs "a");
    tk TK_PAREN_CLOSE (bs ")"); tk TK_PAREN_CLOSE (bs ")"); tk TK_PAREN_OPEN (bs "("); nm (bs "b");
    tk TK_PAREN_CLOSE (bs ")")]).
  vm_compute. reflexivity.
Qed.
Print Assumptions C35_second_call_refuted.
