(** * UniqProperties: a script has one meaning

    C63. *)

From Coq Require Import ZArith List Lia Bool.
From Verif Require Import Base BaseFacts State MonadFacts StackModel VmModel OpSpec CallSpec OpProofs CallProofs TokenModel TokenSpec TokenProperties CsModel ExprModel CompModel ParseSpec
  VmSpec VmStep VmProperties RunSpec CodeRel RepSpec MachProofs SimProofs HostCallProofs RunProofs RunProperties.
From Verif Require Import ParseProperties RunProperties UniqSpec UniqProofs DetProofs.
Import ListNotations.
Open Scope Z_scope.

(** ** Reading *)

(** Two readings of the same tokens that follow the rules of the language
    ([swritten]: tokens where they belong, operators grouped by precedence, an
    else with the nearest if; [sdefined]: the functions are those of the table)
    are the same reading, but for the numbers of the functions. *)
Theorem C63_one_reading funs E l funs' E' l' : swritten l -> sdefined funs E l -> swritten l' -> sdefined funs' E' l' ->
  sstext l = sstext l' -> same_stmts l l'.
Proof. intros W D W' D'. apply script_reading; split; eauto. Qed.

(** So are two readings of the text of a function written in an expression. *)
Theorem C63_one_function funs E t funs' E' t' ts fd fd' : literal funs E ts t -> literal funs' E' ts t' ->
  funs (number t) = Some fd -> funs' (number t') = Some fd' -> same_function fd fd'.
Proof. apply literal_reading. Qed.

(** And two readings of an expression. *)
Theorem C63_one_expression e e' : grouped e -> grouped e' -> no_func e -> no_func e' -> text e = text e' -> e = e'.
Proof.
  intros G G' F F' H. assert (forall e, no_func e -> lits e = []) as No.
  { clear. fix IH 1. assert (forall a, args_no_func a -> args_lits a = []) as IHa.
    { fix IHa 1. intros [|x|x c r]; cbn [args_no_func args_lits]; intro H; [reflexivity|apply IH, H|]. rewrite (IH x), (IHa r) by apply H. reflexivity. }
    intros [] H; cbn [no_func lits] in *; try reflexivity; try contradiction; try (apply IH, H).
    - rewrite !IH by apply H. reflexivity.
    - rewrite IH, IHa by apply H. reflexivity.
    - rewrite IH, IHa by apply H. reflexivity.
    - rewrite !IH by apply H. reflexivity. }
  rewrite <- (norm_free e F), <- (norm_free e' F'). apply expr_reading; auto.
  - split; [exact G|]. rewrite (No e F). intros ts t [].
  - split; [exact G'|]. rewrite (No e' F'). intros ts t [].
Qed.

(** ** Doing *)

(** Executed from the same memory, a script ends in one way and leaves one
    memory, if every function of the host gives one result, and the numbers of
    the host's functions are not those of the script's. *)
Theorem C63_one_outcome {HS : Hosts} funs lim mf E b m l o m' o' m'' :
  (forall id vs m v m' v2 m2, hosts id vs m v m' -> hosts id vs m v2 m2 -> v2 = v /\ m2 = m') ->
  (forall id vs m v m', hosts id vs m v m' -> funs id = None) ->
  exs funs lim mf E b m l o m' -> exs funs lim mf E b m l o' m'' -> o' = o /\ m'' = m'.
Proof. intros A B H. apply (proj1 (proj2 (proj2 (proj2 (meaning_one funs lim mf A B)))) _ _ _ _ _ _ H). Qed.

(** ** Scripts *)

(** In C40, the reading of the script that the machine follows is any reading:
    for a script without functions, what the rules of the language say about
    any reading of its tokens is what the machine does. *)
Theorem C63_scripts_partial {HS : Hosts} hostmark host s k E text fname fuel k1 u k2 toks vm' l funs :
  fresh s -> setup s k E -> is_text text -> zlen text < W31 ->
  compile_script fuel text fname k = Ok (true, k1) -> finalize k1 = Ok (u, k2) -> v_errs (k_vm k2) = [] ->
  tokenize text fname (k_vm k) = Ok (Some toks, vm') ->
  toks = sstext l -> swritten l -> sdefined funs E l -> all_no_functions l ->
  forall lim mf st g0 o m', lim <= 65536 -> 2 * lim - 2 <= v_maxstack s -> mf < W32 -> mf <= v_maxfields s ->
    zlen st = zlen (v_static (k_vm k2)) -> (forall x, In x st -> exists v, rep (k_vm k2) nothing v x) ->
    globs (set_static st (k_vm k2)) nothing g0 ->
    (forall t, steps hostmark host (set_static st (k_vm k2)) t -> enough t) ->
    implements (LT := kept_of (k_vm k2)) host (set_static st (k_vm k2)) ->
    exs (fun _ => None) lim mf E 0 (mkMem g0 [] []) l o m' ->
    o = Next /\ exists n t', execute hostmark host n (set_static st (k_vm k2)) = Ok (Some true, t') /\
      v_errs t' = [] /\ stack_is t' [] /\ frame t' = frame (k_vm k2) /\
      exists W, heap_is t' W (m_heap m') /\
      forall name i v, lookup name (e_scopes (afters l E)) = Some (Global i) -> m_global m' i = Some v ->
        global_is t' W name v.
Proof.
  intros F Su T Zt Hc Hf N Tk Q W D Nf.
  destruct (C40_scripts_partial hostmark host s k E text fname fuel k1 u k2 toks vm' F Su T Zt Hc Hf N Tk) as (l0 & funs' & Q' & W' & D' & X).
  assert (l0 = l) as ->. { apply same_free; [|exact Nf]. eapply C63_one_reading; eauto. congruence. }
  intros lim mf st g0 o m' L1 L2 L3 L4 Zs Vs Gl Rm Im Ex. apply (X lim mf st g0 o m'); auto.
  apply (proj1 (proj2 (proj2 (proj2 (meaning_more (fun _ => None) funs' lim mf ltac:(discriminate)))))). exact Ex.
Qed.

Print Assumptions C63_one_reading.
Print Assumptions C63_one_function.
Print Assumptions C63_one_expression.
Print Assumptions C63_one_outcome.
Print Assumptions C63_scripts_partial.

(** ** Cases *)

(** The script of C40 with its function under another number. *)
Definition renumber (i : Z) (l : stmts) : stmts :=
  match l with Then s0 (Then (SFunc _ f n o p c s) r) => Then s0 (Then (SFunc i f n o p c s) r) | _ => l end.
Example C63_reading_case : swritten ex_l /\ sdefined ex_funs ex_E ex_l /\ sstext (renumber 7 ex_l) = sstext ex_l /\
  renumber 7 ex_l <> ex_l /\ same_stmts (renumber 7 ex_l) ex_l.
Proof.
  split; [exact ex_written|]. split; [exact ex_defined|]. split; [reflexivity|]. split; [discriminate|reflexivity].
Qed.

(** [a - b - c] could be [a - (b - c)]; [grouped] rules that out. *)
Definition minus (a b : expr) : expr := EInfix a (tk TK_MINUS (bs "-")) b.
Example C63_grouping_matters :
  text (minus (minus (var (bs "a")) (var (bs "b"))) (var (bs "c"))) = text (minus (var (bs "a")) (minus (var (bs "b")) (var (bs "c")))) /\
  grouped (minus (minus (var (bs "a")) (var (bs "b"))) (var (bs "c"))) /\
  ~ grouped (minus (var (bs "a")) (minus (var (bs "b")) (var (bs "c")))).
Proof.
  assert (rank TK_MINUS 1) as R by (eexists; split; [reflexivity|cbn; tauto]).
  split; [reflexivity|]. split.
  - unfold minus. cbn [grouped var]. grp.
  - intros (_ & _ & n & A & _ & B). specialize (B 1%nat R). cbn [tk_type tk] in A. pose proof (ParseProofs.rank_fun _ _ _ A R). lia.
Qed.
(** [if(a) if(b) x; else y;] could give the else to the first if; [swritten]
    rules that out. *)
Definition id_ (s : bytes) : stmt := SExpr (var s) (tk TK_SEMICOLON (bs ";")).
Definition if_ (c : bytes) (s : stmt) : stmt := SIf (tk TK_IF (bs "if")) (tk TK_PAREN_OPEN (bs "(")) (var c) (tk TK_PAREN_CLOSE (bs ")")) s.
Definition else_ (c : bytes) (s s2 : stmt) : stmt := SElse (tk TK_IF (bs "if")) (tk TK_PAREN_OPEN (bs "(")) (var c) (tk TK_PAREN_CLOSE (bs ")")) s (tk TK_ELSE (bs "else")) s2.
Example C63_else_matters :
  stext (if_ (bs "a") (else_ (bs "b") (id_ (bs "x")) (id_ (bs "y")))) = stext (else_ (bs "a") (if_ (bs "b") (id_ (bs "x"))) (id_ (bs "y"))) /\
  written (if_ (bs "a") (else_ (bs "b") (id_ (bs "x")) (id_ (bs "y")))) /\ ~ written (else_ (bs "a") (if_ (bs "b") (id_ (bs "x"))) (id_ (bs "y"))).
Proof.
  split; [reflexivity|]. split.
  - unfold if_, else_, id_. cbn [written]. grp.
  - intros (_ & _ & _ & _ & _ & _ & _ & O). discriminate O.
Qed.
(** [break;] could be an expression that is a name; [readable] rules that out. *)
Example C63_keyword_matters :
  let b := tk TK_BREAK (bs "break") in let semi := tk TK_SEMICOLON (bs ";") in
  stext (SBreak b semi) = stext (SExpr (EAtom b) semi) /\ written (SBreak b semi) /\ grouped (EAtom b) /\ ~ written (SExpr (EAtom b) semi).
Proof.
  split; [reflexivity|]. split; [split; reflexivity|]. split; [cbn [grouped]; grp|]. intros [[_ K] _]. apply K. cbn. tauto.
Qed.

(** The host of C40_host_function gives one result. *)
Example C63_outcome_case :
  (forall id vs m v m' v2 m2, @hosts hf_hosts id vs m v m' -> @hosts hf_hosts id vs m v2 m2 -> v2 = v /\ m2 = m') /\
  exists m', exs (HS := hf_hosts) (fun _ => None) 100 50 hf_E 0 (mkMem hf_globals [] []) hf_l Next m'.
Proof.
  split; [|destruct hf_runs as (m' & H & _); exists m'; exact H].
  intros id vs m v m' v2 m2 (_ & -> & n & -> & -> & _) (_ & -> & n' & Q & -> & _). injection Q as ->. auto.
Qed.
(** That script has no functions of its own. *)
Example C63_scripts_case : swritten hf_l /\ sdefined (fun _ => None) hf_E hf_l /\ all_no_functions hf_l.
Proof. split; [exact hf_written|]. split; [exact hf_defined|]. cbn. tauto. Qed.
