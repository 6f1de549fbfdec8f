(** C32, C33, C34: from script text to tokens. *)
From Coq Require Import ZArith List Lia Bool.
From Verif Require Import VmModel.
From Verif Require Import Base BaseFacts State MonadFacts TokenModel TokenSpec TokenProofs.
Import String.
Import ListNotations.
Local Open Scope Z_scope.

(** A script is a zero-terminated string, so no byte of it is zero. *)
Definition script (s : bytes) : Prop := Forall (fun c => c <> 0) s.

(** Only the list of errors and the list of file names may differ, and both
    only by additions at the end. *)
Definition only_added (a b : vm) : Prop :=
  exists files errs, b = set_files (v_files a ++ files) (set_errs (v_errs a ++ errs) a).

Lemma start f s : is_s32 (t_line (mkT 0 1 f 1 [])) /\ here (mkT 0 1 f 1 []) /\ placed [] s (mkT 0 1 f 1 []).
Proof.
  unfold here, is_s32, placed. cbn [t_line t_act t_i]. unfold W31. change (zlen (@nil Z)) with 0.
  split; [lia|]. split; [split; lia|left; reflexivity].
Qed.

Lemma tokenize_cases s fname vm : live_ctx vm (v_cur vm) -> script s ->
  (exists toks vm', tokenize s fname vm = Ok (Some toks, vm') /\ told (Some toks) vm vm' /\
     exists ps, raws ps = s /\ lexes ps /\ map pair_of toks = joined (tokens_of ps)) \/
  (exists vm', tokenize s fname vm = Ok (None, vm') /\ told (@None (list token)) vm vm') \/
  (tokenize s fname vm = Ub UbSignedOverflow /\ (W31 - 1 <= zlen s \/ In 35 s)) \/
  (tokenize s fname vm = Ub UbOob /\ exists b q, s = b ++ 35 :: q /\ ~ tame q).
Proof.
  intros HL HZ. unfold tokenize. destruct (add_file_ok fname vm) as (f & vm1 & E & HG & HE).
  destruct (start f s) as (_ & HH & HP).
  rewrite (bind_run _ _ _ _ _ E).
  destruct (loop_cases _ s [] (mkT 0 1 f 1 []) vm1 (S (List.length s)) (le_n _) (tgrow_live _ _ HG HL) HH HP HZ (le_n _))
    as [(toks & vm' & E1 & E2 & ps & E3 & E4 & E5)|[(vm' & E1 & E2)|[[E1 E2]|[E1 E2]]]]; cbn [app] in E1.
  - left. exists toks, vm'. split; [exact E1|]. split; [eapply told_step; eauto|]. exists ps. auto.
  - right. left. exists vm'. split; [exact E1|]. eapply told_step; eauto.
  - right. right. left. split; [exact E1|]. cbn [t_act t_line] in E2. destruct E2 as [E2|[E2|E2]]; auto; left; lia.
  - right. right. right. auto.
Qed.

(** ** C33 *)

(** Whenever a script is accepted it is a sequence of complete pieces (space,
    comments, directives, tokens), and the tokens are those of the pieces in
    order, with adjacent string literals joined. *)
Theorem C33_partition s fname vm toks vm' :
  live_ctx vm (v_cur vm) -> script s ->
  tokenize s fname vm = Ok (Some toks, vm') ->
  exists ps, raws ps = s /\ lexes ps /\
    map (fun t => (tk_type t, tk_str t)) toks = joined (tokens_of ps).
Proof.
  intros HL HZ E.
  destruct (tokenize_cases s fname vm HL HZ) as [(t & v & E1 & _ & H)|[(v & E1 & _)|[[E1 _]|[E1 _]]]];
    rewrite E in E1; try discriminate.
  injection E1 as <- <-. exact H.
Qed.
Print Assumptions C33_partition.

(** Every such sequence without directives is accepted, with exactly its
    tokens, each at the line it starts on in the given file; nothing but the
    list of file names changes. *)
Theorem C33_lex ps fname vm :
  lexes ps -> Forall (fun p => ~ is_directive p) ps -> script (raws ps) -> zlen (raws ps) < W31 - 1 ->
  exists file vm',
    tokenize (raws ps) fname vm =
      Ok (Some (map (fun '(ty, t, n) => mkTok ty t n file n) (joined_at (located 1 ps))), vm') /\
    znth (v_files vm') file = Some fname /\
    (vm' = vm \/ (~ In fname (v_files vm) /\ vm' = set_files (v_files vm ++ [fname]) vm)).
Proof.
  intros HX HD HZ HN. unfold tokenize.
  assert (HF : exists f vm1, add_source_file fname vm = Ok (f, vm1) /\ znth (v_files vm1) f = Some fname /\
     (vm1 = vm \/ (~ In fname (v_files vm) /\ vm1 = set_files (v_files vm ++ [fname]) vm))).
  { assert (HQ : forall l a, match find_file l fname (zlen a) with
        | Some i => znth (a ++ l) i = Some fname | None => ~ In fname l end).
    { induction l as [|x l IH]; intro a; cbn [find_file]; [intros []|].
      destruct (bytes_eqb fname x) eqn:Ex.
      - apply bytes_eqb_eq in Ex. subst x. rewrite znth_app_r by lia. rewrite Z.sub_diag. reflexivity.
      - specialize (IH (a ++ [x])). rewrite zlen_app in IH. change (zlen [x]) with 1 in IH.
        destruct (find_file l fname (zlen a + 1)) as [i|].
        + rewrite <- app_assoc in IH. exact IH.
        + intros [->|H]; [|auto]. rewrite bytes_eqb_refl in Ex. discriminate. }
    specialize (HQ (v_files vm) []). change (zlen (@nil bytes)) with 0 in HQ.
    unfold add_source_file, gets, modify, ret, mbind.
    destruct (find_file (v_files vm) fname 0) as [i|].
    - exists i, vm. split; [reflexivity|]. split; [exact HQ|]. auto.
    - eexists. eexists. split; [reflexivity|]. split; [|right; split; [exact HQ|reflexivity]].
      replace (v_files (set_files (v_files vm ++ [fname]) vm)) with (v_files vm ++ [fname]) by (destruct vm; reflexivity).
      rewrite znth_app_r by lia. rewrite Z.sub_diag. reflexivity. }
  destruct HF as (f & vm1 & E & Hf & Hvm). exists f, vm1.
  destruct (start f (raws ps)) as (_ & HH & HP).
  rewrite (bind_run _ _ _ _ _ E). split; [|split; auto].
  assert (HR := loop_reads _ ps [] (mkT 0 1 f 1 []) vm1 (S (List.length (raws ps))) (le_n _) HX HD HH HP eq_refl HZ (le_n _)).
  cbn [app t_toks t_line t_file rev] in HR. rewrite HR by lia.
  rewrite consolidate_ok, join_lines. reflexivity.
Qed.
Print Assumptions C33_lex.

(** So a script has at most one reading. *)
Theorem C33_unambiguous ps qs :
  raws ps = raws qs -> lexes ps -> lexes qs ->
  Forall (fun p => ~ is_directive p) ps -> Forall (fun p => ~ is_directive p) qs ->
  script (raws ps) -> zlen (raws ps) < W31 - 1 ->
  joined_at (located 1 ps) = joined_at (located 1 qs).
Proof.
  intros E HP HQ DP DQ HZ HN.
  destruct (C33_lex ps [] vm_init HP DP HZ HN) as (f & v & E1 & _).
  rewrite E in HZ, HN.
  destruct (C33_lex qs [] vm_init HQ DQ HZ HN) as (f' & v' & E2 & _).
  rewrite E, E2 in E1. injection E1 as E1 _.
  assert (HI : forall l l', map (fun '(ty, t, n) => mkTok ty t n f' n) l = map (fun '(ty, t, n) => mkTok ty t n f n) l' -> l' = l).
  { induction l as [|[[ty t] n] l IH]; intros [|[[ty' t'] n'] l'] H; try discriminate; [reflexivity|].
    cbn [map] in H. injection H as -> -> -> _ H. f_equal. auto. }
  auto.
Qed.
Print Assumptions C33_unambiguous.

(** Tokenization ends on every script: the model's step count never runs out. *)
Theorem C33_terminates s fname vm :
  live_ctx vm (v_cur vm) -> script s -> tokenize s fname vm <> Ub UbFuel.
Proof.
  intros HL HZ E.
  destruct (tokenize_cases s fname vm HL HZ) as [(t & v & E1 & _)|[(v & E1 & _)|[[E1 _]|[E1 _]]]];
    rewrite E in E1; discriminate.
Qed.
Print Assumptions C33_terminates.

(** A script is rejected exactly when an error is recorded, and only errors
    and file names are added. *)
Theorem C33_errors s fname vm o vm' :
  live_ctx vm (v_cur vm) -> script s -> tokenize s fname vm = Ok (o, vm') ->
  only_added vm vm' /\ (o = None <-> v_errs vm' <> v_errs vm).
Proof.
  intros HL HZ E.
  destruct (tokenize_cases s fname vm HL HZ) as [(t & v & E1 & HT & _)|[(v & E1 & HT)|[[E1 _]|[E1 _]]]];
    rewrite E in E1; try discriminate; injection E1 as -> <-; destruct HT as [HG HE]; (split; [exact HG|]).
  - split; [discriminate|contradiction].
  - tauto.
Qed.
Print Assumptions C33_errors.

(** *** Examples *)

Definition ex_vm : vm := vm_init.
Example C33_live_ex : live_ctx ex_vm (v_cur ex_vm).
Proof. vm_compute. eexists. reflexivity. Qed.

(** [var a>=1.5//c] newline ["x" "y\n"] *)
Definition ex_pieces : list piece :=
  [ PToken TK_VAR (bs "var") (bs "var"); PSpace 32; PToken TK_IDENTIFIER (bs "a") (bs "a");
    PToken TK_GE (bs ">=") (bs ">="); PToken TK_FLOAT (bs "1.5") (bs "1.5");
    PComment (bs "//c"); PSpace 10;
    PToken TK_STRING (bs """x""") (bs "x"); PSpace 32;
    PToken TK_STRING (bs """y\n""") (121 :: [10]) ].

Example C33_lexes_ex : lexes ex_pieces.
Proof.
  unfold ex_pieces. cbn [lexes]. repeat split.
  - apply (pa_word 118 (bs "ar") TK_VAR).
    + right; left; lia.
    + change (bs "ar") with [97; 114]. repeat (apply Forall_cons; [left; right; left; lia|]). apply Forall_nil.
    + cbn. unfold letter, digit. lia.
    + left. cbn. tauto.
  - constructor. left. reflexivity.
  - apply (pa_word 97 [] TK_IDENTIFIER).
    + right; left; lia.
    + constructor.
    + cbn. unfold letter, digit. lia.
    + right. split; [reflexivity|]. cbn. intro H. repeat (destruct H as [H|H]; [discriminate H|]). exact H.
  - apply (pa_operator TK_GE (bs ">=")).
    + cbn. tauto.
    + intros t' u Hin E. cbn in Hin.
      repeat (destruct Hin as [<- | Hin]; [cbn in E; try discriminate E; cbn; lia|]). destruct Hin.
  - apply (pa_float 49 (bs ".5")).
    + split; lia.
    + change (bs ".5") with [46; 53]. apply Forall_cons; [right; reflexivity|]. apply Forall_cons; [left; split; lia|]. apply Forall_nil.
    + left. reflexivity.
    + cbn. lia.
    + right. cbn. unfold digit. lia.
  - apply (pa_comment [99]).
    + repeat constructor. lia.
    + cbn. lia.
  - constructor. right; right; left; reflexivity.
  - apply (pa_string [120] [120]). constructor; try lia. constructor.
  - constructor. left. reflexivity.
  - apply (pa_string (121 :: 92 :: [110]) (121 :: [10])). constructor; try lia. constructor. constructor.
Qed.

Example C33_lex_ex :
  tokenize (raws ex_pieces) (bs "f") ex_vm =
    Ok (Some [ mkTok TK_VAR (bs "var") 1 0 1; mkTok TK_IDENTIFIER (bs "a") 1 0 1; mkTok TK_GE (bs ">=") 1 0 1;
               mkTok TK_FLOAT (bs "1.5") 1 0 1; mkTok TK_STRING (bs "xy" ++ [10]) 2 0 2 ],
        set_files [bs "f"] ex_vm).
Proof. vm_compute. reflexivity. Qed.

Example C33_error_ex : exists vm', tokenize (bs "a ~ b") (bs "f") ex_vm = Ok (None, vm').
Proof. vm_compute. eexists. reflexivity. Qed.

(** ** C32 *)

(** No access outside the text or a buffer, and no other undefined step, for
    scripts without directives. *)
Theorem C32_plain_partial s fname vm :
  live_ctx vm (v_cur vm) -> script s -> zlen s < W31 - 1 -> ~ In 35 s ->
  exists o vm', tokenize s fname vm = Ok (o, vm').
Proof.
  intros HL HZ HN H35.
  destruct (tokenize_cases s fname vm HL HZ) as [(t & v & E1 & _)|[(v & E1 & _)|[[E1 [H|H]]|[E1 (b & q & H & _)]]]]; eauto.
  - lia.
  - contradiction.
  - subst s. exfalso. apply H35. apply in_or_app. right. left. reflexivity.
Qed.
Print Assumptions C32_plain_partial.

(** With directives whose quotes are closed on their line: no access outside
    the text or a buffer.  (The line number set by #line can still overflow.) *)
Theorem C32_directives_partial s fname vm :
  live_ctx vm (v_cur vm) -> script s -> directives_closed s ->
  (exists o vm', tokenize s fname vm = Ok (o, vm')) \/ tokenize s fname vm = Ub UbSignedOverflow.
Proof.
  intros HL HZ HD.
  destruct (tokenize_cases s fname vm HL HZ) as [(t & v & E1 & _)|[(v & E1 & _)|[[E1 _]|[E1 (b & q & H & HT)]]]]; eauto.
  exfalso. apply HT. intros l d -> Hl Hd. apply (HD b l d); auto.
Qed.
Print Assumptions C32_directives_partial.

(** What is missing is false: a directive with an open quote is read past the
    end of the text. *)
Theorem C32_open_quote_refuted :
  exists s, script s /\ tokenize s (bs "f") ex_vm = Ub UbOob.
Proof. exists (bs "#file """). split; [repeat constructor; discriminate|vm_compute; reflexivity]. Qed.
Print Assumptions C32_open_quote_refuted.

(** So is one with an escaped quote, although it is closed. *)
Theorem C32_escaped_quote_refuted :
  exists s, script s /\ quotes s = 4 /\ tokenize s (bs "f") ex_vm = Ub UbOob.
Proof.
  exists (bs "#file ""a\""b\"""""). split; [repeat constructor; discriminate|].
  split; vm_compute; reflexivity.
Qed.
Print Assumptions C32_escaped_quote_refuted.

Fixpoint to_line_end (s : bytes) : bytes :=
  match s with [] => [] | c :: r => if c =? 10 then [] else c :: to_line_end r end.
Fixpoint closed_b (s : bytes) : bool :=
  match s with
  | [] => true
  | c :: r =>
    (if c =? 35 then Z.even (quotes (to_line_end r)) && negb (existsb (Z.eqb 92) (to_line_end r)) else true)
    && closed_b r
  end.
Lemma closed_b_ok s : closed_b s = true -> directives_closed s.
Proof.
  intros H a l b E Hl Hb.
  assert (HT : to_line_end (l ++ b) = l).
  { clear E. induction Hl as [|c l Hc Hl IH]; cbn [app to_line_end].
    - destruct b as [|c b]; [reflexivity|]. cbn in Hb |- *. destruct (c =? 10) eqn:E; [reflexivity|lia].
    - destruct (c =? 10) eqn:E; [lia|]. now rewrite IH. }
  assert (H1 : closed_b (35 :: l ++ b) = true).
  { revert a E. induction s as [|c s IH]; intros a E; [destruct a; discriminate|].
    destruct a as [|x a]; [cbn [app] in E; rewrite <- E; exact H|].
    cbn [app] in E. injection E as _ E. apply andb_prop in H. destruct H as [_ H]. eauto. }
  cbn [closed_b] in H1. change (35 =? 35) with true in H1. cbv iota in H1. rewrite HT in H1.
  apply andb_prop in H1. destruct H1 as [H1 _]. apply andb_prop in H1. destruct H1 as [H1 H2].
  split; [exact H1|]. intro Hin. destruct (existsb (Z.eqb 92) l) eqn:Ex; [discriminate|].
  assert (existsb (Z.eqb 92) l = true); [|congruence]. apply existsb_exists. exists 92. split; [auto|reflexivity].
Qed.

Example C32_directives_ex :
  let s := bs "#file ""a""" ++ 10 :: bs "#line 5 ""b""" ++ [10; 10] ++ bs "x" in
  directives_closed s /\ script s /\
  tokenize s (bs "f") ex_vm = Ok (Some [mkTok TK_IDENTIFIER (bs "x") 6 2 2], set_files [bs "f"; bs "a"; bs "b"] ex_vm).
Proof.
  cbv zeta. split; [apply closed_b_ok; vm_compute; reflexivity|].
  split; [repeat constructor; discriminate|vm_compute; reflexivity].
Qed.

(** And the line number can leave its type. *)
Theorem C32_line_number_refuted :
  exists s, script s /\ directives_closed s /\ tokenize s (bs "f") ex_vm = Ub UbSignedOverflow.
Proof.
  exists (bs "#line 2147483647" ++ [10; 10]). split; [repeat constructor; discriminate|].
  split; [apply closed_b_ok; vm_compute; reflexivity|vm_compute; reflexivity].
Qed.
Print Assumptions C32_line_number_refuted.

(** ** C34 *)

Lemma quoted_script b : script b -> script (bs """" ++ b ++ bs """").
Proof.
  intro H. change (bs """") with [34]. constructor; [lia|]. apply Forall_app. split; [exact H|].
  constructor; [lia|constructor].
Qed.

(** A literal yields one string token holding the text it denotes, whatever
    its contents. *)
Theorem C34_literal b t fname vm :
  decodes b t -> script b -> zlen b < W31 - 3 ->
  exists file vm',
    tokenize (bs """" ++ b ++ bs """") fname vm = Ok (Some [mkTok TK_STRING t 1 file 1], vm').
Proof.
  intros HD HZ HN.
  assert (HL : lexes [PToken TK_STRING (bs """" ++ b ++ bs """") t]).
  { cbn [lexes raws]. split; [constructor; auto|exact I]. }
  assert (HR : raws [PToken TK_STRING (bs """" ++ b ++ bs """") t] = bs """" ++ b ++ bs """").
  { cbn [raws raw]. apply app_nil_r. }
  destruct (C33_lex _ fname vm HL) as (f & vm' & E & _); rewrite ?HR in *.
  - repeat constructor. intros [].
  - apply quoted_script. exact HZ.
  - rewrite !zl_app. change (zlen (bs """")) with 1. lia.
  - exists f, vm'. exact E.
Qed.
Print Assumptions C34_literal.

(** A literal body denotes at most one text. *)
Theorem C34_decodes_function b t t' : decodes b t -> decodes b t' -> t = t'.
Proof.
  intro H. revert t'. induction H; intros t' H'; inversion H'; subst; try reflexivity; try contradiction; try (f_equal; auto; fail);
    try (exfalso; match goal with HN : ~ In _ _ |- _ => apply HN; cbn; tauto end).
  do 2 f_equal. auto.
Qed.
Print Assumptions C34_decodes_function.

(** Text without backslash, quote or line end stands for itself. *)
Theorem C34_decodes_plain b : Forall (fun c => c <> 10 /\ c <> 34 /\ c <> 92) b -> decodes b b.
Proof. induction 1 as [|c b (H1 & H2 & H3) _ IH]; constructor; auto. Qed.
Print Assumptions C34_decodes_plain.

(** Decoding stays inside a buffer of the literal's length plus two, for any
    characters at all. *)
Theorem C34_buffer b : exists t, unescape b = Ok t.
Proof. exact (unescape_total b). Qed.
Print Assumptions C34_buffer.

(** Adjacent literals, separated by any space, are one token with the texts
    joined. *)
Theorem C34_adjacent b1 t1 b2 t2 w fname vm :
  decodes b1 t1 -> decodes b2 t2 -> script b1 -> script b2 -> Forall space w ->
  zlen b1 + zlen w + zlen b2 < W31 - 5 ->
  exists file vm',
    tokenize ((bs """" ++ b1 ++ bs """") ++ w ++ (bs """" ++ b2 ++ bs """")) fname vm =
      Ok (Some [mkTok TK_STRING (t1 ++ t2) 1 file 1], vm').
Proof.
  intros H1 H2 Z1 Z2 HW HN.
  set (q1 := bs """" ++ b1 ++ bs """"). set (q2 := bs """" ++ b2 ++ bs """").
  set (ps := PToken TK_STRING q1 t1 :: map PSpace w ++ [PToken TK_STRING q2 t2]).
  assert (HR : raws ps = q1 ++ w ++ q2).
  { unfold ps. cbn [raws raw]. rewrite raws_spaces. cbn [raws raw]. now rewrite app_nil_r. }
  assert (HL : lexes ps).
  { unfold ps. cbn [lexes]. split; [constructor; auto|]. apply lexes_spaces; [auto|]. cbn [lexes]. split; [constructor; auto|exact I]. }
  destruct (C33_lex ps fname vm HL) as (f & vm' & E & _); rewrite ?HR in *.
  - constructor; [intros []|]. apply Forall_app. split; [|repeat constructor; intros []].
    apply Forall_forall. intros p Hp. apply in_map_iff in Hp. destruct Hp as (c & <- & _). intros [].
  - apply Forall_app. split; [|apply Forall_app; split].
    + apply quoted_script. exact Z1.
    + eapply Forall_impl; [|exact HW]. unfold space. intros c Hc. cbn in Hc. lia.
    + apply quoted_script. exact Z2.
  - unfold q1, q2. rewrite !zl_app. change (zlen (bs """")) with 1. lia.
  - exists f, vm'. rewrite E. unfold ps. cbn [located]. rewrite located_spaces. cbn [located joined_at]. reflexivity.
Qed.
Print Assumptions C34_adjacent.

(** Tab and quote are decoded, backslash q is kept. *)
Example C34_ex : decodes (bs "a\tb\q\""") ([97; 9; 98; 92; 113; 34]) /\
  unescape (bs "a\tb\q\""") = Ok [97; 9; 98; 92; 113; 34].
Proof.
  split; [|vm_compute; reflexivity].
  apply dc_plain; try lia. apply dc_t. apply dc_plain; try lia. apply dc_other; [cbn; lia|]. apply dc_quote. constructor.
Qed.
