(** * TokenProofs: lemmas about the tokenizer *)

From Verif Require Import Base BaseFacts State MonadFacts StrModel StrSpec TokenModel TokenSpec.
Import String.

Ltac Zify.zify_post_hook ::= Z.div_mod_to_equations.

(** ** Reading *)

Lemma zl_app {A} (a b : list A) : zlen (a ++ b) = zlen a + zlen b.
Proof. unfold zlen. rewrite app_length. lia. Qed.
Lemma zl_cons {A} (x : A) b : zlen (x :: b) = 1 + zlen b.
Proof. unfold zlen. cbn [List.length]. lia. Qed.
Lemma zl_nn {A} (b : list A) : 0 <= zlen b.
Proof. unfold zlen. lia. Qed.

Lemma rd_app {A} (a : list A) c b : rd (a ++ c :: b) (zlen a) = Ok c.
Proof.
  unfold rd, znth. rewrite zl_app, zl_cons.
  assert (H := zl_nn a). assert (H' := zl_nn b).
  destruct (zlen a <? 0) eqn:E; [lia|]. cbn [orb].
  destruct (zlen a + (1 + zlen b) <=? zlen a) eqn:E2; [lia|].
  unfold zlen. rewrite Nat2Z.id, nth_error_app2, Nat.sub_diag by lia. reflexivity.
Qed.

Lemma ch_app a b : ch (a ++ b) (zlen a) = Ok (hd 0 b).
Proof.
  unfold ch. rewrite zl_app. destruct b as [|c b]; cbn [hd].
  - change (zlen (@nil Z)) with 0. rewrite Z.add_0_r, Z.eqb_refl. reflexivity.
  - destruct (zlen a =? zlen a + zlen (c :: b)) eqn:E.
    { rewrite zl_cons in E. pose proof (zl_nn b). lia. }
    apply rd_app.
Qed.

Lemma ch_at s i a b : s = a ++ b -> i = zlen a -> ch s i = Ok (hd 0 b).
Proof. intros -> ->. apply ch_app. Qed.

Lemma wr_app {A} (a : list A) x b y : wr (a ++ x :: b) (zlen a) y = Ok (a ++ y :: b).
Proof.
  unfold wr. generalize (rd_app a x b). unfold rd.
  destruct (znth (a ++ x :: b) (zlen a)); [|discriminate]. intros _.
  unfold zupd. pose proof (zl_nn a). destruct (zlen a <? 0) eqn:E; [lia|].
  unfold zlen. rewrite Nat2Z.id. f_equal. clear.
  induction a as [|z a IH]; cbn; [reflexivity|]. now rewrite IH.
Qed.

Lemma sub_app a b c : sub (a ++ b ++ c) (zlen a) (zlen b) = Ok b.
Proof.
  unfold sub. rewrite !zl_app. pose proof (zl_nn a). pose proof (zl_nn b). pose proof (zl_nn c).
  destruct (0 <=? zlen a) eqn:E1; [|lia]. destruct (0 <=? zlen b) eqn:E2; [|lia].
  destruct (zlen a + zlen b <=? zlen a + (zlen b + zlen c)) eqn:E3; [|lia]. cbn [andb].
  unfold zlen. rewrite !Nat2Z.id. rewrite skipn_app, skipn_all, Nat.sub_diag. cbn [skipn app].
  rewrite firstn_app, Nat.sub_diag, firstn_all. cbn [firstn]. now rewrite app_nil_r.
Qed.

Lemma sub_at s i n a b c : s = a ++ b ++ c -> i = zlen a -> n = zlen b -> sub s i n = Ok b.
Proof. intros -> -> ->. apply sub_app. Qed.

(** ** Scanning *)

Lemma scan_ok p b1 : forall a b2 f,
  Forall (fun c => p c = true) b1 -> p (hd 0 b2) = false -> (List.length b1 < f)%nat ->
  scan f p (a ++ b1 ++ b2) (zlen a) = Ok (zlen a + zlen b1).
Proof.
  induction b1 as [|c b1 IH]; intros a b2 f HF HN Hf; (destruct f as [|f]; [cbn in Hf; lia|]); cbn [scan].
  - cbn [app]. rewrite ch_app. cbn [bind]. rewrite HN. change (zlen (@nil Z)) with 0.
    now rewrite Z.add_0_r.
  - cbn [app]. rewrite ch_app. cbn [bind hd]. inversion HF; subst. rewrite H1.
    replace (a ++ c :: b1 ++ b2) with ((a ++ [c]) ++ b1 ++ b2) by now rewrite <- app_assoc.
    replace (zlen a + 1) with (zlen (a ++ [c])) by (rewrite zl_app; reflexivity).
    rewrite IH; auto. 2:{ cbn in Hf. lia. }
    f_equal. rewrite zl_app, zl_cons, zl_cons. change (zlen (@nil Z)) with 0. lia.
Qed.

Lemma scan_at p s i a b1 b2 :
  s = a ++ b1 ++ b2 -> i = zlen a ->
  Forall (fun c => p c = true) b1 -> p (hd 0 b2) = false ->
  scan_from p s i = Ok (zlen a + zlen b1).
Proof.
  intros -> -> H1 H2. unfold scan_from. apply scan_ok; auto. rewrite !app_length. lia.
Qed.

(** Cutting a text after the longest prefix of such characters. *)
Lemma span (p : Z -> bool) (r : bytes) : exists b1 b2,
  r = b1 ++ b2 /\ Forall (fun c => p c = true) b1 /\
  match b2 with [] => True | c :: _ => p c = false end.
Proof.
  induction r as [|c r IH].
  - exists [], []. auto.
  - destruct (p c) eqn:E.
    + destruct IH as (b1 & b2 & -> & H1 & H2). exists (c :: b1), b2. auto.
    + exists [], (c :: r). auto.
Qed.

(** ** Escapes *)

Lemma decodes_len b t : decodes b t -> (List.length t <= List.length b)%nat.
Proof. induction 1; cbn [List.length] in *; lia. Qed.

Lemma rep_S k : (0 < k)%nat -> repeat 0 k = 0 :: repeat 0 (k - 1).
Proof. intro H. destruct k; [lia|]. cbn [repeat]. replace (S k - 1)%nat with k by lia. reflexivity. Qed.

Lemma wr_next o k y : (0 < k)%nat ->
  wr (o ++ repeat 0 k) (zlen o) y = Ok ((o ++ [y]) ++ repeat 0 (k - 1)).
Proof. intro H. rewrite rep_S by lia. rewrite wr_app, <- app_assoc. reflexivity. Qed.

(** One turn of the loop. *)
Lemma un_plain f a c r o k : c <> 92 -> (0 < k)%nat ->
  unescape_loop (S f) (a ++ c :: r) (zlen a) (zlen o) (o ++ repeat 0 k) =
  unescape_loop f ((a ++ [c]) ++ r) (zlen (a ++ [c])) (zlen (o ++ [c])) ((o ++ [c]) ++ repeat 0 (k - 1)).
Proof.
  intros Hc Hk. cbn [unescape_loop].
  destruct (zlen a <? zlen (a ++ c :: r)) eqn:E.
  2:{ rewrite zl_app, zl_cons in E. pose proof (zl_nn r). lia. }
  rewrite ch_app. cbn [bind hd]. destruct (c =? 92) eqn:E2; [lia|].
  rewrite wr_next by auto. cbn [bind].
  rewrite <- (app_assoc a [c] r). rewrite !zl_app. reflexivity.
Qed.

Definition esc (d : Z) : bytes :=
  if d =? 110 then [10] else if d =? 114 then [13] else if d =? 116 then [9]
  else if d =? 34 then [34] else [92; d].

Lemma un_escape f a d r o k : (1 < k)%nat ->
  unescape_loop (S f) (a ++ 92 :: d :: r) (zlen a) (zlen o) (o ++ repeat 0 k) =
  unescape_loop f ((a ++ [92; d]) ++ r) (zlen (a ++ [92; d])) (zlen (o ++ esc d))
    ((o ++ esc d) ++ repeat 0 (k - List.length (esc d))).
Proof.
  intros Hk. cbn [unescape_loop].
  destruct (zlen a <? zlen (a ++ 92 :: d :: r)) eqn:E.
  2:{ rewrite zl_app, zl_cons in E. pose proof (zl_nn (d :: r)). lia. }
  rewrite ch_app. cbn [bind hd]. change (92 =? 92) with true. cbv iota.
  rewrite (ch_at _ (zlen a + 1) (a ++ [92]) (d :: r));
    [|now rewrite <- app_assoc|rewrite zl_app; reflexivity].
  cbn [bind hd].
  rewrite <- (app_assoc a [92; d] r). rewrite !zl_app. unfold esc.
  destruct (d =? 110); [rewrite wr_next by lia; reflexivity|].
  destruct (d =? 114); [rewrite wr_next by lia; reflexivity|].
  destruct (d =? 116); [rewrite wr_next by lia; reflexivity|].
  destruct (d =? 34); [rewrite wr_next by lia; reflexivity|].
  rewrite wr_next by lia. cbn [bind].
  replace (zlen o + 1) with (zlen (o ++ [92])) by (rewrite zl_app; reflexivity).
  rewrite wr_next by lia. cbn [bind]. rewrite <- (app_assoc o [92] [d]). cbn [app List.length].
  replace (k - 1 - 1)%nat with (k - 2)%nat by lia. reflexivity.
Qed.

Lemma unescape_steps b t : decodes b t -> forall a b2 o k f,
  (List.length b + List.length b2 + 2 <= k)%nat -> (List.length b + List.length b2 < f)%nat ->
  exists f2, (List.length b2 < f2)%nat /\
  unescape_loop f (a ++ b ++ b2) (zlen a) (zlen o) (o ++ repeat 0 k) =
  unescape_loop f2 ((a ++ b) ++ b2) (zlen (a ++ b)) (zlen (o ++ t)) ((o ++ t) ++ repeat 0 (k - List.length t)).
Proof.
  assert (Q : forall d b t, decodes b t ->
    (forall a b2 o k f, (List.length b + List.length b2 + 2 <= k)%nat ->
       (List.length b + List.length b2 < f)%nat ->
       exists f2, (List.length b2 < f2)%nat /\
       unescape_loop f (a ++ b ++ b2) (zlen a) (zlen o) (o ++ repeat 0 k) =
       unescape_loop f2 ((a ++ b) ++ b2) (zlen (a ++ b)) (zlen (o ++ t))
         ((o ++ t) ++ repeat 0 (k - List.length t))) ->
    forall (a b2 o : bytes) k f, (List.length (92%Z :: d :: b) + List.length b2 + 2 <= k)%nat ->
       (List.length (92%Z :: d :: b) + List.length b2 < f)%nat ->
       exists f2, (List.length b2 < f2)%nat /\
       unescape_loop f (a ++ (92 :: d :: b) ++ b2) (zlen a) (zlen o) (o ++ repeat 0 k) =
       unescape_loop f2 ((a ++ 92 :: d :: b) ++ b2) (zlen (a ++ 92 :: d :: b)) (zlen (o ++ esc d ++ t))
         ((o ++ esc d ++ t) ++ repeat 0 (k - List.length (esc d ++ t)))).
  { clear b t. intros d b t0 Hd IH a b2 o k f Hk Hf. cbn [List.length] in Hk, Hf.
    destruct f as [|f]; [lia|]. cbn [app]. rewrite un_escape by lia.
    assert (Hl : (List.length (esc d) <= 2)%nat).
    { unfold esc. repeat destruct (_ =? _); cbn; lia. }
    destruct (IH (a ++ [92; d]) b2 (o ++ esc d) (k - List.length (esc d))%nat f) as (f2 & Hf2 & E);
      [lia|lia|].
    exists f2. split; [auto|]. rewrite E.
    rewrite app_length.
    replace (k - List.length (esc d) - List.length t0)%nat with
            (k - (List.length (esc d) + List.length t0))%nat by lia.
    rewrite <- !(app_assoc o (esc d) t0).
    rewrite <- !(app_assoc a [92; d] b). reflexivity. }
  induction 1; intros a b2 o k f Hk Hf.
  - exists f. split; [cbn in Hf; lia|]. rewrite !app_nil_r. cbn [List.length]. rewrite Nat.sub_0_r. reflexivity.
  - cbn [List.length] in Hk, Hf. destruct f as [|f]; [lia|]. cbn [app].
    rewrite un_plain by (auto; lia).
    destruct (IHdecodes (a ++ [c]) b2 (o ++ [c]) (k - 1)%nat f) as (f2 & Hf2 & E); [lia|lia|].
    exists f2. split; [auto|]. rewrite E. cbn [List.length].
    replace (k - 1 - List.length t)%nat with (k - S (List.length t))%nat by lia.
    rewrite <- !(app_assoc o [c] t). rewrite <- !(app_assoc a [c] b). reflexivity.
  - exact (Q 110 b t H IHdecodes a b2 o k f Hk Hf).
  - exact (Q 114 b t H IHdecodes a b2 o k f Hk Hf).
  - exact (Q 116 b t H IHdecodes a b2 o k f Hk Hf).
  - exact (Q 34 b t H IHdecodes a b2 o k f Hk Hf).
  - assert (Ee : esc c = [92; c]).
    { unfold esc. cbn in H.
      destruct (c =? 110) eqn:E1; [exfalso; apply H; lia|].
      destruct (c =? 114) eqn:E2; [exfalso; apply H; lia|].
      destruct (c =? 116) eqn:E3; [exfalso; apply H; lia|].
      destruct (c =? 34) eqn:E4; [exfalso; apply H; lia|]. reflexivity. }
    generalize (Q c b t H0 IHdecodes a b2 o k f Hk Hf). rewrite Ee. auto.
Qed.

Lemma cstr_app t r : Forall (fun c => c <> 0) t -> cstr (t ++ 0 :: r) = t.
Proof.
  induction 1; cbn [app cstr]; [reflexivity|].
  destruct (x =? 0) eqn:E; [lia|]. now rewrite IHForall.
Qed.

Lemma decodes_nz b t : decodes b t -> Forall (fun c => c <> 0) b -> Forall (fun c => c <> 0) t.
Proof.
  induction 1; intro HF; auto; repeat (inversion HF; subst; clear HF; rename H3 into HF || idtac);
  repeat match goal with H : Forall _ (_ :: _) |- _ => inversion H; subst; clear H end;
  repeat constructor; auto; lia.
Qed.

Lemma unescape_ok b t : decodes_open b t -> Forall (fun c => c <> 0) b -> unescape b = Ok t.
Proof.
  intros Hd HF. unfold unescape. destruct Hd as [b t Hd|b t Hd].
  - destruct (unescape_steps b t Hd [] [] [] (List.length b + 2)%nat (S (List.length b))) as (f2 & Hf & E);
      [cbn; lia|cbn; lia|].
    cbn [app] in E. rewrite app_nil_r in E. change (zlen (@nil Z)) with 0 in E. rewrite E. clear E.
    destruct f2 as [|f2]; [lia|]. cbn [unescape_loop]. rewrite Z.ltb_irrefl. cbn [bind].
    assert (Hl := decodes_len _ _ Hd).
    rewrite wr_next by lia. cbn [bind]. rewrite <- app_assoc. cbn [app].
    rewrite cstr_app; auto. eapply decodes_nz; eauto.
  - apply Forall_app in HF. destruct HF as [HF _].
    destruct (unescape_steps b t Hd [] [92] [] (List.length (b ++ [92%Z]) + 2)%nat (S (List.length (b ++ [92%Z]))))
      as (f2 & Hf & E); [rewrite app_length; cbn; lia|rewrite app_length; cbn; lia|].
    cbn [app] in E. change (zlen (@nil Z)) with 0 in E. rewrite E. clear E.
    assert (Hl := decodes_len _ _ Hd).
    assert (Hk : (2 < List.length (b ++ [92%Z]) + 2 - List.length t)%nat) by (rewrite app_length; cbn; lia).
    revert Hk. generalize (List.length (b ++ [92%Z]) + 2 - List.length t)%nat. intros k Hk.
    cbn [List.length] in Hf. destruct f2 as [|f2]; [lia|]. cbn [unescape_loop].
    destruct (zlen b <? zlen (b ++ [92])) eqn:E; [|rewrite zl_app in E; change (zlen [92]) with 1 in E; lia].
    rewrite ch_app. cbn [bind hd]. change (92 =? 92) with true. cbv iota.
    rewrite (ch_at _ (zlen b + 1) (b ++ [92]) []);
      [|now rewrite app_nil_r|rewrite zl_app; reflexivity].
    cbn [bind hd]. change (0 =? 110) with false. change (0 =? 114) with false.
    change (0 =? 116) with false. change (0 =? 34) with false. cbv iota.
    rewrite wr_next by lia. cbn [bind].
    replace (zlen t + 1) with (zlen (t ++ [92])) by (rewrite zl_app; reflexivity).
    rewrite wr_next by lia. cbn [bind].
    destruct f2 as [|f2]; [lia|]. cbn [unescape_loop].
    destruct (zlen b + 2 <? zlen (b ++ [92])) eqn:E2; [rewrite zl_app in E2; change (zlen [92]) with 1 in E2; lia|].
    cbn [bind].
    replace (zlen t + 2) with (zlen ((t ++ [92]) ++ [0])) by (rewrite !zl_app; cbn; lia).
    rewrite wr_next by lia. cbn [bind]. rewrite <- (app_assoc (t ++ [92])), <- app_assoc. cbn [app].
    replace (t ++ 92 :: 0 :: 0 :: repeat 0 (k - 1 - 1 - 1)) with
            ((t ++ [92]) ++ 0 :: 0 :: repeat 0 (k - 1 - 1 - 1)) by now rewrite <- app_assoc.
    f_equal. apply cstr_app. apply Forall_app. split; [eapply decodes_nz; eauto|]. constructor; [lia|auto].
Qed.

(** ** String literals *)

Lemma qe_plain f a c r : c <> 92 -> c <> 34 -> c <> 10 -> c <> 0 ->
  quote_end (S f) (a ++ c :: r) (zlen a) false = quote_end f ((a ++ [c]) ++ r) (zlen (a ++ [c])) false.
Proof.
  intros. cbn [quote_end]. rewrite ch_app. cbn [bind hd].
  destruct (c =? 0) eqn:E0; [lia|]. destruct (c =? 34) eqn:E1; [lia|].
  destruct (c =? 10) eqn:E2; [lia|]. destruct (c =? 92) eqn:E3; [lia|]. cbn [negb orb andb].
  rewrite <- (app_assoc a [c] r), zl_app. reflexivity.
Qed.

Lemma qe_escape f a d r : d <> 10 -> d <> 0 ->
  quote_end (S (S f)) (a ++ 92 :: d :: r) (zlen a) false =
  quote_end f ((a ++ [92; d]) ++ r) (zlen (a ++ [92; d])) false.
Proof.
  intros H1 H0. cbn [quote_end]. rewrite ch_app. cbn [bind hd].
  change (92 =? 0) with false. change (92 =? 34) with false. change (92 =? 10) with false.
  change (92 =? 92) with true. cbn [negb orb andb].
  rewrite (ch_at _ (zlen a + 1) (a ++ [92]) (d :: r));
    [|now rewrite <- app_assoc|rewrite zl_app; reflexivity].
  cbn [bind hd]. destruct (d =? 0) eqn:E0; [lia|]. destruct (d =? 10) eqn:E2; [lia|]. cbn [negb orb andb].
  rewrite <- (app_assoc a [92; d] r), zl_app. change (zlen [92; d]) with 2.
  replace (zlen a + 1 + 1) with (zlen a + 2) by lia.
  destruct (d =? 92); reflexivity.
Qed.

Lemma quote_steps b t : decodes b t -> Forall (fun c => c <> 0) b -> forall a b2 f,
  (List.length b + List.length b2 < f)%nat ->
  exists f2, (List.length b2 < f2)%nat /\
  quote_end f (a ++ b ++ b2) (zlen a) false = quote_end f2 ((a ++ b) ++ b2) (zlen (a ++ b)) false.
Proof.
  assert (Q : forall d b, d <> 10 -> d <> 0 ->
    (forall a b2 f, (List.length b + List.length b2 < f)%nat ->
      exists f2, (List.length b2 < f2)%nat /\
      quote_end f (a ++ b ++ b2) (zlen a) false = quote_end f2 ((a ++ b) ++ b2) (zlen (a ++ b)) false) ->
    forall a b2 f, (List.length (92%Z :: d :: b) + List.length b2 < f)%nat ->
      exists f2, (List.length b2 < f2)%nat /\
      quote_end f (a ++ (92 :: d :: b) ++ b2) (zlen a) false =
      quote_end f2 ((a ++ 92 :: d :: b) ++ b2) (zlen (a ++ 92 :: d :: b)) false).
  { clear b t. intros d b H1 H0 IH a b2 f Hf. cbn [List.length] in Hf.
    destruct f as [|[|f]]; [lia|lia|]. cbn [app]. rewrite qe_escape by auto.
    destruct (IH (a ++ [92; d]) b2 f) as (f2 & Hf2 & E); [lia|].
    exists f2. split; [auto|]. rewrite E. rewrite <- !(app_assoc a [92; d] b). reflexivity. }
  induction 1; intros HF a b2 f Hf.
  - exists f. split; [cbn in Hf; lia|]. now rewrite app_nil_r.
  - inversion HF; subst. cbn [List.length] in Hf. destruct f as [|f]; [lia|]. cbn [app].
    rewrite qe_plain by auto.
    destruct (IHdecodes H6 (a ++ [c]) b2 f) as (f2 & Hf2 & E); [lia|].
    exists f2. split; [auto|]. rewrite E. rewrite <- !(app_assoc a [c] b). reflexivity.
  - inversion HF as [|? ? _ HF2]; inversion HF2; subst. refine (Q 110 b _ _ (IHdecodes _) a b2 f Hf); auto; lia.
  - inversion HF as [|? ? _ HF2]; inversion HF2; subst. refine (Q 114 b _ _ (IHdecodes _) a b2 f Hf); auto; lia.
  - inversion HF as [|? ? _ HF2]; inversion HF2; subst. refine (Q 116 b _ _ (IHdecodes _) a b2 f Hf); auto; lia.
  - inversion HF as [|? ? _ HF2]; inversion HF2; subst. refine (Q 34 b _ _ (IHdecodes _) a b2 f Hf); auto; lia.
  - inversion HF as [|? ? _ HF2]; inversion HF2; subst. refine (Q c b _ _ (IHdecodes _) a b2 f Hf); auto.
    intros ->. apply H. cbn. tauto.
Qed.

Lemma quote_closed b t a rest f : decodes b t -> Forall (fun c => c <> 0) b ->
  (List.length (a ++ b ++ 34%Z :: rest) < f)%nat ->
  quote_end f (a ++ b ++ 34 :: rest) (zlen a) false = Ok (Some (zlen a + zlen b)).
Proof.
  intros Hd HF Hf. rewrite !app_length in Hf.
  destruct (quote_steps b t Hd HF a (34 :: rest) f) as (f2 & Hf2 & E); [lia|].
  rewrite E. destruct f2 as [|f2]; [lia|]. cbn [quote_end]. rewrite ch_app. cbn [bind hd].
  change (34 =? 34) with true. rewrite Bool.andb_false_r. now rewrite zl_app.
Qed.

Lemma quote_open b t a f : decodes_open b t -> Forall (fun c => c <> 0) b ->
  (List.length (a ++ b) < f)%nat ->
  quote_end f (a ++ b) (zlen a) false = Ok (Some (zlen a + zlen b)).
Proof.
  intros Hd HF Hf. rewrite app_length in Hf. destruct Hd as [b t Hd|b t Hd].
  - destruct (quote_steps b t Hd HF a [] f) as (f2 & Hf2 & E); [cbn; lia|].
    rewrite app_nil_r in E. rewrite E. destruct f2 as [|f2]; [lia|]. cbn [quote_end]. rewrite ch_app. cbn [bind hd].
    now rewrite zl_app.
  - apply Forall_app in HF. destruct HF as [HF _]. rewrite app_length in Hf. cbn in Hf.
    destruct (quote_steps b t Hd HF a [92] f) as (f2 & Hf2 & E); [cbn; lia|].
    rewrite E. cbn in Hf2. destruct f2 as [|[|f2]]; [lia|lia|]. cbn [quote_end]. rewrite ch_app. cbn [bind hd].
    change (92 =? 0) with false. change (92 =? 34) with false. change (92 =? 10) with false.
    change (92 =? 92) with true. cbn [negb orb andb].
    rewrite (ch_at _ (zlen (a ++ b) + 1) ((a ++ b) ++ [92]) []);
      [|now rewrite app_nil_r|rewrite !zl_app; reflexivity].
    cbn [bind hd]. change (0 =? 0) with true. cbn [negb andb]. rewrite !zl_app. change (zlen [92]) with 1.
    do 2 f_equal. lia.
Qed.

(** Every text after a quote is one of: closed literal, literal open to the
    end, or literal with a newline inside. *)
Lemma quote_cases : forall n r, (List.length r <= n)%nat -> Forall (fun c => c <> 0) r ->
  (exists b t rest, r = b ++ 34 :: rest /\ decodes b t) \/
  (exists t, decodes_open r t) \/
  (forall a f, (List.length r < f)%nat -> quote_end f (a ++ r) (zlen a) false = Ok None).
Proof.
  induction n as [|n IH]; intros r Hn HF.
  - destruct r; [|cbn in Hn; lia]. right. left. exists []. constructor. constructor.
  - destruct r as [|c r]; [right; left; exists []; constructor; constructor|].
    cbn [List.length] in Hn. inversion HF; subst.
    destruct (Z.eq_dec c 34) as [->|N34].
    { left. exists [], [], r. split; [reflexivity|constructor]. }
    destruct (Z.eq_dec c 10) as [->|N10].
    { right. right. intros a f Hf. destruct f as [|f]; [lia|]. cbn [quote_end]. rewrite ch_app. reflexivity. }
    destruct (Z.eq_dec c 92) as [->|N92].
    + destruct r as [|d r].
      { right. left. exists ([] ++ [92]). apply (do_backslash [] []). constructor. }
      cbn [List.length] in Hn. inversion H2; subst.
      destruct (Z.eq_dec d 10) as [->|Nd].
      { right. right. intros a f Hf. cbn [List.length] in Hf. destruct f as [|[|f]]; [lia|lia|].
        cbn [quote_end]. rewrite ch_app. cbn [bind hd].
        change (92 =? 0) with false. change (92 =? 34) with false. change (92 =? 10) with false.
        change (92 =? 92) with true. cbn [negb orb andb].
        rewrite (ch_at _ (zlen a + 1) (a ++ [92]) (10 :: r));
          [|now rewrite <- app_assoc|rewrite zl_app; reflexivity]. reflexivity. }
      assert (Hx : forall b t, decodes b t -> exists t', decodes (92 :: d :: b) t').
      { intros b t Hb.
        destruct (in_dec Z.eq_dec d [110; 114; 116; 34; 10]) as [Hi|Hi].
        - destruct Hi as [<-|[<-|[<-|[<-|[<-|[]]]]]]; try (eexists; constructor; eassumption). lia.
        - eexists. apply dc_other; eauto. }
      destruct (IH r) as [(b & t & rest & -> & Hd)|[(t & Hd)|Hq]]; [lia|auto| | |].
      * left. destruct (Hx b t Hd) as (t' & Ht'). exists (92 :: d :: b), t', rest. auto.
      * right. left. destruct Hd as [b t Hd|b t Hd]; destruct (Hx b t Hd) as (t' & Ht').
        -- exists t'. constructor. auto.
        -- exists (t' ++ [92]). apply (do_backslash (92 :: d :: b) t'). auto.
      * right. right. intros a f Hf. cbn [List.length] in Hf. destruct f as [|[|f]]; [lia|lia|].
        rewrite qe_escape by auto. apply Hq. lia.
    + destruct (IH r) as [(b & t & rest & -> & Hd)|[(t & Hd)|Hq]]; [lia|auto| | |].
      * left. exists (c :: b), (c :: t), rest. split; [reflexivity|]. constructor; auto.
      * right. left. destruct Hd as [b t Hd|b t Hd].
        -- exists (c :: t). constructor. constructor; auto.
        -- exists ((c :: t) ++ [92]). apply (do_backslash (c :: b) (c :: t)). constructor; auto.
      * right. right. intros a f Hf. cbn [List.length] in Hf. destruct f as [|f]; [lia|].
        rewrite qe_plain by auto. apply Hq. lia.
Qed.

(** ** Numbers *)

Definition nchar (c : Z) : bool := is_num c || (c =? 46).

Lemma nchar_iff c : nchar c = true <-> digit c \/ c = 46.
Proof. unfold nchar, is_num, digit. lia. Qed.

Lemma number_steps b2 : forall a b1 r isf f,
  Forall (fun c => nchar c = true) b2 -> (List.length b1 + List.length b2 <= 255)%nat ->
  ((List.length b1 + List.length b2)%nat = 255%nat \/ match r with [] => True | c :: _ => nchar c = false end) ->
  (List.length b2 < f)%nat ->
  number_loop f (a ++ b1 ++ b2 ++ r) (zlen a) (zlen (a ++ b1)) isf (b1 ++ repeat 0 (256 - List.length b1)) =
  Ok (zlen (a ++ b1 ++ b2), isf || existsb (Z.eqb 46) b2, (b1 ++ b2) ++ repeat 0 (256 - List.length (b1 ++ b2))).
Proof.
  induction b2 as [|c b2 IH]; intros a b1 r isf f HF Hl Hstop Hf; (destruct f as [|f]; [cbn in Hf; lia|]); cbn [number_loop].
  - cbn [app existsb]. rewrite !app_nil_r, orb_false_r.
    replace (a ++ b1 ++ r) with ((a ++ b1) ++ r) by now rewrite <- app_assoc.
    destruct (zlen (a ++ b1) <? zlen ((a ++ b1) ++ r)) eqn:E; [|reflexivity].
    rewrite ch_app. cbn [bind]. fold (nchar (hd 0 r)).
    destruct r as [|c r]; [rewrite app_nil_r in E; lia|]. cbn [hd].
    destruct Hstop as [Hs|Hs].
    + replace (zlen (a ++ b1) - zlen a <? 255) with false.
      2:{ rewrite zl_app. unfold zlen. cbn in Hs. lia. }
      rewrite Bool.andb_false_r. reflexivity.
    + rewrite Hs. reflexivity.
  - inversion HF; subst.
    replace (a ++ b1 ++ (c :: b2) ++ r) with ((a ++ b1) ++ c :: b2 ++ r) by now rewrite <- app_assoc.
    destruct (zlen (a ++ b1) <? zlen ((a ++ b1) ++ c :: b2 ++ r)) eqn:E.
    2:{ rewrite (zl_app (a ++ b1)), zl_cons in E. pose proof (zl_nn (b2 ++ r)). lia. }
    rewrite ch_app. cbn [bind hd]. fold (nchar c). rewrite H1. cbn [andb].
    cbn [List.length] in Hl, Hstop, Hf.
    replace (zlen (a ++ b1) - zlen a <? 255) with true.
    2:{ rewrite zl_app. unfold zlen. lia. }
    replace (zlen (a ++ b1) - zlen a) with (zlen b1) by (rewrite zl_app; lia).
    rewrite wr_next by lia. cbn [bind].
    replace ((a ++ b1) ++ c :: b2 ++ r) with (a ++ (b1 ++ [c]) ++ b2 ++ r) by (rewrite <- !app_assoc; reflexivity).
    replace (zlen (a ++ b1) + 1) with (zlen (a ++ b1 ++ [c])) by (rewrite !zl_app; change (zlen [c]) with 1; lia).
    replace (256 - List.length b1 - 1)%nat with (256 - List.length (b1 ++ [c]))%nat by (rewrite app_length; cbn [List.length]; lia).
    rewrite IH; auto.
    + rewrite <- !app_assoc. cbn [app existsb]. rewrite (Z.eqb_sym 46 c).
      do 3 f_equal. now rewrite orb_assoc.
    + rewrite app_length; cbn [List.length]; lia.
    + rewrite app_length; cbn [List.length]. destruct Hstop; [left; lia|right; auto].
    + lia.
Qed.

(** ** Operators *)

Lemma ch1 a c r : ch (a ++ c :: r) (zlen a + 1) = Ok (hd 0 r).
Proof. apply (ch_at _ _ (a ++ [c]) r); [now rewrite <- app_assoc|rewrite zl_app; reflexivity]. Qed.
Lemma ch2 a c d r : ch (a ++ c :: d :: r) (zlen a + 2) = Ok (hd 0 r).
Proof. apply (ch_at _ _ (a ++ [c; d]) r); [now rewrite <- app_assoc|rewrite zl_app; reflexivity]. Qed.

Definition longest (t rest : bytes) : Prop :=
  forall t' u, In t' (bs "//" :: map snd operators) -> t ++ rest = t' ++ u ->
               (List.length t' <= List.length t)%nat.

Lemma longest_next t rest k :
  longest t rest -> k <> 0 -> In (t ++ [k]) (bs "//" :: map snd operators) -> (hd 0 rest =? k) = false.
Proof.
  intros HL Hk Hin. destruct (hd 0 rest =? k) eqn:E; [|reflexivity].
  destruct rest as [|c r]; cbn [hd] in E; [lia|].
  assert (c = k) by lia. subst c.
  specialize (HL (t ++ [k]) r Hin). rewrite <- app_assoc in HL. specialize (HL eq_refl).
  rewrite app_length in HL. cbn [List.length] in HL. lia.
Qed.

Ltac eqs := repeat match goal with
  | |- context [Zpos ?a =? Zpos ?b] =>
    let v := eval vm_compute in (Zpos a =? Zpos b) in change (Zpos a =? Zpos b) with v
  end; cbv iota; cbn [orb andb bind].

Ltac known k := match goal with
  | HL : longest ?t ?rest |- context [hd 0 ?rest =? k] =>
    rewrite (longest_next t rest k HL) by (try lia; cbn; tauto)
  end.

Lemma op_step ty t rest a :
  In (ty, t) operators -> longest t rest ->
  next_token (a ++ t ++ rest) (zlen a) (hd 0 t) = Ok (LTok ty t (zlen a + zlen t)).
Proof.
  intros Hin HL. cbn in Hin.
  repeat (destruct Hin as [Hin|Hin];
    [injection Hin as <- <-; cbn [app hd]; unfold next_token; eqs; rewrite ?ch1; cbn [bind hd]; eqs;
     rewrite ?ch2; cbn [bind hd]; eqs;
     try known 43; try known 45; try known 62; try known 47; try known 61;
     cbn [bind]; reflexivity|]).
  destruct Hin.
Qed.

(** ** Words *)

Lemma is_id_first c : is_id true c = true <-> letter c.
Proof. unfold is_id, letter. cbn [negb andb orb]. lia. Qed.
Lemma is_id_next c : is_id false c = true <-> letter c \/ digit c.
Proof. unfold is_id, letter, digit, is_num. cbn [negb andb]. lia. Qed.

Lemma word_type_ok w ty : type_of_word w ty -> word_type w = ty.
Proof.
  intros [H|[-> H]].
  - cbn in H. repeat (destruct H as [H|H]; [injection H as <- <-; reflexivity|]). destruct H.
  - assert (Q : forall k, In k (map fst keywords) -> bytes_eqb w k = false).
    { intros k Hk. apply bytes_eqb_neq. intros ->. auto. }
    unfold word_type. rewrite !Q by (cbn; tauto).
    unfold is_fse, fse_names. cbn [existsb]. rewrite !Q by (cbn; tauto). reflexivity.
Qed.

Lemma type_of_word_ex w : exists ty, type_of_word w ty.
Proof.
  destruct (in_dec (list_eq_dec Z.eq_dec) w (map fst keywords)) as [H|H].
  - apply in_map_iff in H. destruct H as ([w' ty] & <- & Hin). exists ty. left. auto.
  - exists TK_IDENTIFIER. right. auto.
Qed.

(** ** One token *)

Ltac neqs := repeat match goal with
  | |- context [?c =? Zpos ?k] => is_var c; rewrite (proj2 (Z.eqb_neq c (Zpos k))) by lia
  end; cbv iota; cbn [orb andb bind].

Lemma hd_stop (P : Z -> Prop) p rest : not_followed_by P rest ->
  (forall c, p c = true -> P c) -> p 0 = false -> p (hd 0 rest) = false.
Proof.
  intros H1 H2 H3. destruct rest as [|c r]; [auto|]. cbn in *.
  destruct (p c) eqn:E; [|auto]. destruct (H1 (H2 _ E)).
Qed.

Lemma number_step c t rest a :
  digit c -> Forall (fun c => nchar c = true) t -> (List.length t <= 254)%nat ->
  (List.length t = 254%nat \/ not_followed_by (fun c => digit c \/ c = 46) rest) ->
  next_token (a ++ (c :: t) ++ rest) (zlen a) c =
  Ok (LTok (if existsb (Z.eqb 46) t then TK_FLOAT else TK_INTEGER) (c :: t) (zlen a + zlen (c :: t))).
Proof.
  intros Hc HF Hl Hs. unfold digit in Hc. unfold next_token. neqs.
  replace (is_num c) with true by (unfold is_num; lia).
  assert (E := number_steps (c :: t) a [] rest false (S (List.length (a ++ (c :: t) ++ rest)))).
  cbn [app] in E. rewrite app_nil_r in E. cbn [List.length] in E. change (256 - 0)%nat with 256%nat in E.
  cbn [app]. cbn [List.length]. rewrite E; clear E.
  - cbn [bind]. rewrite zl_app. replace (zlen a + zlen (c :: t) - zlen a) with (zlen (c :: t)) by lia.
    change (c :: t ++ repeat 0 (256 - S (List.length t))) with ((c :: t) ++ repeat 0 (256 - S (List.length t))).
    rewrite wr_next by lia. cbn [bind]. rewrite <- app_assoc. cbn [app].
    assert (HZ : Forall (fun c => c <> 0) (c :: t)).
    { constructor; [lia|]. eapply Forall_impl; [|exact HF]. intros d Hd. cbn in Hd. unfold nchar, is_num in Hd. lia. }
    replace (cstr (c :: t ++ 0 :: repeat 0 (256 - S (List.length t) - 1))) with (c :: t).
    2:{ change (c :: t ++ 0 :: repeat 0 (256 - S (List.length t) - 1)) with
          ((c :: t) ++ 0 :: repeat 0 (256 - S (List.length t) - 1)). now rewrite cstr_app. }
    cbn [existsb]. replace (46 =? c) with false by lia. cbn [orb].
    do 2 f_equal. lia.
  - constructor; auto. unfold nchar, is_num. lia.
  - cbn [List.length]. lia.
  - cbn [List.length]. destruct Hs as [Hs|Hs]; [left; lia|right].
    destruct rest as [|d r]; [auto|]. cbn in Hs. destruct (nchar d) eqn:E; [|auto].
    apply nchar_iff in E. tauto.
  - cbn [List.length]. rewrite app_length. cbn [List.length]. rewrite app_length. lia.
Qed.

Lemma token_step ty rw txt rest a :
  piece_at (PToken ty rw txt) rest -> Forall (fun c => c <> 0) (rw ++ rest) ->
  (exists c q, rw = c :: q /\ ~ space c /\ c <> 35) /\
  exists i', next_token (a ++ rw ++ rest) (zlen a) (hd 0 rw) = Ok (LTok ty txt i') /\
    (i' = zlen a + zlen rw \/ (rest = [] /\ zlen a + zlen rw < i')).
Proof.
  intros HP HZ. inversion HP; subst; clear HP.
  - split.
    + clear - H3. cbn in H3. unfold space, In.
      repeat (destruct H3 as [H3|H3]; [injection H3 as <- <-; eexists; eexists; split; [reflexivity|lia]|]).
      destruct H3.
    + eexists. split; [apply op_step; auto|]. left. reflexivity.
  - split. { exists c, t. split; [auto|]. unfold digit, space, In in *. lia. }
    assert (HF : Forall (fun c => nchar c = true) t).
    { eapply Forall_impl; [|exact H3]. intros d Hd. apply nchar_iff. auto. }
    eexists. split.
    { cbn [hd]. rewrite number_step; auto. replace (existsb (Z.eqb 46) t) with false; [reflexivity|].
      symmetry. apply Bool.not_true_is_false. intro HE. apply existsb_exists in HE.
      destruct HE as (x & Hx & Ex). rewrite Forall_forall in H3. specialize (H3 x Hx). unfold digit in H3. lia. }
    left. reflexivity.
  - split. { exists c, t. split; [auto|]. unfold digit, space, In in *. lia. }
    assert (HF : Forall (fun c => nchar c = true) t).
    { eapply Forall_impl; [|exact H3]. intros d Hd. apply nchar_iff. auto. }
    eexists. split.
    { cbn [hd]. rewrite number_step; auto. replace (existsb (Z.eqb 46) t) with true; [reflexivity|].
      symmetry. apply existsb_exists. exists 46. auto. }
    left. reflexivity.
  - split. { exists c, t. split; [auto|]. unfold letter, space, In in *. lia. }
    match goal with K : letter c |- _ => rename K into KL end.
    match goal with K : Forall _ t |- _ => rename K into KF end.
    match goal with K : not_followed_by _ rest |- _ => rename K into KN end.
    match goal with K : type_of_word _ _ |- _ => rename K into KT end.
    cbn [hd]. exists (zlen a + zlen (c :: t)). split; [|left; reflexivity].
    assert (Hc := KL). unfold letter in Hc. unfold next_token. neqs.
    replace (is_num c) with false by (unfold is_num; lia).
    rewrite (proj2 (is_id_first c) KL).
    rewrite (scan_at (is_id false) _ (zlen a + 1) (a ++ [c]) t rest).
    + cbn [bind]. rewrite (sub_at _ _ _ a (c :: t) rest); auto.
      2:{ rewrite zl_app, zl_cons, zl_cons. change (zlen (@nil Z)) with 0. lia. }
      cbn [bind]. rewrite (word_type_ok _ _ KT). do 2 f_equal.
      rewrite zl_app, zl_cons, zl_cons. change (zlen (@nil Z)) with 0. lia.
    + now rewrite <- app_assoc.
    + rewrite zl_app. reflexivity.
    + eapply Forall_impl; [|exact KF]. intros d Hd. apply is_id_next. auto.
    + eapply hd_stop; [exact KN| |reflexivity]. intros d Hd. apply is_id_next. auto.
  - split. { exists 34, (b ++ [34]). split; [reflexivity|]. unfold space, In. lia. }
    cbn [bs app hd]. change (Z.of_nat _) with 34. change (Z.of_nat _) with 34 in HZ.
    cbn [bs app] in HZ. unfold next_token. eqs. change (34 =? 33) with false.
    replace (a ++ 34 :: (b ++ [34]) ++ rest) with ((a ++ [34]) ++ b ++ 34 :: rest).
    2:{ rewrite <- !app_assoc. reflexivity. }
    replace (zlen a + 1) with (zlen (a ++ [34])) by (rewrite zl_app; reflexivity).
    inversion HZ as [|? ? _ HZ2]; subst.
    apply Forall_app in HZ2. destruct HZ2 as [HZ2 _]. apply Forall_app in HZ2. destruct HZ2 as [HZ2 _].
    rewrite (quote_closed b txt); auto. cbn [bind].
    rewrite (sub_at _ _ _ (a ++ [34]) b (34 :: rest)); auto; [|lia].
    cbn [bind]. rewrite (unescape_ok b txt); [|constructor; auto|auto]. cbn [bind].
    eexists. split; [reflexivity|]. left.
    rewrite (zl_cons 34 (b ++ [34])), !zl_app. change (zlen [34]) with 1. lia.
  - split. { exists 34, b. split; [reflexivity|]. unfold space, In. lia. }
    cbn [bs app hd]. change (Z.of_nat _) with 34. change (Z.of_nat _) with 34 in HZ.
    cbn [bs app] in HZ. rewrite app_nil_r in *. unfold next_token. eqs.
    replace (a ++ 34 :: b) with ((a ++ [34]) ++ b).
    2:{ rewrite <- !app_assoc. reflexivity. }
    replace (zlen a + 1) with (zlen (a ++ [34])) by (rewrite zl_app; reflexivity).
    inversion HZ as [|? ? _ HZ2]; subst.
    rewrite (quote_open b txt); auto. cbn [bind].
    rewrite (sub_at _ _ _ (a ++ [34]) b []); auto; [|now rewrite app_nil_r|lia].
    cbn [bind]. rewrite (unescape_ok b txt); auto. cbn [bind].
    eexists. split; [reflexivity|]. right. split; [reflexivity|].
    rewrite zl_app, zl_cons. change (zlen [34]) with 1. pose proof (zl_nn b). lia.
Qed.

Lemma comment_step t rest a :
  Forall (fun c => c <> 10) t -> not_followed_by (fun c => c <> 10) rest ->
  Forall (fun c => c <> 0) t ->
  next_token (a ++ (bs "//" ++ t) ++ rest) (zlen a) 47 = Ok (LSkip (zlen a + zlen (bs "//" ++ t))).
Proof.
  intros H1 H2 H3. unfold next_token. eqs.
  change (bs "//" ++ t) with (47 :: 47 :: t).
  cbn [app]. rewrite ch1. cbn [bind hd]. eqs.
  rewrite (scan_at _ _ (zlen a) a (47 :: 47 :: t) rest); auto.
  - cbn [bind]. do 2 f_equal. lia.
  - constructor; [reflexivity|]. constructor; [reflexivity|].
    rewrite Forall_forall in *. intros x Hx. specialize (H1 x Hx). specialize (H3 x Hx). lia.
  - apply (hd_stop (fun c => c <> 10) (fun x => negb (x =? 0) && negb (x =? 10)) rest H2); [|reflexivity].
    intros d Hd. lia.
Qed.

(** ** Every text begins with a piece or is an error *)

Definition pre (t x : bytes) : Prop := exists u, x = t ++ u.

Lemma pre_dec t : forall x, {pre t x} + {~ pre t x}.
Proof.
  induction t as [|c t IH]; intro x.
  - left. exists x. reflexivity.
  - destruct x as [|d x]; [right; intros [u E]; discriminate|].
    destruct (Z.eq_dec c d) as [->|N].
    + destruct (IH x) as [H|H].
      * left. destruct H as [u ->]. exists u. reflexivity.
      * right. intros [u E]. injection E as E. apply H. exists u. auto.
    + right. intros [u E]. injection E as E1 E. auto.
Qed.

Lemma longest_ex (L : list bytes) x :
  (forall t, In t L -> ~ pre t x) \/
  (exists t, In t L /\ pre t x /\ forall t', In t' L -> pre t' x -> (List.length t' <= List.length t)%nat).
Proof.
  induction L as [|t L IH].
  - left. intros t [].
  - destruct (pre_dec t x) as [Hp|Hp].
    + right. destruct IH as [IH|(t1 & Hin & Hp1 & Hmax)].
      * exists t. split; [left; auto|]. split; [auto|]. intros t' [<-|Hin] Hp'; [lia|].
        destruct (IH t' Hin Hp').
      * destruct (le_lt_dec (List.length t) (List.length t1)) as [Hl|Hl].
        -- exists t1. split; [right; auto|]. split; [auto|]. intros t' [<-|Hin'] Hp'; [auto|]. apply Hmax; auto.
        -- exists t. split; [left; auto|]. split; [auto|]. intros t' [<-|Hin'] Hp'; [lia|].
           specialize (Hmax t' Hin' Hp'). lia.
    + destruct IH as [IH|(t1 & Hin & Hp1 & Hmax)].
      * left. intros t' [<-|Hin] Hp'; [auto|]. destruct (IH t' Hin Hp').
      * right. exists t1. split; [right; auto|]. split; [auto|]. intros t' [<-|Hin'] Hp'; [contradiction|].
        apply Hmax; auto.
Qed.

Lemma firstn_le_len {A} n (l : list A) : (List.length (firstn n l) <= n)%nat.
Proof. rewrite firstn_length. lia. Qed.

Lemma text_cases c r : Forall (fun c => c <> 0) (c :: r) -> ~ space c -> c <> 35 ->
  (exists ty rw txt rest, rw ++ rest = c :: r /\ piece_at (PToken ty rw txt) rest) \/
  (exists t rest, (bs "//" ++ t) ++ rest = c :: r /\ piece_at (PComment (bs "//" ++ t)) rest) \/
  (forall a, exists msg, next_token (a ++ c :: r) (zlen a) c = Ok (LErr msg)).
Proof.
  intros HZ Hs Hh.
  destruct (longest_ex (bs "//" :: map snd operators) (c :: r)) as [HN|(t & Hin & (u & Hp) & Hmax)].
  2:{ destruct Hin as [<-|Hin].
      - right. left. destruct (span (fun c => negb (c =? 10)) u) as (b1 & b2 & -> & H1 & H2).
        exists b1, b2. rewrite <- app_assoc. split; [auto|]. constructor.
        + eapply Forall_impl; [|exact H1]. cbn. intros. lia.
        + destruct b2; cbn; [auto|]. lia.
      - left. apply in_map_iff in Hin. destruct Hin as ([ty t0] & E & Hin). cbn in E. subst t0.
        exists ty, t, t, u. split; [auto|]. constructor; [auto|].
        intros t' v Hin' E. apply Hmax; auto. exists v. congruence. }
  assert (Q : forall k, In [k] (map snd operators) -> c <> k).
  { intros k Hk ->. apply (HN [k]); [right; auto|]. exists r. reflexivity. }
  assert (Q2 : forall k j, In [k; j] (map snd operators) -> c = k -> (hd 0 r =? j) = false \/ j = 0).
  { intros k j Hk ->. destruct (hd 0 r =? j) eqn:E; [|auto]. destruct r as [|d r]; cbn [hd] in E; [right; lia|].
    assert (d = j) by lia. subst. exfalso. apply (HN [k; j]); [right; auto|]. exists r. reflexivity. }
  assert (N1 : c <> 40 /\ c <> 41 /\ c <> 91 /\ c <> 93 /\ c <> 123 /\ c <> 125 /\ c <> 43 /\ c <> 45 /\
               c <> 42 /\ c <> 37 /\ c <> 46 /\ c <> 47 /\ c <> 59 /\ c <> 61 /\ c <> 44 /\ c <> 62 /\
               c <> 60 /\ c <> 33).
  { repeat split; apply Q; cbn; tauto. }
  inversion HZ as [|? ? Hc0 HZr]; subst.
  destruct (Z.eq_dec c 34) as [->|N34].
  { destruct (quote_cases _ r (le_n _) HZr) as [(b & t & rest & -> & Hd)|[(t & Hd)|Hq]].
    - left. exists TK_STRING, (bs """" ++ b ++ bs """"), t, rest. split; [|constructor; auto].
      change (bs """") with [34]. rewrite <- !app_assoc. reflexivity.
    - left. exists TK_STRING, (bs """" ++ r), t, []. split; [|constructor; auto].
      rewrite app_nil_r. reflexivity.
    - right. right. intro a. eexists. unfold next_token. eqs.
      replace (a ++ 34 :: r) with ((a ++ [34]) ++ r) by now rewrite <- app_assoc.
      replace (zlen a + 1) with (zlen (a ++ [34])) by (rewrite zl_app; reflexivity).
      rewrite Hq; [reflexivity|]. rewrite !app_length. lia. }
  destruct (is_num c) eqn:Ed.
  { left. destruct (span nchar r) as (b1 & b2 & -> & H1 & H2).
    set (t := firstn 254 b1). set (rest := skipn 254 b1 ++ b2).
    assert (Et : t ++ rest = b1 ++ b2) by (unfold t, rest; rewrite app_assoc, firstn_skipn; reflexivity).
    assert (HFt : Forall (fun c => digit c \/ c = 46) t).
    { rewrite Forall_forall in *. intros x Hx. apply nchar_iff. apply H1. unfold t in Hx.
      rewrite <- (firstn_skipn 254 b1). apply in_or_app. auto. }
    assert (Hlt : (List.length t <= 254)%nat) by apply firstn_le_len.
    assert (Hst : List.length t = 254%nat \/ not_followed_by (fun c => digit c \/ c = 46) rest).
    { destruct (le_lt_dec 254 (List.length b1)) as [Hl|Hl].
      - left. unfold t. rewrite firstn_length. lia.
      - right. unfold rest. rewrite skipn_all2 by lia. cbn [app]. destruct b2 as [|d b2]; cbn; [auto|].
        intro Hd. apply nchar_iff in Hd. congruence. }
    assert (Hdc : digit c) by (unfold is_num in Ed; unfold digit; lia).
    destruct (in_dec Z.eq_dec 46 t) as [Hi|Hi].
    - exists TK_FLOAT, (c :: t), (c :: t), rest. split; [change ((c :: t) ++ rest) with (c :: (t ++ rest)); now rewrite Et|]. apply pa_float; auto.
    - exists TK_INTEGER, (c :: t), (c :: t), rest. split; [change ((c :: t) ++ rest) with (c :: (t ++ rest)); now rewrite Et|]. apply pa_integer; auto.
      rewrite Forall_forall in *. intros x Hx. destruct (HFt x Hx) as [ | ->]; [auto|contradiction]. }
  destruct (is_id true c) eqn:Ei.
  { left. destruct (span (is_id false) r) as (b1 & b2 & -> & H1 & H2).
    destruct (type_of_word_ex (c :: b1)) as [ty Hty].
    exists ty, (c :: b1), (c :: b1), b2. split; [reflexivity|]. apply pa_word; auto.
    - apply is_id_first. auto.
    - eapply Forall_impl; [|exact H1]. intros x Hx. apply is_id_next. auto.
    - destruct b2 as [|d b2]; cbn; [auto|]. intro Hd. apply is_id_next in Hd. congruence. }
  right. right. intro a. exists (bs "Unknown token.").
  unfold next_token. rewrite ch1.
  repeat match goal with
  | |- context [c =? Zpos ?k] =>
    lazymatch k with 38%positive => fail | 124%positive => fail | _ => rewrite (proj2 (Z.eqb_neq c (Zpos k))) by lia end
  end.
  rewrite Ed, Ei. cbv iota.
  destruct (c =? 38) eqn:E38.
  { destruct (Q2 38 38) as [E|E]; [cbn; tauto|lia| |lia].
    cbn [orb bind andb]. rewrite E. destruct (c =? 124) eqn:E124; [lia|]. cbn [andb].
    destruct (c =? 0) eqn:E0; [lia|]. reflexivity. }
  destruct (c =? 124) eqn:E124.
  { destruct (Q2 124 124) as [E|E]; [cbn; tauto|lia| |lia].
    cbn [orb bind andb]. rewrite E. destruct (c =? 0) eqn:E0; [lia|]. reflexivity. }
  cbn [orb bind andb]. destruct (c =? 0) eqn:E0; [lia|]. reflexivity.
Qed.

(** ** Whitespace *)

Definition nl (w : bytes) : Z := zlen (filter (Z.eqb 10) w).

Lemma nl_cons c w : nl (c :: w) = (if c =? 10 then 1 else 0) + nl w.
Proof.
  unfold nl. cbn [filter]. rewrite (Z.eqb_sym 10 c). destruct (c =? 10); [rewrite zl_cons|]; lia.
Qed.
Lemma nl_nn w : 0 <= nl w.
Proof. apply zl_nn. Qed.
Lemma nl_le w : nl w <= zlen w.
Proof. induction w as [|c w IH]; [cbn; lia|]. rewrite nl_cons, zl_cons. destruct (c =? 10); lia. Qed.

Lemma is_ws_iff c : is_ws c = true <-> space c.
Proof. unfold is_ws, space, In. lia. Qed.

Lemma skip_steps w : forall a rest l c f,
  Forall (fun c => is_ws c = true) w -> is_ws (hd 0 rest) = false -> (List.length w < f)%nat ->
  - W31 <= l < W31 -> - W31 <= c < W31 ->
  skip_ws f (a ++ w ++ rest) (zlen a) l c =
  if (l + nl w <? W31) && (c + nl w <? W31) then Ok (zlen a + zlen w, l + nl w, c + nl w)
  else Ub UbSignedOverflow.
Proof.
  induction w as [|d w IH]; intros a rest l c f HF HN Hf Hl Hc; (destruct f as [|f]; [cbn in Hf; lia|]); cbn [skip_ws].
  - cbn [app]. change (zlen (@nil Z)) with 0. change (nl []) with 0. rewrite !Z.add_0_r.
    destruct (l <? W31) eqn:E1; [|lia]. destruct (c <? W31) eqn:E2; [|lia]. cbn [andb].
    destruct (zlen a <? zlen (a ++ rest)); [|reflexivity]. rewrite ch_app. cbn [bind]. rewrite HN. reflexivity.
  - inversion HF; subst. cbn [app List.length] in *.
    destruct (zlen a <? zlen (a ++ d :: w ++ rest)) eqn:E.
    2:{ rewrite zl_app, zl_cons in E. pose proof (zl_nn (w ++ rest)). lia. }
    rewrite ch_app. cbn [bind hd]. rewrite H1. rewrite nl_cons, zl_cons.
    replace (a ++ d :: w ++ rest) with ((a ++ [d]) ++ w ++ rest) by now rewrite <- app_assoc.
    replace (zlen a + 1) with (zlen (a ++ [d])) by (rewrite zl_app; reflexivity).
    assert (Hn := nl_nn w).
    destruct (d =? 10) eqn:E10.
    + unfold inc32, in_s32.
      destruct (l + 1 <? W31) eqn:EL.
      2:{ replace (- W31 <=? l + 1) with true by lia. cbn [andb bind].
          replace (l + (1 + nl w) <? W31) with false by lia. reflexivity. }
      replace (- W31 <=? l + 1) with true by lia. cbn [andb bind].
      destruct (c + 1 <? W31) eqn:EC.
      2:{ replace (- W31 <=? c + 1) with true by lia. cbn [andb bind].
          replace (c + (1 + nl w) <? W31) with false by lia. rewrite Bool.andb_false_r. reflexivity. }
      replace (- W31 <=? c + 1) with true by lia. cbn [andb bind].
      rewrite IH; auto; try lia. rewrite zl_app. change (zlen [d]) with 1.
      replace (l + 1 + nl w) with (l + (1 + nl w)) by lia.
      replace (c + 1 + nl w) with (c + (1 + nl w)) by lia.
      replace (zlen a + 1 + zlen w) with (zlen a + (1 + zlen w)) by lia. reflexivity.
    + rewrite IH; auto; try lia. rewrite zl_app. change (zlen [d]) with 1.
      replace (zlen a + 1 + zlen w) with (zlen a + (1 + zlen w)) by lia. reflexivity.
Qed.

(** ** Joining adjacent literals *)

Fixpoint join (l : list token) : list token :=
  match l with
  | [] => []
  | t :: q =>
    match join q with
    | n :: r =>
      if (tk_type t =? TK_STRING) && (tk_type n =? TK_STRING)
      then mkTok (tk_type t) (tk_str t ++ tk_str n) (tk_line t) (tk_file t) (tk_actual t) :: r
      else t :: n :: r
    | [] => [t]
    end
  end.

Lemma join_head t q : exists x r, join (t :: q) = x :: r /\ tk_type x = tk_type t.
Proof.
  cbn [join]. destruct (join q) as [|n r]; [exists t, []; auto|].
  destruct ((tk_type t =? TK_STRING) && (tk_type n =? TK_STRING)).
  - eexists. eexists. split; [reflexivity|]. reflexivity.
  - eexists. eexists. split; [reflexivity|]. reflexivity.
Qed.

Lemma consolidate_loop_ok r : forall acc t, consolidate_loop acc t r = rev acc ++ join (t :: r).
Proof.
  induction r as [|n r IH]; intros acc t; cbn [consolidate_loop].
  - reflexivity.
  - destruct ((tk_type t =? TK_STRING) && (tk_type n =? TK_STRING)) eqn:E.
    + rewrite IH. f_equal. apply andb_true_iff in E. destruct E as [E1 E2].
      cbn [join]. destruct (join r) as [|m q]; cbn [tk_type tk_str tk_line tk_file tk_actual].
      * rewrite E1, E2. reflexivity.
      * rewrite E1, E2. cbn [andb]. destruct (tk_type m =? TK_STRING) eqn:E3;
          cbn [tk_type tk_str tk_line tk_file tk_actual]; rewrite E2; cbn [andb]; [|reflexivity].
        now rewrite app_assoc.
    + rewrite IH. cbn [rev]. rewrite <- app_assoc. cbn [app]. f_equal.
      destruct (join_head n r) as (x & q & Ej & Ex).
      change (join (t :: n :: r)) with
        (match join (n :: r) with
         | y :: z => if (tk_type t =? TK_STRING) && (tk_type y =? TK_STRING)
             then mkTok (tk_type t) (tk_str t ++ tk_str y) (tk_line t) (tk_file t) (tk_actual t) :: z
             else t :: y :: z
         | [] => [t] end).
      rewrite Ej, Ex, E. reflexivity.
Qed.

Lemma consolidate_ok l : consolidate l = join l.
Proof. destruct l as [|t r]; [reflexivity|]. unfold consolidate. now rewrite consolidate_loop_ok. Qed.

Definition pair_of (t : token) : Z * bytes := (tk_type t, tk_str t).
Lemma join_pairs l : map pair_of (join l) = joined (map pair_of l).
Proof.
  induction l as [|t q IH]; [reflexivity|]. cbn [join map joined]. unfold pair_of at 2. cbn [fst snd].
  rewrite <- IH. destruct (join q) as [|n r]; [reflexivity|]. cbn [map]. unfold pair_of at 2.
  destruct ((tk_type t =? TK_STRING) && (tk_type n =? TK_STRING)); reflexivity.
Qed.

Definition at_line (file : Z) (x : Z * bytes * Z) : token :=
  let '(ty, t, n) := x in mkTok ty t n file n.
Lemma join_lines file l : join (map (at_line file) l) = map (at_line file) (joined_at l).
Proof.
  induction l as [|[[ty t] n] q IH]; [reflexivity|]. cbn [map join joined_at]. rewrite IH.
  destruct (joined_at q) as [|[[ty2 t2] n2] r]; [reflexivity|]. cbn [map at_line tk_type tk_str tk_line tk_file tk_actual].
  destruct ((ty =? TK_STRING) && (ty2 =? TK_STRING)); reflexivity.
Qed.

(** ** One turn of the main loop *)

Definition live (s : vm) : Prop := live_ctx s (v_cur s).

Lemma add_error_ex_ok line file m s : live s ->
  exists e, add_error_ex line file m s = Ok (tt, set_errs (v_errs s ++ [e]) s).
Proof.
  intros [c H]. unfold add_error_ex.
  rewrite (bind_run _ _ _ _ _ (cur_ctx_ok _ _ H)).
  eexists. unfold mbind, gets, modify. reflexivity.
Qed.

Definition here (t : tstate) : Prop := is_s32 (t_line t) /\ is_s32 (t_act t).

Lemma step_eq a w rest t s :
  here t -> t_i t = zlen a -> Forall space w -> not_followed_by space rest ->
  t_line t + nl w < W31 -> t_act t + nl w < W31 ->
  tok_step ((a ++ w) ++ rest) t s =
    (if hd 0 rest =? 35 then tok_directive ((a ++ w) ++ rest) (zlen (a ++ w)) (t_line t + nl w) (t_act t + nl w) t
     else mbind (lift (next_token ((a ++ w) ++ rest) (zlen (a ++ w)) (hd 0 rest))) (fun l =>
       match l with
       | LTok ty txt i' =>
         ret (Some (mkT i' (t_line t + nl w) (t_file t) (t_act t + nl w)
                     (mkTok ty txt (t_line t + nl w) (t_file t) (t_act t + nl w) :: t_toks t)))
       | LSkip i' => ret (Some (mkT i' (t_line t + nl w) (t_file t) (t_act t + nl w) (t_toks t)))
       | LErr msg => mbind (add_error_ex (u32 (t_line t + nl w)) (t_file t) msg) (fun _ => ret None)
       end)) s.
Proof.
  intros [H1 H2] Hi HW HS Hl Hc.
  assert (HW' : Forall (fun c => is_ws c = true) w).
  { eapply Forall_impl; [|exact HW]. intros x Hx. apply is_ws_iff. auto. }
  assert (ES := skip_steps w a rest (t_line t) (t_act t) (S (List.length (a ++ w ++ rest))) HW').
  unfold tok_step. rewrite <- app_assoc. unfold mbind at 1. unfold lift at 1. rewrite Hi, ES; auto.
  - destruct (t_line t + nl w <? W31) eqn:E1; [|lia]. destruct (t_act t + nl w <? W31) eqn:E2; [|lia]. cbn [andb].
    replace (zlen a + zlen w) with (zlen (a ++ w)) by apply zl_app.
    unfold mbind at 1. unfold lift at 1.
    rewrite (ch_at _ _ (a ++ w) rest); [|now rewrite <- app_assoc|reflexivity].
    reflexivity.
  - destruct rest; [reflexivity|]. cbn [hd not_followed_by] in *. destruct (is_ws z) eqn:E; [|reflexivity].
    apply is_ws_iff in E. contradiction.
  - rewrite !app_length. lia.
Qed.

Lemma step_cases a r t s :
  live s -> here t -> t_i t = zlen a -> r <> [] -> Forall (fun c => c <> 0) r ->
  exists w rest, r = w ++ rest /\ Forall space w /\ not_followed_by space rest /\
  let line := t_line t + nl w in
  let act := t_act t + nl w in
  if (line <? W31) && (act <? W31) then
    (rest = [] /\
     tok_step (a ++ r) t s = Ok (Some (mkT (zlen (a ++ r) + 1) line (t_file t) act (t_toks t)), s)) \/
    (exists ty rw txt rest' i',
       rest = rw ++ rest' /\ piece_at (PToken ty rw txt) rest' /\
       tok_step (a ++ r) t s =
         Ok (Some (mkT i' line (t_file t) act (mkTok ty txt line (t_file t) act :: t_toks t)), s) /\
       (i' = zlen (a ++ w ++ rw) \/ (rest' = [] /\ zlen (a ++ r) < i'))) \/
    (exists q rest', rest = (bs "//" ++ q) ++ rest' /\ piece_at (PComment (bs "//" ++ q)) rest' /\
       tok_step (a ++ r) t s =
         Ok (Some (mkT (zlen (a ++ w ++ bs "//" ++ q)) line (t_file t) act (t_toks t)), s)) \/
    (exists e, tok_step (a ++ r) t s = Ok (None, set_errs (v_errs s ++ [e]) s)) \/
    (exists q, rest = 35 :: q /\
       tok_step (a ++ r) t s = tok_directive (a ++ r) (zlen (a ++ w)) line act t s)
  else tok_step (a ++ r) t s = Ub UbSignedOverflow.
Proof.
  intros HL [H1 H2] Hi Hr HZ.
  destruct (span is_ws r) as (w & rest & -> & HW & HS).
  exists w, rest. split; [reflexivity|].
  split. { eapply Forall_impl; [|exact HW]. intros x Hx. apply is_ws_iff. auto. }
  split. { destruct rest as [|c q]; cbn [not_followed_by]; [auto|]. rewrite <- is_ws_iff. congruence. }
  cbv zeta.
  assert (ES := skip_steps w a rest (t_line t) (t_act t) (S (List.length (a ++ w ++ rest))) HW).
  rewrite <- Hi in ES.
  destruct ((t_line t + nl w <? W31) && (t_act t + nl w <? W31)).
  2:{ unfold tok_step, mbind, lift. rewrite ES; auto.
      - destruct rest; [reflexivity|auto].
      - rewrite !app_length. lia. }
  assert (EQ : tok_step ((a ++ w) ++ rest) t s =
    (if hd 0 rest =? 35 then tok_directive ((a ++ w) ++ rest) (zlen (a ++ w)) (t_line t + nl w) (t_act t + nl w) t
     else mbind (lift (next_token ((a ++ w) ++ rest) (zlen (a ++ w)) (hd 0 rest))) (fun l =>
       match l with
       | LTok ty txt i' =>
         ret (Some (mkT i' (t_line t + nl w) (t_file t) (t_act t + nl w)
                     (mkTok ty txt (t_line t + nl w) (t_file t) (t_act t + nl w) :: t_toks t)))
       | LSkip i' => ret (Some (mkT i' (t_line t + nl w) (t_file t) (t_act t + nl w) (t_toks t)))
       | LErr msg => mbind (add_error_ex (u32 (t_line t + nl w)) (t_file t) msg) (fun _ => ret None)
       end)) s).
  { unfold tok_step. rewrite <- app_assoc. unfold mbind at 1. unfold lift at 1. rewrite ES; auto.
    2:{ destruct rest; [reflexivity|auto]. }
    2:{ rewrite !app_length. lia. }
    rewrite Hi. replace (zlen a + zlen w) with (zlen (a ++ w)) by apply zl_app.
    unfold mbind at 1. unfold lift at 1.
    rewrite (ch_at _ _ (a ++ w) rest); [|now rewrite <- app_assoc|reflexivity].
    reflexivity. }
  clear ES.
  replace (a ++ w ++ rest) with ((a ++ w) ++ rest) by now rewrite <- app_assoc.
  apply Forall_app in HZ. destruct HZ as [_ HZ].
  destruct rest as [|c q].
  { left. split; [reflexivity|]. rewrite EQ. rewrite app_nil_r. cbn [hd]. change (0 =? 35) with false. cbv iota.
    assert (E0 : next_token (a ++ w) (zlen (a ++ w)) 0 = Ok (LSkip (zlen (a ++ w) + 1))) by reflexivity.
    unfold mbind, lift. rewrite E0. reflexivity. }
  right. cbn [hd] in EQ. destruct (c =? 35) eqn:E35.
  { right. right. right. exists q. assert (c = 35) by lia. subst. split; [reflexivity|exact EQ]. }
  assert (Hsp : ~ space c). { rewrite <- is_ws_iff. congruence. }
  destruct (text_cases c q HZ Hsp ltac:(lia)) as [(ty & rw & txt & rest' & E & HP)|[(u & rest' & E & HP)|HE]].
  - left. rewrite <- E in *.
    destruct (token_step ty rw txt rest' (a ++ w) HP HZ) as ((c1 & q1 & Ec & _) & i' & HN & Hi').
    assert (Hh : hd 0 rw = c). { subst rw. cbn in E. injection E as E. auto. }
    rewrite Hh in HN. exists ty, rw, txt, rest', i'. split; [auto|]. split; [auto|]. split.
    + rewrite EQ. unfold mbind, lift. rewrite HN. reflexivity.
    + rewrite !zl_app in *. destruct Hi' as [->|[-> Hi']]; [left; lia|right]. split; [auto|].
      change (zlen (@nil Z)) with 0. lia.
  - right. left. exists u, rest'.
    assert (Hc : 47 = c) by exact (f_equal (hd 0) E). subst c.
    inversion HP as [|? ? Hp1 Hp2| | | | | | |]; subst.
    rewrite <- E in *. split; [auto|]. split; [auto|].
    assert (Hnz : Forall (fun c => c <> 0) u).
    { apply Forall_app in HZ. destruct HZ as [HZ _]. inversion HZ as [|? ? _ HZ2]; subst. inversion HZ2; subst. auto. }
    rewrite EQ. unfold mbind, lift. rewrite comment_step; auto. unfold ret. rewrite !zl_app. do 4 f_equal.
    lia.
  - right. right. left. destruct (HE (a ++ w)) as [msg Hm].
    destruct (add_error_ex_ok (u32 (t_line t + nl w)) (t_file t) msg s HL) as [e He].
    exists e. rewrite EQ. unfold mbind, lift. rewrite Hm, He. reflexivity.
Qed.

(** ** Directives *)

(** All a tokenizer run can change: more errors, more files. *)
Definition tgrow (s s' : vm) : Prop :=
  exists f e, s' = set_files (v_files s ++ f) (set_errs (v_errs s ++ e) s).

Lemma tgrow_refl s : tgrow s s.
Proof. exists [], []. rewrite !app_nil_r. destruct s; reflexivity. Qed.
Lemma tgrow_trans a b c : tgrow a b -> tgrow b c -> tgrow a c.
Proof.
  intros (f & e & ->) (f' & e' & ->). exists (f ++ f'), (e ++ e'). rewrite !app_assoc. destruct a; reflexivity.
Qed.
Lemma tgrow_err s e : tgrow s (set_errs (v_errs s ++ [e]) s).
Proof. exists [], [e]. rewrite app_nil_r. destruct s; reflexivity. Qed.
Lemma tgrow_live s s' : tgrow s s' -> live s -> live s'.
Proof. intros (f & e & ->) H. destruct s; exact H. Qed.

Lemma add_file_ok n s : exists i s', add_source_file n s = Ok (i, s') /\ tgrow s s' /\ v_errs s' = v_errs s.
Proof.
  unfold add_source_file, gets, modify, ret, mbind. destruct (find_file (v_files s) n 0) as [i|].
  - exists i, s. split; [reflexivity|]. split; [apply tgrow_refl|reflexivity].
  - eexists. eexists. split; [reflexivity|]. split.
    + exists [n], []. rewrite app_nil_r. destruct s; reflexivity.
    + destruct s; reflexivity.
Qed.

(** A failure comes with a new error; success with none. *)
Definition told {A} (o : option A) (s s' : vm) : Prop :=
  tgrow s s' /\ match o with None => v_errs s' <> v_errs s | Some _ => v_errs s' = v_errs s end.

Lemma app_grow {A} (l e : list A) x : l ++ e ++ [x] <> l.
Proof.
  intro E. rewrite <- (app_nil_r l) in E at 2. apply app_inv_head in E. destruct e; discriminate.
Qed.

Lemma told_err {A} s e : told (@None A) s (set_errs (v_errs s ++ [e]) s).
Proof. split; [apply tgrow_err|]. destruct s as [errs]. cbn [v_errs set_errs]. apply (app_grow errs [] e). Qed.

Lemma told_ret {A} (x : A) s : told (Some x) s s.
Proof. split; [apply tgrow_refl|reflexivity]. Qed.

Lemma told_step {A} (o : option A) s s' s'' :
  tgrow s s' -> v_errs s' = v_errs s -> told o s' s'' -> told o s s''.
Proof. intros H1 H2 [H3 H4]. split; [eapply tgrow_trans; eauto|]. rewrite <- H2. auto. Qed.

Lemma told_none {A B} s s' e : told (@None A) s s' -> told (@None B) s (set_errs (v_errs s' ++ [e]) s').
Proof.
  intros [H1 H2]. split; [eapply tgrow_trans; [eauto|apply tgrow_err]|].
  destruct H1 as (f & e' & ->). cbn. destruct s as [errs]. cbn. rewrite <- app_assoc. apply app_grow.
Qed.

Lemma err_none {A} line file m s : live s -> exists s',
  (add_error_ex line file m ;;; ret (@None A)) s = Ok (None, s') /\ told (@None A) s s'.
Proof.
  intro HL. destruct (add_error_ex_ok line file m s HL) as [e He].
  exists (set_errs (v_errs s ++ [e]) s). split; [unfold mbind; rewrite He; reflexivity|apply told_err].
Qed.

Lemma atol_s32 t : is_s32 (FloatModel.c_atol t).
Proof.
  unfold FloatModel.c_atol. destruct (FloatModel.take_sign _) as [ng r].
  destruct (FloatModel.take_digits r 0 0) as [[v n] r']. unfold is_s32, s32, u32, W31, W32.
  match goal with |- context [?x mod ?y] => generalize (Z.mod_pos_bound x y ltac:(lia)); generalize (x mod y) end.
  intros z Hz. destruct (z <? 2147483648) eqn:E; lia.
Qed.

Lemma directive_told line file toks s : live s -> is_s32 line ->
  exists r s', directive line file toks s = Ok (r, s') /\ told r s s' /\
  match r with Some (l, _) => is_s32 l | None => True end.
Proof.
  intros HL Hl. unfold directive.
  assert (HE : forall m, exists r s', (add_error_ex (u32 line) file m ;;; ret (@None (Z * Z))) s = Ok (r, s') /\
     told r s s' /\ match r with Some (l, _) => is_s32 l | None => True end).
  { intro m. destruct (err_none (A := Z * Z) (u32 line) file m s HL) as (s' & E & HT).
    exists None, s'. auto. }
  assert (HF : forall f l, is_s32 l -> exists r s', (i <- add_source_file f ;; ret (Some (l, i))) s = Ok (r, s') /\
     told r s s' /\ match r with Some (l, _) => is_s32 l | None => True end).
  { intros f l Hl'. destruct (add_file_ok f s) as (i & s' & E & HG & He).
    exists (Some (l, i)), s'. split; [unfold mbind; rewrite E; reflexivity|]. split; [split; auto|auto]. }
  destruct toks as [|d args].
  { exists (Some (line, file)), s. split; [reflexivity|]. split; [apply told_ret|auto]. }
  destruct (bytes_eqb d (bs "line")).
  - destruct args as [|n [|f [|? ?]]]; [apply HE| |apply HF; apply atol_s32|apply HE].
    eexists. eexists. split; [reflexivity|]. split; [apply told_ret|apply atol_s32].
  - destruct (bytes_eqb d (bs "file")); [|apply HE].
    destruct args as [|f [|? ?]]; [apply HE|apply HF; auto|apply HE].
Qed.

(** Decoding never leaves its buffer, whatever the text. *)
Lemma unescape_any : forall n b, (List.length b <= n)%nat ->
  forall a o k f, (List.length b + 2 <= k)%nat -> (List.length b < f)%nat ->
  exists t z, unescape_loop f (a ++ b) (zlen a) (zlen o) (o ++ repeat 0 k) =
    Ok (zlen (o ++ t), (o ++ t) ++ repeat 0 (S z)).
Proof.
  induction n as [|n IH]; intros b Hn a o k f Hk Hf.
  - destruct b; [|cbn in Hn; lia]. destruct f as [|f]; [lia|]. cbn [unescape_loop].
    rewrite app_nil_r, Z.ltb_irrefl. exists [], (k - 1)%nat. rewrite app_nil_r. cbn in Hk.
    replace (S (k - 1)) with k by lia. reflexivity.
  - destruct b as [|c b].
    { apply (IH [] ltac:(cbn; lia)); auto. }
    cbn [List.length] in *. destruct f as [|f]; [lia|].
    destruct (Z.eq_dec c 92) as [->|N].
    + destruct b as [|d b].
      * cbn [unescape_loop List.length] in *.
        destruct (zlen a <? zlen (a ++ [92])) eqn:E.
        2:{ rewrite zl_app in E. change (zlen [92]) with 1 in E. lia. }
        rewrite ch_app, ch1. cbn [bind hd]. change (92 =? 92) with true. change (0 =? 110) with false.
        change (0 =? 114) with false. change (0 =? 116) with false. change (0 =? 34) with false. cbv iota.
        rewrite wr_next by lia. cbn [bind].
        replace (zlen o + 1) with (zlen (o ++ [92])) by (rewrite zl_app; reflexivity).
        rewrite wr_next by lia. cbn [bind]. destruct f as [|f]; [lia|]. cbn [unescape_loop].
        destruct (zlen a + 2 <? zlen (a ++ [92])) eqn:E2.
        { rewrite zl_app in E2. change (zlen [92]) with 1 in E2. lia. }
        exists [92; 0], (k - 1 - 1 - 1)%nat. replace (S (k - 1 - 1 - 1)) with (k - 1 - 1)%nat by lia.
        rewrite <- (app_assoc o [92] [0]). cbn [app]. rewrite zl_app. reflexivity.
      * rewrite un_escape by lia. cbn [List.length] in *.
        assert (Hl : (List.length (esc d) <= 2)%nat).
        { unfold esc. repeat destruct (_ =? _); cbn; lia. }
        destruct (IH b ltac:(lia) (a ++ [92; d]) (o ++ esc d) (k - List.length (esc d))%nat f) as (t & z & E); [lia|lia|].
        exists (esc d ++ t), z. rewrite E. now rewrite <- !app_assoc.
    + rewrite un_plain by (auto; lia).
      destruct (IH b ltac:(lia) (a ++ [c]) (o ++ [c]) (k - 1)%nat f) as (t & z & E); [lia|lia|].
      exists (c :: t), z. rewrite E. rewrite <- !app_assoc. reflexivity.
Qed.

Lemma unescape_total b : exists t, unescape b = Ok t.
Proof.
  unfold unescape.
  destruct (unescape_any _ b (le_n _) [] [] (List.length b + 2)%nat (S (List.length b))) as (t & z & E); [lia|lia|].
  cbn [app] in E. change (zlen (@nil Z)) with 0 in E. rewrite E. cbn [bind].
  rewrite wr_next by lia. eexists. reflexivity.
Qed.

(** *** Quoted directive tokens *)

Lemma pp_quote_cases : forall r a skip f, Forall (fun c => c <> 0) r -> (S (List.length r) < f)%nat ->
  (exists b r', r = b ++ 34 :: r' /\ pp_quote f (a ++ r) (zlen a) skip = Ok (zlen a + zlen b)) \/
  pp_quote f (a ++ r) (zlen a) skip = Ub UbOob.
Proof.
  induction r as [|c r IH]; intros a skip f HF Hf.
  - right. destruct f as [|[|f]]; [lia|cbn in Hf; lia|]. cbn [pp_quote]. rewrite ch_app. cbn [bind hd].
    change (0 =? 92) with false. change (0 =? 34) with false. cbv iota.
    rewrite app_nil_r. unfold ch. destruct (zlen a + 1 =? zlen a) eqn:E; [lia|].
    unfold rd, znth. pose proof (zl_nn a). destruct (zlen a + 1 <? 0) eqn:E1; [lia|].
    destruct (zlen a <=? zlen a + 1) eqn:E2; [|lia]. reflexivity.
  - inversion HF; subst. cbn [List.length] in Hf. destruct f as [|f]; [lia|]. cbn [pp_quote].
    rewrite ch_app. cbn [bind hd].
    assert (Q : forall sk,
      (exists b r', c :: r = b ++ 34 :: r' /\ pp_quote f (a ++ c :: r) (zlen a + 1) sk = Ok (zlen a + zlen b)) \/
      pp_quote f (a ++ c :: r) (zlen a + 1) sk = Ub UbOob).
    { intro sk. replace (a ++ c :: r) with ((a ++ [c]) ++ r) by now rewrite <- app_assoc.
      replace (zlen a + 1) with (zlen (a ++ [c])) by (rewrite zl_app; reflexivity).
      destruct (IH (a ++ [c]) sk f H2) as [(b & r' & -> & E)|E]; [lia| |right; auto].
      left. exists (c :: b), r'. split; [reflexivity|]. rewrite E. f_equal. rewrite zl_app, zl_cons, zl_cons.
      change (zlen (@nil Z)) with 0. lia. }
    destruct (c =? 92); [apply Q|]. destruct (c =? 34) eqn:E34; [|apply Q].
    destruct skip; [apply Q|]. left. exists [], r. assert (c = 34) by lia. subst c. split; [reflexivity|].
    change (zlen (@nil Z)) with 0. f_equal. lia.
Qed.

Lemma pp_quote_tame : forall b r' a f, Forall (fun c => c <> 34 /\ c <> 92) b -> (List.length b < f)%nat ->
  pp_quote f (a ++ b ++ 34 :: r') (zlen a) false = Ok (zlen a + zlen b).
Proof.
  induction b as [|c b IH]; intros r' a f HF Hf; (destruct f as [|f]; [lia|]); cbn [pp_quote app].
  - rewrite ch_app. cbn [bind hd]. change (34 =? 92) with false. change (34 =? 34) with true. cbv iota.
    change (zlen (@nil Z)) with 0. f_equal. lia.
  - inversion HF; subst. rewrite ch_app. cbn [bind hd].
    destruct (c =? 92) eqn:E1; [lia|]. destruct (c =? 34) eqn:E2; [lia|].
    replace (a ++ c :: b ++ 34 :: r') with ((a ++ [c]) ++ b ++ 34 :: r') by now rewrite <- app_assoc.
    replace (zlen a + 1) with (zlen (a ++ [c])) by (rewrite zl_app; reflexivity).
    rewrite IH; auto; [|cbn in Hf; lia]. f_equal. rewrite zl_app, !zl_cons. change (zlen (@nil Z)) with 0. lia.
Qed.

(** The rest of the line has an even number of quotes and no backslash. *)
Definition tame (r : bytes) : Prop :=
  forall l b, r = l ++ b -> Forall (fun c => c <> 10) l -> not_followed_by (fun c => c <> 10) b ->
    Z.even (quotes l) = true /\ ~ In 92 l.

Lemma quotes_app a b : quotes (a ++ b) = quotes a + quotes b.
Proof. induction a as [|c a IH]; cbn [app quotes]; [lia|]. rewrite IH. lia. Qed.
Lemma quotes_0 b : Forall (fun c => c <> 34) b -> quotes b = 0.
Proof. induction 1; cbn [quotes]; [reflexivity|]. destruct (x =? 34) eqn:E; lia. Qed.

Lemma tame_skip b1 r : Forall (fun c => c <> 10 /\ c <> 34) b1 -> tame (b1 ++ r) -> tame r.
Proof.
  intros HF HT l b -> Hl Hb. destruct (HT (b1 ++ l) b) as [H1 H2].
  - now rewrite app_assoc.
  - apply Forall_app. split; [|auto]. eapply Forall_impl; [|exact HF]. cbv beta. tauto.
  - auto.
  - rewrite quotes_app, quotes_0 in H1.
    + split; [auto|]. intro Hi. apply H2. apply in_or_app. auto.
    + eapply Forall_impl; [|exact HF]. cbv beta. tauto.
Qed.

Lemma tame_quote r : tame (34 :: r) -> exists b r', r = b ++ 34 :: r' /\
  Forall (fun c => c <> 34 /\ c <> 92 /\ c <> 10) b /\ tame r'.
Proof.
  intro HT. destruct (span (fun c => negb (c =? 10) && negb (c =? 34)) r) as (b1 & b2 & -> & H1 & H2).
  assert (HF : Forall (fun c => c <> 10 /\ c <> 34) b1).
  { eapply Forall_impl; [|exact H1]. cbv beta. intros. lia. }
  assert (HF1 : Forall (fun c => c <> 10) b1) by (eapply Forall_impl; [|exact HF]; cbv beta; tauto).
  assert (HF2 : Forall (fun c => c <> 34) b1) by (eapply Forall_impl; [|exact HF]; cbv beta; tauto).
  assert (H34 : exists r', b2 = 34 :: r').
  { destruct b2 as [|c r'].
    - exfalso. destruct (HT (34 :: b1) []) as [He _].
      + now rewrite !app_nil_r.
      + constructor; [lia|auto].
      + exact I.
      + cbn [quotes] in He. rewrite quotes_0 in He by auto. discriminate.
    - destruct (Z.eq_dec c 34) as [->|N]; [eauto|]. exfalso. cbv beta in H2. assert (c = 10) by lia. subst c.
      destruct (HT (34 :: b1) (10 :: r')) as [He _].
      + reflexivity.
      + constructor; [lia|auto].
      + cbn. lia.
      + cbn [quotes] in He. rewrite quotes_0 in He by auto. discriminate. }
  destruct H34 as [r' ->]. exists b1, r'. split; [reflexivity|].
  assert (HQ : forall l b, r' = l ++ b -> Forall (fun c => c <> 10) l -> not_followed_by (fun c => c <> 10) b ->
     Z.even (quotes l) = true /\ ~ In 92 l /\ ~ In 92 b1).
  { intros l b -> Hl Hb. destruct (HT (34 :: b1 ++ 34 :: l) b) as [He Hn].
    - cbn [app]. now rewrite <- app_assoc.
    - constructor; [lia|]. apply Forall_app. split; [auto|]. constructor; [lia|auto].
    - auto.
    - cbn [quotes] in He. rewrite quotes_app, quotes_0 in He by auto. cbn [quotes] in He.
      change (34 =? 34) with true in He. cbv iota in He.
      replace (1 + (0 + (1 + quotes l))) with (quotes l + 2) in He by lia.
      rewrite Z.even_add in He. change (Z.even 2) with true in He. destruct (Z.even (quotes l)); [|discriminate].
      split; [auto|]. split; intro Hi; apply Hn; right; apply in_or_app; [right; right|left]; auto. }
  split.
  - destruct (span (fun c => negb (c =? 10)) r') as (l & b & -> & Hl & Hb).
    destruct (HQ l b eq_refl) as (_ & _ & Hn).
    + eapply Forall_impl; [|exact Hl]. cbv beta. intros. lia.
    + destruct b; [exact I|]. cbn. cbv beta in Hb. lia.
    + rewrite Forall_forall in *. intros x Hx. split; [auto|]. split; [|auto]. intros ->. auto.
  - intros l b E Hl Hb. destruct (HQ l b E Hl Hb) as (He & Hn & _). auto.
Qed.

(** One directive token. *)
Lemma pp_token_cases a c r :
  Forall (fun c => c <> 0) (c :: r) -> c <> 10 ->
  pp_token (a ++ c :: r) (zlen a) c = Ok None \/
  (exists b1 r' ts te q, c :: r = b1 ++ r' /\ b1 <> [] /\ (tame (c :: r) -> tame r') /\
     pp_token (a ++ c :: r) (zlen a) c = Ok (Some (zlen (a ++ b1), ts, te, q)) /\
     exists d, ch (a ++ c :: r) ts = Ok d /\
     ((d =? 0) || (d =? 10) = false -> exists w, sub (a ++ c :: r) ts (te - ts) = Ok w)) \/
  (pp_token (a ++ c :: r) (zlen a) c = Ub UbOob /\ ~ tame (c :: r)).
Proof.
  intros HZ H10. inversion HZ as [|? ? Hc0 HZr]; subst. unfold pp_token.
  destruct (is_id true c) eqn:Ei.
  { right. left. destruct (span (is_id false) r) as (b1 & r' & -> & H1 & H2).
    exists (c :: b1), r', (zlen a), (zlen (a ++ c :: b1)), false.
    split; [reflexivity|]. split; [discriminate|]. split.
    { apply (tame_skip (c :: b1) r'). constructor.
      - apply is_id_first in Ei. unfold letter in Ei. lia.
      - eapply Forall_impl; [|exact H1]. intros x Hx. apply is_id_next in Hx. unfold letter, digit in Hx. lia. }
    rewrite (scan_at (is_id false) _ (zlen a + 1) (a ++ [c]) b1 r'); auto.
    2:{ now rewrite <- app_assoc. } 2:{ rewrite zl_app; reflexivity. } 2:{ destruct r'; [reflexivity|auto]. }
    split. { cbn [bind]. replace (zlen (a ++ [c]) + zlen b1) with (zlen (a ++ c :: b1)); [reflexivity|].
             rewrite !zl_app, !zl_cons. change (zlen (@nil Z)) with 0. lia. }
    exists c. split; [rewrite ch_app; reflexivity|]. intros _. exists (c :: b1).
    apply (sub_at _ _ _ a (c :: b1) r'); auto. rewrite zl_app. lia. }
  destruct (is_num c) eqn:Ed.
  { right. left. destruct (span is_num r) as (b1 & r' & -> & H1 & H2).
    assert (HF : Forall (fun c => is_num c = true) (c :: b1)) by (constructor; auto).
    exists (c :: b1), r', (zlen a), (zlen (a ++ c :: b1)), false.
    split; [reflexivity|]. split; [discriminate|]. split.
    { apply (tame_skip (c :: b1) r'). eapply Forall_impl; [|exact HF]. cbv beta. unfold is_num. intros. lia. }
    rewrite (scan_at is_num _ (zlen a) a (c :: b1) r'); auto.
    2:{ destruct r'; [reflexivity|auto]. }
    split. { cbn [bind]. now rewrite !zl_app. }
    exists c. split; [rewrite ch_app; reflexivity|]. intros _. exists (c :: b1).
    apply (sub_at _ _ _ a (c :: b1) r'); auto. rewrite zl_app. lia. }
  destruct (c =? 34) eqn:E34.
  { assert (c = 34) by lia. subst c.
    assert (Hch : forall b r', r = b ++ 34 :: r' ->
      pp_quote (S (S (List.length (a ++ 34 :: r)))) (a ++ 34 :: r) (zlen a + 1) false = Ok (zlen a + 1 + zlen b) ->
      pp_token (a ++ 34 :: r) (zlen a) 34 = Ok (Some (zlen (a ++ 34 :: b ++ [34]), zlen a + 1, zlen a + 1 + zlen b, true)) /\
      exists d, ch (a ++ 34 :: r) (zlen a + 1) = Ok d /\
      ((d =? 0) || (d =? 10) = false -> exists w, sub (a ++ 34 :: r) (zlen a + 1) (zlen a + 1 + zlen b - (zlen a + 1)) = Ok w)).
    { intros b r' Er E. split.
      - unfold pp_token. change (is_id true 34) with false. change (is_num 34) with false. change (34 =? 34) with true. cbv iota.
        rewrite E. cbn [bind]. replace (zlen a + 1 + zlen b + 1) with (zlen (a ++ 34 :: b ++ [34])); [reflexivity|].
        rewrite zl_app, zl_cons, zl_app. change (zlen [34]) with 1. lia.
      - rewrite ch1. eexists. split; [reflexivity|]. intros _. exists b.
        apply (sub_at _ _ _ (a ++ [34]) b (34 :: r')).
        + rewrite <- app_assoc, Er. reflexivity.
        + rewrite zl_app. reflexivity.
        + lia. }
    unfold pp_token in Hch. rewrite Ei, Ed in Hch. change (34 =? 34) with true in Hch. cbv iota in Hch.
    assert (Hr : (a ++ [34]) ++ r = a ++ 34 :: r) by now rewrite <- app_assoc.
    assert (Hl : zlen (a ++ [34]) = zlen a + 1) by (rewrite zl_app; reflexivity).
    destruct (pp_quote_cases r (a ++ [34]) false (S (S (List.length (a ++ 34%Z :: r)))) HZr) as [(b & r' & Er & E)|E].
    { rewrite app_length. cbn [List.length]. lia. }
    - right. left. rewrite Hr, Hl in E. destruct (Hch b r' Er E) as [Hc1 Hc2].
      exists (34 :: b ++ [34]), r', (zlen a + 1), (zlen a + 1 + zlen b), true.
      split. { rewrite Er. cbn [app]. now rewrite <- app_assoc. }
      split; [discriminate|]. split; [|split; [exact Hc1|exact Hc2]].
      intro HT. destruct (tame_quote r HT) as (b0 & r0 & Er0 & HF0 & HT0).
      assert (E0 := pp_quote_tame b0 r0 (a ++ [34]) (S (S (List.length (a ++ 34%Z :: r))))).
      rewrite <- Er0, Hr, Hl, E in E0.
      assert (Hbb : zlen b = zlen b0).
      { assert (HX : Ok (zlen a + 1 + zlen b) = Ok (zlen a + 1 + zlen b0)).
        { apply E0; [eapply Forall_impl; [|exact HF0]; cbv beta; tauto|].
          rewrite Er0, app_length. cbn [List.length]. rewrite app_length. cbn [List.length]. lia. }
        injection HX as HX. lia. }
      rewrite Er in Er0. assert (b = b0 /\ 34 :: r' = 34 :: r0) as [_ Er1].
      { unfold zlen in Hbb. clear - Er0 Hbb. apply Nat2Z.inj in Hbb. revert b0 Er0 Hbb.
        induction b as [|x b IH]; intros [|y b0] E Hl; cbn in Hl; try lia; [auto|].
        cbn in E. injection E as -> E. destruct (IH b0 E ltac:(lia)) as [-> ->]. auto. }
      injection Er1 as ->. auto.
    - right. right. rewrite Hr, Hl in E. split; [rewrite E; reflexivity|].
      intro HT. destruct (tame_quote r HT) as (b0 & r0 & Er0 & HF0 & HT0).
      assert (E0 := pp_quote_tame b0 r0 (a ++ [34]) (S (S (List.length (a ++ 34%Z :: r))))).
      rewrite <- Er0, Hr, Hl, E in E0.
      assert (HX : Ub UbOob = Ok (zlen a + 1 + zlen b0)); [|discriminate].
      apply E0; [eapply Forall_impl; [|exact HF0]; cbv beta; tauto|].
      rewrite Er0, app_length. cbn [List.length]. rewrite app_length. cbn [List.length]. lia. }
  destruct (c =? 47) eqn:E47; [|left; reflexivity].
  assert (c = 47) by lia. subst c. rewrite ch1. cbn [bind].
  destruct (hd 0 r =? 47) eqn:E2; [|left; reflexivity].
  right. left. destruct (span (fun x => negb (x =? 10)) (47 :: r)) as (b1 & r' & E & H1 & H2).
  exists b1, r', (zlen (a ++ b1)), (zlen (a ++ b1)), false. split; [auto|].
  split. { intros ->. cbn in E. subst r'. cbv beta in H2. lia. }
  assert (HZ' : Forall (fun c => c <> 0) (b1 ++ r')) by (rewrite <- E; auto).
  apply Forall_app in HZ'. destruct HZ' as [HZ1 HZ2].
  split. { intros HT l b -> Hl Hb. assert (l = []).
           { destruct l as [|x l]; [reflexivity|]. cbn in H2. inversion Hl; subst. lia. }
           subst l. split; [reflexivity|]. intros []. }
  rewrite (scan_at _ _ (zlen a) a b1 r'); auto.
  - split; [cbn [bind]; now rewrite zl_app|].
    exists (hd 0 r'). split. { apply (ch_at _ _ (a ++ b1) r'); [rewrite E; now rewrite <- app_assoc|reflexivity]. }
    intros _. exists []. apply (sub_at _ _ _ (a ++ b1) [] r'); [rewrite E; now rewrite <- app_assoc|reflexivity|].
    change (zlen (@nil Z)) with 0. lia.
  - now rewrite E.
  - rewrite Forall_forall in *. intros x Hx. specialize (H1 x Hx). specialize (HZ1 x Hx). cbv beta in *. lia.
  - destruct r' as [|x r']; [reflexivity|]. cbn [hd]. cbv beta in H2. lia.
Qed.

Lemma pp_skip_ok a r : exists w r', r = w ++ r' /\ pp_skip (a ++ r) (zlen a) = Ok (zlen (a ++ w)) /\ (tame r -> tame r').
Proof.
  destruct (span (fun c => is_ws c && negb (c =? 10)) r) as (w & r' & -> & H1 & H2).
  exists w, r'. split; [reflexivity|]. split.
  - unfold pp_skip. rewrite (scan_at _ _ (zlen a) a w r'); auto; [now rewrite zl_app|].
    destruct r'; [reflexivity|auto].
  - apply tame_skip. eapply Forall_impl; [|exact H1]. cbv beta. intros x Hx. unfold is_ws in Hx. lia.
Qed.

Lemma pp_loop_ok line file : forall n r a toks f s, (List.length r <= n)%nat ->
  live s -> Forall (fun c => c <> 0) r -> (List.length r < f)%nat ->
  (exists o s', pp_loop f (a ++ r) line file (zlen a) toks s = Ok (o, s') /\ told o s s') \/
  (pp_loop f (a ++ r) line file (zlen a) toks s = Ub UbOob /\ ~ tame r).
Proof.
  induction n as [|n IH]; intros r a toks f s Hn HL HZ Hf; (destruct f as [|f]; [lia|]).
  - destruct r; [|cbn in Hn; lia]. left. exists (Some toks), s. split; [|apply told_ret].
    cbn [pp_loop]. unfold mbind, lift. rewrite ch_app. reflexivity.
  - remember (pp_loop (S f) (a ++ r) line file (zlen a) toks s) as X eqn:HX.
    cbn [pp_loop] in HX. unfold mbind at 1, lift at 1 in HX. rewrite ch_app in HX.
    destruct ((hd 0 r =? 0) || (hd 0 r =? 10)) eqn:E0.
    { left. exists (Some toks), s. split; [exact HX|apply told_ret]. }
    destruct r as [|c r]; [discriminate E0|]. cbn [hd] in *.
    unfold mbind at 1, lift at 1 in HX.
    destruct (pp_token_cases a c r HZ ltac:(lia)) as [E|[(b1 & r1 & ts & te & q & Er & Hb1 & HT1 & E & d & Hd & Hsub)|[E HT]]];
      rewrite E in HX.
    + left. destruct (err_none (A := list bytes) (u32 line) file (bs "Unknown preprocessor token.") s HL) as (s' & E' & HT').
      exists None, s'. split; [rewrite HX; exact E'|auto].
    + unfold mbind at 1, lift at 1 in HX. rewrite Hd in HX.
      destruct (pp_skip_ok (a ++ b1) r1) as (w & r2 & Er2 & Hskip & HT2).
      assert (Ea : a ++ c :: r = (a ++ b1) ++ r1) by (rewrite Er; apply app_assoc).
      assert (Ea2 : a ++ c :: r = ((a ++ b1) ++ w) ++ r2) by (rewrite Ea, Er2; apply app_assoc).
      assert (HK : exists toks', X = pp_loop f (((a ++ b1) ++ w) ++ r2) line file (zlen ((a ++ b1) ++ w)) toks' s).
      { destruct ((d =? 0) || (d =? 10)) eqn:Ed.
        - exists toks. unfold mbind, ret, lift in HX. rewrite Ea in HX. rewrite Hskip in HX. rewrite HX, Er2.
          now rewrite app_assoc.
        - destruct (Hsub eq_refl) as [wd Hw]. destruct (unescape_total wd) as [t Ht].
          exists (toks ++ [if q then t else wd]). unfold mbind, ret, lift in HX. rewrite Hw in HX.
          destruct q; [rewrite Ht in HX|]; rewrite Ea, Hskip in HX; rewrite HX, Er2; now rewrite app_assoc. }
      destruct HK as [toks' HK].
      assert (Hlen : (List.length (c :: r) = List.length b1 + (List.length w + List.length r2))%nat).
      { rewrite Er, Er2. rewrite !app_length. lia. }
      assert (Hb : (0 < List.length b1)%nat) by (destruct b1; [contradiction|cbn; lia]).
      assert (HZ2 : Forall (fun c => c <> 0) r2).
      { rewrite Er in HZ. apply Forall_app in HZ. destruct HZ as [_ HZ]. rewrite Er2 in HZ. apply Forall_app in HZ. tauto. }
      destruct (IH r2 ((a ++ b1) ++ w) toks' f s ltac:(lia) HL HZ2 ltac:(lia)) as [HO|[HO HNT]]; rewrite <- HK in HO; [left; exact HO|right].
      split; [exact HO|]. intro HTT. apply HNT. auto.
    + right. auto.
Qed.

Lemma directive_end q : exists t e rest, q = t ++ e ++ rest /\
  piece_at (PDirective (bs "#" ++ t ++ e)) rest /\
  Forall (fun c => c <> 10 /\ c <> 13) t /\ not_followed_by (fun c => c <> 10 /\ c <> 13) (e ++ rest) /\
  (zlen e = 1 \/ (e = [] /\ rest = [])).
Proof.
  destruct (span (fun c => negb (c =? 10) && negb (c =? 13)) q) as (t & b & -> & H1 & H2).
  assert (HF : Forall (fun c => c <> 10 /\ c <> 13) t).
  { eapply Forall_impl; [|exact H1]. cbv beta. intros. lia. }
  destruct b as [|c b].
  - exists t, [], []. split; [reflexivity|]. split; [constructor; auto|]. split; [auto|]. split; [exact I|]. auto.
  - exists t, [c], b. split; [reflexivity|]. cbv beta in H2.
    assert (Hc : c = 10 \/ c = 13) by lia.
    split. { constructor; [auto|]. destruct Hc as [-> | ->]; auto. }
    split; [auto|]. split; [cbn; lia|]. left. reflexivity.
Qed.

Lemma tok_directive_ok a q line act t s :
  live s -> is_s32 line -> Forall (fun c => c <> 0) q ->
  (exists o s', tok_directive (a ++ 35 :: q) (zlen a) line act t s = Ok (o, s') /\ told o s s' /\
     match o with
     | None => True
     | Some t' => t_toks t' = t_toks t /\ t_act t' = act /\ is_s32 (t_line t') /\
         exists rw rest, 35 :: q = rw ++ rest /\ rw <> [] /\ piece_at (PDirective rw) rest /\
         (t_i t' = zlen (a ++ rw) \/ (rest = [] /\ zlen (a ++ 35 :: q) < t_i t'))
     end) \/
  (tok_directive (a ++ 35 :: q) (zlen a) line act t s = Ub UbOob /\ ~ tame q).
Proof.
  intros HL Hline HZ. unfold tok_directive.
  destruct (directive_end q) as (tx & e & rest & Eq & HP & HF1 & HF2 & He).
  assert (Esc : scan_from (fun x => negb (x =? 10) && negb (x =? 13) && negb (x =? 0)) (a ++ 35 :: q) (zlen a) =
                Ok (zlen a + zlen (35 :: tx))).
  { apply (scan_at _ _ _ a (35 :: tx) (e ++ rest)); auto.
    - rewrite Eq. reflexivity.
    - constructor; [reflexivity|]. rewrite Eq in HZ. apply Forall_app in HZ. destruct HZ as [HZ _].
      rewrite Forall_forall in *. intros x Hx. specialize (HF1 x Hx). specialize (HZ x Hx). cbv beta in *. lia.
    - destruct (e ++ rest) as [|x z]; [reflexivity|]. cbn [hd not_followed_by] in *. lia. }
  unfold pp_tokens.
  destruct (pp_skip_ok (a ++ [35]) q) as (w & r' & Er & Hskip & HT).
  replace ((a ++ [35]) ++ q) with (a ++ 35 :: q) in Hskip by now rewrite <- app_assoc.
  replace (zlen (a ++ [35])) with (zlen a + 1) in Hskip by (rewrite zl_app; reflexivity).
  assert (HZr : Forall (fun c => c <> 0) r') by (rewrite Er in HZ; apply Forall_app in HZ; tauto).
  assert (Ea : a ++ 35 :: q = ((a ++ [35]) ++ w) ++ r') by (rewrite Er; rewrite <- !app_assoc; reflexivity).
  destruct (pp_loop_ok line (t_file t) _ r' ((a ++ [35]) ++ w) [] (S (List.length (a ++ 35%Z :: q))) s (le_n _) HL HZr)
    as [(o & s' & E & HO)|[E HNT]].
  { rewrite Ea. rewrite !app_length. lia. }
  - rewrite <- Ea in E.
    assert (EP : (k' <- lift (pp_skip (a ++ 35 :: q) (zlen a + 1)) ;;
       pp_loop (S (List.length (a ++ 35 :: q))) (a ++ 35 :: q) line (t_file t) k' []) s = Ok (o, s')).
    { unfold mbind, lift. rewrite Hskip. exact E. }
    left. destruct o as [toks|].
    + destruct HO as [HG HE].
      destruct (directive_told line (t_file t) toks s' (tgrow_live _ _ HG HL) Hline) as (r & s2 & ED & HD & HR).
      destruct r as [[l fl]|].
      * eexists. exists s2. split.
        { unfold mbind at 1, lift at 1. rewrite Esc. unfold mbind at 1. rewrite EP.
          unfold mbind at 1. rewrite ED. reflexivity. }
        split. { destruct HD as [HD1 HD2]. split; [eapply tgrow_trans; eauto|]. congruence. }
        cbn [t_toks t_act t_line t_i]. split; [reflexivity|]. split; [reflexivity|]. split; [auto|].
        exists (bs "#" ++ tx ++ e), rest. split; [rewrite Eq; change (bs "#") with [35]; cbn [app]; now rewrite <- app_assoc|].
        split; [discriminate|]. split; [auto|].
        change (bs "#") with [35]. rewrite Eq. cbn [app]. rewrite !zl_app, !zl_cons, !zl_app.
        destruct He as [He|[-> ->]]; [left; lia|right]. split; [auto|]. change (zlen (@nil Z)) with 0. lia.
      * exists None, s2. split.
        { unfold mbind at 1, lift at 1. rewrite Esc. unfold mbind at 1. rewrite EP.
          unfold mbind at 1. rewrite ED. reflexivity. }
        split; [|exact I]. eapply told_step; eauto.
    + destruct (add_error_ex_ok (u32 line) (t_file t) (bs "Preprocessor directive parse failure.") s'
        (tgrow_live _ _ (proj1 HO) HL)) as [er Her].
      exists None, (set_errs (v_errs s' ++ [er]) s'). split.
      { unfold mbind at 1, lift at 1. rewrite Esc. unfold mbind at 1. rewrite EP.
        unfold mbind at 1. rewrite Her. reflexivity. }
      split; [|exact I]. eapply told_none. exact HO.
  - right. rewrite <- Ea in E. split; [|intro HTT; apply HNT; auto].
    unfold mbind at 1, lift at 1. rewrite Esc. unfold mbind at 1 2. unfold lift. rewrite Hskip, E. reflexivity.
Qed.

(** ** The whole text *)

Lemma raws_spaces w ps : raws (map PSpace w ++ ps) = w ++ raws ps.
Proof. induction w as [|c w IH]; [reflexivity|]. cbn [map app raws raw]. now rewrite IH. Qed.
Lemma lexes_spaces w ps : Forall space w -> lexes ps -> lexes (map PSpace w ++ ps).
Proof. induction 1; cbn [map app lexes]; auto. intro. split; [constructor; auto|auto]. Qed.
Lemma tokens_spaces w ps : tokens_of (map PSpace w ++ ps) = tokens_of ps.
Proof. induction w; auto. Qed.
Lemma located_spaces w : forall l ps, located l (map PSpace w ++ ps) = located (l + nl w) ps.
Proof.
  induction w as [|c w IH]; intros l ps; cbn [map app located nl].
  - change (nl []) with 0. now rewrite Z.add_0_r.
  - rewrite IH, nl_cons. f_equal. destruct (c =? 10); lia.
Qed.
Lemma nl_bound w : 0 <= nl w <= zlen w.
Proof. split; [apply nl_nn|apply nl_le]. Qed.

Definition placed (a r : bytes) (t : tstate) : Prop :=
  t_i t = zlen a \/ (r = [] /\ zlen a < t_i t).

Lemma loop_cases : forall n r a t s f, (List.length r <= n)%nat ->
  live s -> here t -> placed a r t -> Forall (fun c => c <> 0) r -> (List.length r < f)%nat ->
  (exists toks s', tok_loop f (a ++ r) t s = Ok (Some toks, s') /\ told (Some toks) s s' /\
     exists ps, raws ps = r /\ lexes ps /\
       map pair_of toks = joined (map pair_of (rev (t_toks t)) ++ tokens_of ps)) \/
  (exists s', tok_loop f (a ++ r) t s = Ok (None, s') /\ told (@None (list token)) s s') \/
  (tok_loop f (a ++ r) t s = Ub UbSignedOverflow /\
     (W31 <= t_act t + zlen r \/ W31 <= t_line t + zlen r \/ In 35 r)) \/
  (tok_loop f (a ++ r) t s = Ub UbOob /\ exists b q, r = b ++ 35 :: q /\ ~ tame q).
Proof.
  assert (HEnd : forall a r t s f, r = [] \/ zlen (a ++ r) <= t_i t -> r = [] -> placed a r t -> (0 < f)%nat ->
    exists toks s', tok_loop f (a ++ r) t s = Ok (Some toks, s') /\ told (Some toks) s s' /\
     exists ps, raws ps = r /\ lexes ps /\
       map pair_of toks = joined (map pair_of (rev (t_toks t)) ++ tokens_of ps)).
  { intros a r t s f _ -> HP Hf. destruct f as [|f]; [lia|]. cbn [tok_loop]. rewrite app_nil_r.
    destruct (t_i t <? zlen a) eqn:E; [destruct HP as [HP|[_ HP]]; lia|].
    eexists. exists s. split; [reflexivity|]. split; [apply told_ret|]. exists []. split; [reflexivity|].
    split; [exact I|]. rewrite consolidate_ok, join_pairs. cbn [tokens_of]. now rewrite app_nil_r. }
  induction n as [|n IH]; intros r a t s f Hn HL HH HP HZ Hf.
  { destruct r; [|cbn in Hn; lia]. left. apply HEnd; auto. }
  destruct r as [|c r]. { left. apply HEnd; auto. }
  destruct HP as [Hi|[HP _]]; [|discriminate].
  destruct f as [|f]; [lia|]. remember (tok_loop (S f) (a ++ c :: r) t s) as X eqn:HX. cbn [tok_loop] in HX.
  destruct (t_i t <? zlen (a ++ c :: r)) eqn:E.
  2:{ rewrite zl_app, zl_cons in E. pose proof (zl_nn r). lia. }
  destruct (step_cases a (c :: r) t s HL HH Hi ltac:(discriminate) HZ) as (w & rest & Er & HW & HS & HC).
  cbv zeta in HC. set (r0 := c :: r) in *. assert (Hr0 : (0 < List.length r0)%nat) by (cbn; lia). clearbody r0. clear c r.
  assert (Hnl := nl_bound w). assert (Hwl : zlen w <= zlen r0).
  { rewrite Er, zl_app. pose proof (zl_nn rest). lia. }
  assert (HZr : Forall (fun c => c <> 0) rest) by (rewrite Er in HZ; apply Forall_app in HZ; tauto).
  destruct ((t_line t + nl w <? W31) && (t_act t + nl w <? W31)) eqn:EO.
  2:{ right. right. left. unfold mbind in HX. rewrite HC in HX. split; [exact HX|]. lia. }
  destruct HH as [HH1 HH2]. unfold is_s32 in HH1, HH2.
  (* the step leaves the state at [a ++ w ++ raw p] having added piece [p] *)
  assert (NEXT : forall p rest' t' s1, rest = raw p ++ rest' -> (w <> [] \/ raw p <> []) -> piece_at p rest' ->
     tgrow s s1 -> v_errs s1 = v_errs s ->
     X = tok_loop f (a ++ r0) t' s1 -> is_s32 (t_line t') -> t_act t' = t_act t + nl w ->
     (t_line t' = t_line t + nl w \/ In 35 r0) ->
     placed (a ++ w ++ raw p) rest' t' ->
     map pair_of (rev (t_toks t')) = map pair_of (rev (t_toks t)) ++ tokens_of [p] ->
     (exists toks s', X = Ok (Some toks, s') /\ told (Some toks) s s' /\
       exists ps, raws ps = r0 /\ lexes ps /\
         map pair_of toks = joined (map pair_of (rev (t_toks t)) ++ tokens_of ps)) \/
     (exists s', X = Ok (None, s') /\ told (@None (list token)) s s') \/
     (X = Ub UbSignedOverflow /\ (W31 <= t_act t + zlen r0 \/ W31 <= t_line t + zlen r0 \/ In 35 r0)) \/
     (X = Ub UbOob /\ exists b q, r0 = b ++ 35 :: q /\ ~ tame q)).
  { intros p rest' t' s1 Erest Hne Hpa HG HE HX' Hl' Ha' Hl2 HP' Htk.
    assert (Er' : a ++ r0 = (a ++ w ++ raw p) ++ rest') by (rewrite Er, Erest; rewrite <- !app_assoc; reflexivity).
    assert (Hlen : (List.length r0 = List.length w + (List.length (raw p) + List.length rest'))%nat).
    { rewrite Er, Erest. rewrite !app_length. lia. }
    assert (Hpos : (0 < List.length w + List.length (raw p))%nat).
    { destruct Hne as [Hne|Hne]; [destruct w|destruct (raw p)]; try contradiction; cbn [List.length]; lia. }
    assert (Hzl : zlen r0 = zlen w + (zlen (raw p) + zlen rest')).
    { rewrite Er, Erest, !zl_app. lia. }
    pose proof (zl_nn (raw p)). pose proof (zl_nn rest'). pose proof (zl_nn w).
    assert (HZ' : Forall (fun c => c <> 0) rest') by (rewrite Erest in HZr; apply Forall_app in HZr; tauto).
    rewrite Er' in HX'.
    destruct (IH rest' (a ++ w ++ raw p) t' s1 f) as [(toks & s' & E1 & E2 & ps & E3 & E4 & E5)|[(s' & E1 & E2)|[[E1 E2]|[E1 (b & q & E2 & E3)]]]];
      auto; try lia.
    - eapply tgrow_live; eauto.
    - split; [exact Hl'|]. unfold is_s32. rewrite Ha'. lia.
    - left. exists toks, s'. split; [congruence|]. split; [eapply told_step; eauto|].
      exists (map PSpace w ++ p :: ps). split; [|split].
      + rewrite raws_spaces. cbn [raws]. rewrite E3, <- Erest. auto.
      + apply lexes_spaces; [auto|]. cbn [lexes]. rewrite E3. auto.
      + rewrite E5, Htk, tokens_spaces, <- app_assoc. do 2 f_equal. destruct p; reflexivity.
    - right. left. exists s'. split; [congruence|]. eapply told_step; eauto.
    - right. right. left. split; [congruence|].
      destruct E2 as [E2|[E2|E2]]; [lia| |].
      + destruct Hl2 as [Hl2|Hl2]; [|auto]. lia.
      + right. right. rewrite Er, Erest. apply in_or_app. right. apply in_or_app. auto.
    - right. right. right. split; [congruence|]. exists (w ++ raw p ++ b), q. split; [|auto].
      rewrite Er, Erest, E2. rewrite <- !app_assoc. reflexivity. }
  destruct HC as [[Hrest HC]|[(ty & rw & txt & rest' & i' & Erest & Hpa & HC & Hi')|[(q & rest' & Erest & Hpa & HC)|[(e & HC)|(q & Erest & HC)]]]].
  - (* only spaces were left *)
    unfold mbind in HX. rewrite HC in HX. subst rest. rewrite app_nil_r in Er. subst w.
    left. destruct f as [|f]; [lia|]. cbn [tok_loop t_i] in HX.
    destruct (zlen (a ++ r0) + 1 <? zlen (a ++ r0)) eqn:E2; [lia|].
    eexists. exists s. split; [exact HX|]. split; [apply told_ret|]. exists (map PSpace r0 ++ []). split; [|split].
    + rewrite raws_spaces. cbn. apply app_nil_r.
    + apply lexes_spaces; cbn; auto.
    + rewrite consolidate_ok, join_pairs, tokens_spaces. cbn [tokens_of t_toks]. now rewrite app_nil_r.
  - unfold mbind in HX. rewrite HC in HX.
    apply (NEXT (PToken ty rw txt) rest' _ s Erest) in HX; auto.
    + right. cbn [raw]. rewrite Erest in HZr. destruct (token_step ty rw txt rest' [] Hpa HZr) as [(c & q & -> & _) _]. discriminate.
    + apply tgrow_refl.
    + cbn [t_line]. unfold is_s32. lia.
    + cbn [raw]. unfold placed. cbn [t_i]. destruct Hi' as [->|[-> Hi']]; [left; reflexivity|right].
      split; [reflexivity|]. rewrite Er, Erest in Hi'. rewrite app_nil_r in Hi'. exact Hi'.
    + cbn [t_toks rev]. rewrite map_app. reflexivity.
  - unfold mbind in HX. rewrite HC in HX.
    apply (NEXT (PComment (bs "//" ++ q)) rest' _ s Erest) in HX; auto.
    + right. cbn [raw]. discriminate.
    + apply tgrow_refl.
    + cbn [t_line]. unfold is_s32. lia.
    + cbn [raw]. left. reflexivity.
    + cbn [t_toks tokens_of]. now rewrite app_nil_r.
  - right. left. unfold mbind in HX. rewrite HC in HX. eexists. split; [exact HX|]. apply told_err.
  - unfold mbind in HX. rewrite HC in HX.
    assert (HI35 : In 35 r0). { rewrite Er, Erest. apply in_or_app. right. left. reflexivity. }
    assert (HZq : Forall (fun c => c <> 0) q) by (rewrite Erest in HZr; inversion HZr; auto).
    assert (Ea : a ++ r0 = (a ++ w) ++ 35 :: q) by (rewrite Er, Erest; apply app_assoc).
    destruct (tok_directive_ok (a ++ w) q (t_line t + nl w) (t_act t + nl w) t s HL) as [(o & s1 & ED & HT & HO)|[ED HNT]].
    + unfold is_s32. lia.
    + auto.
    + rewrite Ea in HX. rewrite ED in HX. destruct o as [t'|].
      * destruct HO as (HO1 & HO2 & HO3 & rw & rest' & HO4 & HO5 & HO6 & HO7). destruct HT as [HT1 HT2].
        rewrite <- Ea in HX. apply (NEXT (PDirective rw) rest' t' s1) in HX; auto.
        -- rewrite Erest. exact HO4.
        -- unfold placed. cbn [raw]. rewrite <- app_assoc in HO7. destruct HO7 as [HO7|[-> HO7]]; [left; exact HO7|right].
           split; [reflexivity|]. rewrite app_nil_r in HO4. subst rw. rewrite <- app_assoc in HO7. exact HO7.
        -- rewrite HO1. cbn [tokens_of]. now rewrite app_nil_r.
      * right. left. exists s1. split; [exact HX|auto].
    + right. right. right. rewrite Ea, ED in HX. split; [exact HX|]. exists w, q. split; [|auto]. rewrite Er, Erest. reflexivity.
Qed.

(** ** Reading a well formed text *)

Lemma split_spaces ps : lexes ps -> exists w qs, ps = map PSpace w ++ qs /\ Forall space w /\ lexes qs /\
  match qs with PSpace _ :: _ => False | _ => True end.
Proof.
  induction ps as [|p ps IH]; intro HL.
  - exists [], []. cbn. auto.
  - destruct p as [c|b|b|ty b t].
    + destruct HL as [H1 H2]. destruct (IH H2) as (w & qs & -> & Hw & Hq & Hn).
      exists (c :: w), qs. split; [reflexivity|]. split; [|auto]. constructor; [|auto]. inversion H1; auto.
    + exists [], (PComment b :: ps). cbn [map app]. auto.
    + exists [], (PDirective b :: ps). cbn [map app]. auto.
    + exists [], (PToken ty b t :: ps). cbn [map app]. auto.
Qed.

Lemma loop_reads : forall n ps a t s f, (List.length (raws ps) <= n)%nat ->
  lexes ps -> Forall (fun p => ~ is_directive p) ps -> here t -> placed a (raws ps) t ->
  t_act t = t_line t -> Forall (fun c => c <> 0) (raws ps) -> (List.length (raws ps) < f)%nat ->
  t_line t + zlen (raws ps) < W31 ->
  tok_loop f (a ++ raws ps) t s =
    Ok (Some (consolidate (rev (t_toks t) ++ map (at_line (t_file t)) (located (t_line t) ps))), s).
Proof.
  assert (HEnd : forall a ps t s f, raws ps = [] -> lexes ps -> placed a [] t -> (0 < f)%nat ->
    tok_loop f (a ++ raws ps) t s =
    Ok (Some (consolidate (rev (t_toks t) ++ map (at_line (t_file t)) (located (t_line t) ps))), s)).
  { intros a ps t s f Hr HL HP Hf. destruct f as [|f]; [lia|]. cbn [tok_loop]. rewrite Hr, app_nil_r.
    destruct (t_i t <? zlen a) eqn:E; [destruct HP as [HP|[_ HP]]; lia|].
    replace (located (t_line t) ps) with (@nil (Z * bytes * Z)). { cbn [map]. now rewrite app_nil_r. }
    destruct ps as [|p ps]; [reflexivity|]. exfalso. destruct HL as [HL _]. cbn [raws] in Hr.
    apply app_eq_nil in Hr. destruct Hr as [Hr _]. inversion HL; subst; try discriminate.
    - cbn [raw] in Hr. subst. cbn in H. repeat (destruct H as [H|H]; [discriminate H|]). destruct H.
  }
  induction n as [|n IH]; intros ps a t s f Hn HX HD HH HP Hla HZ Hf Hlen.
  { assert (raws ps = []) by (destruct (raws ps); [reflexivity|cbn in Hn; lia]).
    rewrite H in HP. apply HEnd; auto. lia. }
  destruct (raws ps) as [|c r0] eqn:ER.
  { rewrite <- ER. apply HEnd; auto. }
  destruct HP as [Hi|[HP _]]; [|discriminate]. rewrite <- ER in *.
  assert (Hne : (0 < List.length (raws ps))%nat) by (rewrite ER; cbn; lia). clear ER c r0.
  destruct (split_spaces ps HX) as (w & qs & -> & HW & HLq & HNq).
  rewrite raws_spaces in *. rewrite located_spaces. rewrite zl_app in Hlen. assert (Hnl := nl_bound w).
  pose proof (zl_nn (raws qs)). pose proof (zl_nn w).
  apply Forall_app in HD. destruct HD as [_ HD]. apply Forall_app in HZ. destruct HZ as [_ HZ].
  destruct f as [|f]; [lia|]. cbn [tok_loop].
  destruct (t_i t <? zlen (a ++ w ++ raws qs)) eqn:E.
  2:{ exfalso. rewrite !zl_app in E. rewrite app_length in Hne. unfold zlen in *. lia. }
  assert (HS : not_followed_by space (raws qs) /\ hd 0 (raws qs) <> 35).
  { destruct qs as [|p qs]; [cbn; split; [exact I|lia]|]. cbn [lexes raws] in *. destruct HLq as [Hp _].
    destruct p as [c|b|b|ty b tx].
    - destruct HNq.
    - inversion Hp; subst. cbn. unfold space. cbn. lia.
    - inversion HD as [|? ? Hd _]; subst. exfalso. apply Hd. exact I.
    - destruct (token_step ty b tx (raws qs) [] Hp HZ) as [(c & q & -> & Hc1 & Hc2) _]. cbn. auto. }
  destruct HS as [HS H35].
  destruct HH as [HH1 HH2]. unfold is_s32 in *.
  assert (EQ := step_eq a w (raws qs) t s (conj HH1 HH2) Hi HW HS ltac:(lia) ltac:(lia)).
  rewrite <- app_assoc in EQ.
  destruct (hd 0 (raws qs) =? 35) eqn:E35; [lia|].
  unfold mbind in EQ |- *. rewrite EQ. clear EQ.
  destruct qs as [|p qs].
  - cbn [raws hd]. rewrite app_nil_r. unfold lift.
    assert (E0 : next_token (a ++ w) (zlen (a ++ w)) 0 = Ok (LSkip (zlen (a ++ w) + 1))) by reflexivity.
    rewrite E0. unfold ret. destruct f as [|f]; [rewrite app_length in *; lia|].
    cbn [tok_loop t_i]. destruct (zlen (a ++ w) + 1 <? zlen (a ++ w)) eqn:E2; [lia|]. cbn [located map t_toks].
    now rewrite app_nil_r.
  - cbn [raws lexes] in *. destruct HLq as [Hp HLq]. inversion HD as [|? ? Hd HDq]; subst.
    assert (HZq : Forall (fun c => c <> 0) (raws qs)) by (apply Forall_app in HZ; tauto).
    rewrite !app_length in *. rewrite zl_app in Hlen. pose proof (zl_nn (raws qs)). pose proof (zl_nn (raw p)).
    unfold lift.
    destruct p as [c|b|b|ty b tx]; [destruct HNq| |exfalso; apply Hd; exact I|].
    + inversion Hp as [|? ? Hp1 Hp2| | | | | | |]; subst. cbn [raw] in *.
      change (bs "//" ++ t0) with (47 :: 47 :: t0) in *.
      assert (Hnz : Forall (fun c => c <> 0) t0).
      { apply Forall_app in HZ. destruct HZ as [HZ _]. inversion HZ as [|? ? _ HZ2]; subst. inversion HZ2; subst. auto. }
      rewrite (app_assoc a w). cbn [hd app].
      assert (HC := comment_step t0 (raws qs) (a ++ w) Hp1 Hp2 Hnz). change (bs "//" ++ t0) with (47 :: 47 :: t0) in HC. cbn [app] in HC.
      rewrite HC. unfold ret.
      replace ((a ++ w) ++ 47 :: 47 :: t0 ++ raws qs) with ((a ++ w ++ 47 :: 47 :: t0) ++ raws qs).
      2:{ rewrite <- !app_assoc. reflexivity. }
      rewrite IH; auto; try lia.
      * cbn [List.length app] in *. lia.
      * split; cbn [t_line t_act]; unfold is_s32; lia.
      * left. cbn [t_i]. rewrite !zl_app. lia.
      * cbn [t_act t_line]. lia.
      * cbn [List.length] in *. lia.
      * cbn [t_line]. lia.
    + cbn [raw] in *. destruct (token_step ty b tx (raws qs) (a ++ w) Hp HZ) as [(c & q & Eb & _) (i' & HN & Hi')].
      assert (Hh : hd 0 (b ++ raws qs) = hd 0 b) by (subst b; reflexivity).
      rewrite (app_assoc a w), Hh, HN. unfold ret.
      replace ((a ++ w) ++ b ++ raws qs) with ((a ++ w ++ b) ++ raws qs).
      2:{ rewrite <- !app_assoc. reflexivity. }
      assert (0 < List.length b)%nat by (subst b; cbn; lia).
      rewrite IH; auto; try lia.
      * cbn [t_toks t_file t_line located map rev]. rewrite <- app_assoc. cbn [app].
        unfold at_line at 2. rewrite Hla. reflexivity.
      * split; cbn [t_line t_act]; unfold is_s32; lia.
      * unfold placed. cbn [t_i]. rewrite !zl_app in *. destruct Hi' as [->|[Hq Hi']]; [left; lia|right]. split; [auto|lia].
      * cbn [t_act t_line]. lia.
      * cbn [t_line]. lia.
Qed.
