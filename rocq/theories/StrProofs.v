(** * StrProofs: lemmas about interned strings *)
From Verif Require Import Base.
From Verif Require Export MonadFacts StrModel.

Definition is_byte (c : Z) : Prop := 0 < c < 256.
Definition is_text (t : bytes) : Prop := Forall is_byte t.

Lemma s8_inj x y : is_byte x -> is_byte y -> s8 x = s8 y -> x = y.
Proof. unfold is_byte, s8. destruct (Z.ltb_spec x 128), (Z.ltb_spec y 128); lia. Qed.

Lemma str_cmp_refl a : str_cmp a a = 0.
Proof. induction a as [|x a IH]; cbn; auto. rewrite Z.ltb_irrefl. exact IH. Qed.

Lemma str_cmp_eq a : forall b, is_text a -> is_text b -> (str_cmp a b = 0 <-> a = b).
Proof.
  induction a as [|x a IH]; intros [|y b] Ha Hb; cbn [str_cmp]; try tauto.
  - destruct (s8 y <? 0); split; intro; congruence.
  - destruct (0 <? s8 x); split; intro; congruence.
  - inversion Ha as [|? ? X Ha']; inversion Hb as [|? ? Y Hb']; subst.
    destruct (Z.ltb_spec (s8 y) (s8 x)); [split; intro E; [discriminate|]; inversion E; subst; lia|].
    destruct (Z.ltb_spec (s8 x) (s8 y)); [split; intro E; [discriminate|]; inversion E; subst; lia|].
    rewrite (IH b Ha' Hb'). assert (x = y) by (apply s8_inj; auto; lia). subst.
    split; intro E; [subst; auto|congruence].
Qed.

(** ** The intern table *)

Definition str_bucket (txt : bytes) : Z := Z.land (str_hash txt) (STR_BUCKETS - 1).

Lemma land_mask_range x k : 0 <= k -> 0 <= Z.land x (2 ^ k - 1) < 2 ^ k.
Proof.
  intro H. replace (2 ^ k - 1) with (Z.ones k) by (rewrite Z.ones_equiv; lia). rewrite Z.land_ones by lia.
  apply Z.mod_pos_bound. apply Z.pow_pos_nonneg; lia.
Qed.

Lemma str_bucket_range t : 0 <= str_bucket t < STR_BUCKETS.
Proof. unfold str_bucket, STR_BUCKETS. apply (land_mask_range _ 8). lia. Qed.

Record str_wf (t : table nkstr) (bh : list (list Z)) : Prop := {
  sw_tab : tab_wf t;
  sw_len : zlen bh = STR_BUCKETS;
  sw_ent : forall i e, tab_get t i = Some e ->
             s_idx e = i /\ s_hash e = str_hash (s_str e) /\ is_text (s_str e);
  sw_in : forall i e, tab_get t i = Some e ->
             exists c, znth bh (str_bucket (s_str e)) = Some c /\ In i c;
  sw_chain : forall b c i, znth bh b = Some c -> In i c ->
             exists e, tab_get t i = Some e /\ str_bucket (s_str e) = b;
  sw_nodup : forall b c, znth bh b = Some c -> NoDup c;
  sw_uniq : forall i j e f, tab_get t i = Some e -> tab_get t j = Some f ->
             s_str e = s_str f -> i = j
}.

Lemma find_in_chain_ok t txt : is_text txt -> forall chain,
  (forall i, In i chain -> exists e, tab_get t i = Some e /\ s_idx e = i /\ is_text (s_str e)) ->
  (exists i e, find_in_chain t chain txt = Ok (Some i) /\ In i chain /\ tab_get t i = Some e /\ s_str e = txt)
  \/ (find_in_chain t chain txt = Ok None /\
      forall i e, In i chain -> tab_get t i = Some e -> s_str e <> txt).
Proof.
  intros T. induction chain as [|i r IH]; intro H; cbn [find_in_chain].
  - right. split; [reflexivity|]. intros ? ? [].
  - destruct (H i (or_introl eq_refl)) as (e & E & Ie & Te). rewrite E.
    destruct (Z.eqb_spec (str_cmp (s_str e) txt) 0) as [C|C].
    + left. exists (s_idx e), e. rewrite Ie. sp; auto; [left; auto|]. apply str_cmp_eq in C; auto.
    + destruct IH as [(j & f & A1 & A2 & A3 & A4)|[A1 A2]]; [intros; apply H; right; auto| |].
      * left. exists j, f. sp; auto. right; auto.
      * right. split; auto. intros j f [<-|J] G; eauto.
        rewrite E in G. inversion G; subst. intro K. apply C. rewrite K. apply str_cmp_refl.
Qed.

(** What find_or_add_string does. *)
Definition interned (s : vm) (txt : bytes) (i : Z) (s' : vm) : Prop :=
  (exists e, get_str_entry s i = Some e /\ s_str e = txt /\ s' = s) \/
  (exists t bh, s' = set_byhash bh (set_strs t s) /\
     get_str_entry s i = None /\ 0 <= i < W31 /\
     (forall j, tab_get t j = if j =? i then Some (mkS i 0 false (str_hash txt) txt) else get_str_entry s j) /\
     (forall j e, get_str_entry s j = Some e -> s_str e <> txt)) \/
  (i = INVALID /\ (exists e, s' = set_errs (v_errs s ++ [e]) s) /\
     forall j, 0 <= j < W31 -> exists e, get_str_entry s j = Some e).

Lemma find_or_add_cases s txt :
  str_wf (v_strs s) (v_byhash s) -> is_text txt ->
  (exists i s', find_or_add_string txt s = Ok (i, s') /\ str_wf (v_strs s') (v_byhash s') /\
    interned s txt i s') \/
  (find_or_add_string txt s = (add_error (bs "Address space exhaustion when adding item to table.") ;;; ret INVALID) s /\
    forall j, 0 <= j < W31 -> exists e, get_str_entry s j = Some e).
Proof.
  intros W T. unfold find_or_add_string. fold (str_bucket txt).
  unfold mbind at 1, gets at 1. cbv beta iota.
  pose proof (str_bucket_range txt) as BR.
  destruct (znth_in_range (v_byhash s) (str_bucket txt)) as [chain CH]; [rewrite (sw_len _ _ W); lia|].
  unfold mbind at 1, lift at 1, rd. rewrite CH. cbv beta iota.
  destruct (find_in_chain_ok (v_strs s) txt T chain) as [(i & e & F & Hi & G & Et)|[F NF]].
  { intros i Hi. destruct (sw_chain _ _ W _ _ _ CH Hi) as (e & E & _). exists e.
    destruct (sw_ent _ _ W _ _ E) as (? & ? & ?). auto. }
  - unfold mbind at 1, lift at 1. rewrite F. cbv beta iota. left. exists i, s. sp; auto.
    left. exists e. auto.
  - unfold mbind at 1, lift at 1. rewrite F. cbv beta iota.
    assert (forall j e, tab_get (v_strs s) j = Some e -> s_str e <> txt) as NEW.
    { intros j e E K. destruct (sw_in _ _ W _ _ E) as (c & Hc & Hj).
      rewrite K, CH in Hc. inversion Hc; subst c. exact (NF _ _ Hj E K). }
    destruct (tab_add (v_strs s) (mkS 0 0 false 0 [])) as [[i t]|] eqn:A.
    + destruct (tab_add_ok _ _ _ _ (sw_tab _ _ W) A) as (W' & Fr & Ri & Ci & G).
      pose proof (G i) as Gi. rewrite Z.eqb_refl in Gi. pose proof Gi as Gi'. apply tab_get_some in Gi'.
      pose proof (znth_some_range _ _ _ Gi') as Rs.
      unfold mbind at 1, lift at 1, wr. rewrite Gi'. cbv beta iota.
      unfold mbind, modify, ret. cbv beta iota.
      remember (mkS i 0 false (str_hash txt) txt) as new eqn:Hnew.
      remember (mkT (zupd (t_slots t) i (Some new)) (t_holes t)) as t2 eqn:Ht2.
      assert (forall j, tab_get t2 j = if j =? i then Some new else tab_get (v_strs s) j) as G2.
      { intro j. rewrite tab_get_znth. rewrite Ht2. cbn [t_slots]. rewrite znth_zupd.
        specialize (G j). rewrite tab_get_znth in G.
        destruct (Z.eqb_spec j i) as [EQ|N]; [subst j|].
        - destruct (Z.leb_spec 0 i), (Z.ltb_spec i (zlen (t_slots t))); cbn; try lia.
          rewrite Z.eqb_refl. reflexivity.
        - destruct (Z.eqb_spec i j); [congruence|]. cbn. exact G. }
      left. eexists i, _. split; [reflexivity|]. split.
      * vs. split.
        -- subst t2. split; cbn [t_holes t_slots].
           ++ apply W'.
           ++ intro j. rewrite (tw_holes _ W'). rewrite znth_zupd.
              destruct (Z.eqb_spec i j) as [<-|N]; cbn; [|tauto].
              destruct (Z.leb_spec 0 i), (Z.ltb_spec i (zlen (t_slots t))); cbn; try lia.
              rewrite Gi'. split; congruence.
           ++ unfold t_cap. cbn [t_slots]. rewrite zlen_zupd. apply W'.
        -- rewrite zlen_zupd. apply W.
        -- intros j e. rewrite G2. destruct (Z.eqb_spec j i) as [->|N].
           ++ intro E; inversion E; subst e. rewrite Hnew. cbn. auto.
           ++ apply W.
        -- intros j e. rewrite G2. destruct (Z.eqb_spec j i) as [->|N].
           ++ intro E; inversion E; subst e. rewrite Hnew. cbn [s_str]. exists (i :: chain). split; [|left; auto].
              apply znth_zupd_same. rewrite (sw_len _ _ W). lia.
           ++ intro E. destruct (sw_in _ _ W _ _ E) as (c & Hc & Hj).
              destruct (Z.eq_dec (str_bucket txt) (str_bucket (s_str e))) as [B|B].
              ** rewrite <- B in *. rewrite CH in Hc. inversion Hc; subst c.
                 exists (i :: chain). split; [|right; auto].
                 apply znth_zupd_same. rewrite (sw_len _ _ W). lia.
              ** exists c. split; auto. rewrite znth_zupd_other; auto.
        -- intros b c j Hc Hj. rewrite znth_zupd in Hc. rewrite G2.
           destruct (Z.eqb_spec (str_bucket txt) b) as [<-|B]; cbn in Hc.
           ++ rewrite (sw_len _ _ W) in Hc.
              destruct (Z.leb_spec 0 (str_bucket txt)), (Z.ltb_spec (str_bucket txt) STR_BUCKETS); cbn in Hc; try lia.
              inversion Hc; subst c. destruct Hj as [<-|Hj].
              ** rewrite Z.eqb_refl. exists new. rewrite Hnew. auto.
              ** destruct (sw_chain _ _ W _ _ _ CH Hj) as (e & E & Be).
                 destruct (Z.eqb_spec j i) as [->|]; [congruence|]. eauto.
           ++ destruct (sw_chain _ _ W _ _ _ Hc Hj) as (e & E & Be).
              destruct (Z.eqb_spec j i) as [->|]; [congruence|]. eauto.
        -- intros b c Hc. rewrite znth_zupd in Hc.
           destruct (Z.eqb_spec (str_bucket txt) b) as [<-|B]; cbn in Hc; [|eapply sw_nodup; eauto].
           rewrite (sw_len _ _ W) in Hc.
           destruct (Z.leb_spec 0 (str_bucket txt)), (Z.ltb_spec (str_bucket txt) STR_BUCKETS); cbn in Hc; try lia.
           inversion Hc; subst c. constructor; [|eapply sw_nodup; eauto].
           intro Hj. destruct (sw_chain _ _ W _ _ _ CH Hj) as (e & E & _). congruence.
        -- intros j k e f. rewrite !G2. intros Ej Ek Q.
           destruct (Z.eqb_spec j i) as [->|], (Z.eqb_spec k i) as [->|]; auto.
           ++ inversion Ej; subst e. rewrite Hnew in Q. cbn in Q. symmetry in Q. destruct (NEW _ _ Ek Q).
           ++ inversion Ek; subst f. rewrite Hnew in Q. cbn in Q. destruct (NEW _ _ Ej Q).
           ++ eapply (sw_uniq _ _ W); eauto.
      * right; left. eexists _, _. split; [reflexivity|]. rewrite <- Hnew. sp; auto; try lia.
    + right. split; [unfold mbind, gets, lift; rewrite CH, F, ?A; reflexivity|]. intros j Hj. destruct (tab_add_fails _ _ (sw_tab _ _ W) A) as [_ Fl]. eauto.
Qed.

Lemma find_or_add_ok s txt :
  str_wf (v_strs s) (v_byhash s) -> live_ctx s (v_cur s) -> is_text txt ->
  exists i s', find_or_add_string txt s = Ok (i, s') /\ str_wf (v_strs s') (v_byhash s') /\
    interned s txt i s'.
Proof.
  intros W L T. destruct (find_or_add_cases s txt W T) as [H|[H Fl]]; [exact H|]. rewrite H.
  destruct (add_error_ok s (bs "Address space exhaustion when adding item to table.") L) as [e E].
  rewrite (bind_run _ _ _ _ _ E). eexists _, _. split; [reflexivity|]. vs. split; auto.
  right; right. sp; eauto.
Qed.

(** Consequences convenient for clients. *)
Lemma interned_get s txt i s' : interned s txt i s' -> i = INVALID \/ get_str s' i = Some txt.
Proof.
  intros [(e & E & Et & ->)|[(t & bh & -> & _ & _ & G & _)|(-> & _)]]; auto; right.
  - unfold get_str. rewrite E, Et. auto.
  - unfold get_str, get_str_entry. vs. rewrite G, Z.eqb_refl. reflexivity.
Qed.

(** ** Cleaning *)

Definition keeps (pass : Z) (e : nkstr) : bool := (pass =? s_gc e) || s_keep e.

Lemma clean_chain_ok pass : forall chain t,
  tab_wf t -> NoDup chain ->
  (forall i, In i chain -> exists e, tab_get t i = Some e /\ s_idx e = i) ->
  exists t' c', clean_chain t chain pass = Ok (t', c') /\ tab_wf t' /\
    (forall j, tab_get t' j =
       match tab_get t j with
       | Some e => if existsb (Z.eqb j) chain && negb (keeps pass e) then None else Some e
       | None => None end) /\
    c' = filter (fun j => match tab_get t j with Some e => keeps pass e | None => false end) chain.
Proof.
  induction chain as [|i r IH]; intros t W ND H; cbn [clean_chain].
  - exists t, []. sp; auto. intro j. destruct (tab_get t j); reflexivity.
  - inversion ND as [|? ? NI ND']; subst.
    destruct (H i (or_introl eq_refl)) as (e & E & Ie). rewrite E.
    replace (negb (pass =? s_gc e) && negb (s_keep e)) with (negb (keeps pass e))
      by (unfold keeps; destruct (pass =? s_gc e), (s_keep e); reflexivity).
    destruct (keeps pass e) eqn:K; cbn [negb].
    + destruct (IH t W ND') as (t' & c' & R & W' & G & Ec); [intros; apply H; right; auto|].
      rewrite R. cbn [bind]. exists t', (i :: c'). sp; auto.
      * intro j. rewrite G. destruct (tab_get t j) as [f|] eqn:F; auto. cbn [existsb].
        destruct (Z.eqb_spec j i) as [->|]; cbn; auto. rewrite E in F. inversion F; subst.
        rewrite K. rewrite andb_false_r. reflexivity.
      * cbn [filter]. rewrite E, K. congruence.
    + rewrite Ie. destruct (tab_erase_ok _ _ _ W E) as (t1 & R1 & W1 & _ & G1). rewrite R1. cbn [bind].
      destruct (IH t1 W1 ND') as (t' & c' & R & W' & G & Ec).
      { intros j Hj. destruct (H j (or_intror Hj)) as (f & F & If). rewrite G1.
        destruct (Z.eqb_spec j i); [congruence|]. eauto. }
      rewrite R. exists t', c'. sp; auto.
      * intro j. rewrite G, G1. cbn [existsb]. destruct (Z.eqb_spec j i) as [->|]; cbn.
        -- rewrite E, K. reflexivity.
        -- destruct (tab_get t j); reflexivity.
      * rewrite Ec. cbn [filter]. rewrite E, K. apply filter_ext_in.
        intros j Hj. rewrite G1. destruct (Z.eqb_spec j i); [congruence|reflexivity].
Qed.

Lemma clean_buckets_ok pass : forall bks t,
  tab_wf t ->
  NoDup (concat bks) ->
  (forall i, In i (concat bks) -> exists e, tab_get t i = Some e /\ s_idx e = i) ->
  exists t' bks', clean_buckets t bks pass = Ok (t', bks') /\ tab_wf t' /\
    (forall j, tab_get t' j =
       match tab_get t j with
       | Some e => if existsb (Z.eqb j) (concat bks) && negb (keeps pass e) then None else Some e
       | None => None end) /\
    bks' = map (filter (fun j => match tab_get t j with Some e => keeps pass e | None => false end)) bks.
Proof.
  induction bks as [|c r IH]; intros t W ND H; cbn [clean_buckets concat map].
  - exists t, []. sp; auto. intro j. destruct (tab_get t j); reflexivity.
  - cbn [concat] in *.
    assert (NoDup c /\ NoDup (concat r) /\ forall x, In x c -> ~ In x (concat r)) as (N1 & N2 & N3).
    { clear - ND. induction c as [|x c IHc]; cbn in *.
      - sp; auto. constructor.
      - inversion ND as [|? ? A B]; subst. destruct (IHc B) as (X1 & X2 & X3). sp; auto.
        + constructor; auto. intro; apply A; apply in_or_app; auto.
        + intros y [<-|Hy]; auto. intro; apply A; apply in_or_app; auto. }
    destruct (clean_chain_ok pass c t W N1) as (t1 & c1 & R1 & W1 & G1 & E1).
    { intros; apply H; apply in_or_app; auto. }
    rewrite R1. cbn [bind].
    destruct (IH t1 W1 N2) as (t2 & r2 & R2 & W2 & G2 & E2).
    { intros i Hi. destruct (H i) as (e & E & Ie); [apply in_or_app; auto|].
      exists e. split; auto. rewrite G1, E.
      destruct (existsb (Z.eqb i) c) eqn:X; auto. apply existsb_exists in X. destruct X as (y & Hy & Y).
      apply Z.eqb_eq in Y. subst y. destruct (N3 _ Hy Hi). }
    rewrite R2. exists t2, (c1 :: r2). sp; auto.
    + intro j. rewrite G2, G1. destruct (tab_get t j) as [e|]; auto.
      rewrite existsb_app. destruct (existsb (Z.eqb j) c) eqn:X; cbn.
      * destruct (keeps pass e) eqn:K; cbn; auto. rewrite K. rewrite andb_false_r. reflexivity.
      * reflexivity.
    + rewrite E1, E2. f_equal. apply map_ext_in. intros ch Hch. apply filter_ext_in. intros j Hj.
      rewrite G1. destruct (tab_get t j) as [e|]; auto.
      destruct (existsb (Z.eqb j) c) eqn:X; auto. apply existsb_exists in X. destruct X as (y & Hy & Y).
      apply Z.eqb_eq in Y. subst y. destruct (N3 _ Hy). apply in_concat. eauto.
Qed.

Lemma NoDup_concat (bks : list (list Z)) :
  (forall b c, znth bks b = Some c -> NoDup c) ->
  (forall b1 b2 c1 c2 i, znth bks b1 = Some c1 -> znth bks b2 = Some c2 -> In i c1 -> In i c2 -> b1 = b2) ->
  NoDup (concat bks).
Proof.
  induction bks as [|c r IH]; intros H1 H2; cbn; [constructor|].
  assert (NoDup (concat r)) as NR.
  { apply IH.
    - intros b ch Hb. pose proof (znth_some_range _ _ _ Hb). apply (H1 (b + 1) ch).
      rewrite znth_cons_S by lia. replace (b + 1 - 1) with b by lia. auto.
    - intros b1 b2 c1 c2 i A1 A2 I1 I2.
      pose proof (znth_some_range _ _ _ A1). pose proof (znth_some_range _ _ _ A2).
      assert (b1 + 1 = b2 + 1); [|lia].
      eapply (H2 (b1 + 1) (b2 + 1) c1 c2 i); auto; rewrite znth_cons_S by lia;
        [replace (b1 + 1 - 1) with b1 by lia|replace (b2 + 1 - 1) with b2 by lia]; auto. }
  assert (forall x, In x c -> ~ In x (concat r)) as DJ.
  { intros x Hx Hr. apply in_concat in Hr. destruct Hr as (c2 & Hc2 & Hx2).
    apply In_znth in Hc2. destruct Hc2 as [b2 Hb2]. pose proof (znth_some_range _ _ _ Hb2).
    assert (0 = b2 + 1); [|lia]. eapply (H2 0 (b2 + 1) c c2 x); auto.
    rewrite znth_cons_S by lia. replace (b2 + 1 - 1) with b2 by lia. auto. }
  pose proof (H1 0 c (znth_cons_0 _ _)) as NC. clear - NR DJ NC.
  induction c as [|x c IHc]; cbn; auto. inversion NC as [|? ? A B]; subst. constructor.
  - intro K. apply in_app_or in K. destruct K as [K|K]; auto. exact (DJ x (or_introl eq_refl) K).
  - apply IHc; auto. intros; apply DJ; right; auto.
Qed.

Lemma znth_map {A B} (f : A -> B) l i : znth (map f l) i = option_map f (znth l i).
Proof. rewrite ?znth_def. destruct (i <? 0); auto. apply nth_error_map. Qed.

Lemma clean_old_strings_ok s pass :
  str_wf (v_strs s) (v_byhash s) ->
  exists t bh, clean_old_strings pass s = Ok (tt, set_byhash bh (set_strs t s)) /\ str_wf t bh /\
    forall j, tab_get t j = match get_str_entry s j with
                            | Some e => if keeps pass e then Some e else None
                            | None => None end.
Proof.
  intro W. unfold clean_old_strings. unfold mbind at 1, gets at 1. cbv beta iota.
  assert (NoDup (concat (v_byhash s))) as ND.
  { apply NoDup_concat.
    - apply W.
    - intros b1 b2 c1 c2 i A1 A2 I1 I2.
      destruct (sw_chain _ _ W _ _ _ A1 I1) as (e & E & <-).
      destruct (sw_chain _ _ W _ _ _ A2 I2) as (f & F & <-). congruence. }
  assert (forall i, In i (concat (v_byhash s)) <-> exists e, tab_get (v_strs s) i = Some e) as MEM.
  { intro i. split.
    - intro Hi. apply in_concat in Hi. destruct Hi as (c & Hc & Hi). apply In_znth in Hc. destruct Hc as [b Hb].
      destruct (sw_chain _ _ W _ _ _ Hb Hi) as (e & E & _). eauto.
    - intros [e E]. destruct (sw_in _ _ W _ _ E) as (c & Hc & Hi). apply in_concat. exists c. split; auto.
      apply In_znth. eauto. }
  destruct (clean_buckets_ok pass (v_byhash s) (v_strs s) (sw_tab _ _ W) ND) as (t & bh & R & W' & G & Eb).
  { intros i Hi. apply MEM in Hi. destruct Hi as [e E]. exists e. split; auto. apply (sw_ent _ _ W _ _ E). }
  assert (forall j, tab_get t j = match get_str_entry s j with
                            | Some e => if keeps pass e then Some e else None
                            | None => None end) as GG.
  { intro j. rewrite G. unfold get_str_entry. destruct (tab_get (v_strs s) j) as [e|] eqn:E; auto.
    assert (existsb (Z.eqb j) (concat (v_byhash s)) = true) as X.
    { apply existsb_exists. exists j. split; [apply MEM; eauto|apply Z.eqb_refl]. }
    rewrite X. cbn. destruct (keeps pass e); reflexivity. }
  exists t, bh. split; [|split; auto].
  - unfold mbind at 1, lift at 1. rewrite R. reflexivity.
  - assert (forall j e, tab_get t j = Some e -> tab_get (v_strs s) j = Some e /\ keeps pass e = true) as SUB.
    { intros j e. rewrite GG. unfold get_str_entry. destruct (tab_get (v_strs s) j) as [f|]; [|discriminate].
      destruct (keeps pass f) eqn:K; [|discriminate]. intro E; inversion E; subst; auto. }
    split; auto.
    + rewrite Eb. unfold zlen. rewrite map_length. apply W.
    + intros i e E. apply SUB in E. apply (sw_ent _ _ W _ _ (proj1 E)).
    + intros i e E. apply SUB in E. destruct E as [E K]. destruct (sw_in _ _ W _ _ E) as (c & Hc & Hi).
      rewrite Eb, znth_map, Hc. cbn [option_map]. eexists; split; [reflexivity|].
      apply filter_In. split; auto. rewrite E. auto.
    + intros b c i Hc Hi. rewrite Eb, znth_map in Hc. destruct (znth (v_byhash s) b) as [c0|] eqn:B; [|discriminate].
      cbn in Hc. inversion Hc; subst c. apply filter_In in Hi. destruct Hi as [Hi K].
      destruct (sw_chain _ _ W _ _ _ B Hi) as (e & E & Bk). rewrite E in K. exists e. split; auto.
      rewrite GG. unfold get_str_entry. rewrite E, K. reflexivity.
    + intros b c Hc. rewrite Eb, znth_map in Hc. destruct (znth (v_byhash s) b) as [c0|] eqn:B; [|discriminate].
      cbn in Hc. inversion Hc; subst c. apply NoDup_filter. eapply sw_nodup; eauto.
    + intros i j e f E F Q. apply SUB in E. apply SUB in F. eapply (sw_uniq _ _ W); [apply E|apply F|auto].
Qed.

Lemma znth_In_repeat_nil {A} n b (c : list A) : znth (repeat [] n) b = Some c -> c = [].
Proof.
  intro H. assert (In c (repeat [] n)) as I by (apply In_znth; eauto). apply repeat_spec in I. auto.
Qed.

Lemma str_wf_init : str_wf tab_init (repeat [] (Z.to_nat STR_BUCKETS)).
Proof.
  split.
  - apply tab_init_wf.
  - rewrite zlen_repeat. reflexivity.
  - intros i e. rewrite tab_init_get. discriminate.
  - intros i e. rewrite tab_init_get. discriminate.
  - intros b c i H Hi. apply znth_In_repeat_nil in H. subst. destruct Hi.
  - intros b c H. apply znth_In_repeat_nil in H. subst. constructor.
  - intros i j e f. rewrite tab_init_get. discriminate.
Qed.
