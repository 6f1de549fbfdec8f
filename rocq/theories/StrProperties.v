(** * Property C08: string interning is canonical *)
From Verif Require Import Base BaseFacts State StrModel StrSpec StrProofs.

Lemma with_flags_ok s i gc keep :
  str_wf (v_strs s) (v_byhash s) ->
  str_wf (v_strs (with_flags s i gc keep)) (v_byhash (with_flags s i gc keep)) /\
  (forall j, get_str (with_flags s i gc keep) j = get_str s j).
Proof.
  intro W. unfold with_flags. destruct (tab_get (v_strs s) i) as [e|] eqn:E; [|auto].
  pose proof (tab_get_some (v_strs s) i e) as TS. apply TS in E as E'. clear TS.
  pose proof (znth_some_range _ _ _ E') as R.
  remember (mkS (s_idx e) gc keep (s_hash e) (s_str e)) as e2 eqn:He2.
  remember (mkT (zupd (t_slots (v_strs s)) i (Some e2)) (t_holes (v_strs s))) as t2 eqn:Ht2.
  vs.
  assert (forall j, tab_get t2 j = if j =? i then Some e2 else tab_get (v_strs s) j) as G.
  { intro j. rewrite !tab_get_znth, Ht2. cbn [t_slots]. rewrite znth_zupd.
    destruct (Z.eqb_spec j i) as [EQ|N]; [subst j|].
    - rewrite Z.eqb_refl. destruct (Z.leb_spec 0 i), (Z.ltb_spec i (zlen (t_slots (v_strs s)))); cbn; auto; lia.
    - destruct (Z.eqb_spec i j); [congruence|]. reflexivity. }
  assert (s_str e2 = s_str e /\ s_idx e2 = s_idx e /\ s_hash e2 = s_hash e) as (Q1 & Q2 & Q3) by (subst; auto).
  split.
  - split.
    + subst t2. split; cbn [t_slots t_holes]; try apply W.
      * intro j. rewrite (tw_holes _ (sw_tab _ _ W)). rewrite znth_zupd.
        destruct (Z.eqb_spec i j) as [<-|]; cbn; [|tauto]. rewrite E'.
        destruct (Z.leb_spec 0 i), (Z.ltb_spec i (zlen (t_slots (v_strs s)))); cbn; try lia. split; congruence.
      * unfold t_cap. cbn [t_slots]. rewrite zlen_zupd. apply W.
    + apply W.
    + intros j f. rewrite G. destruct (Z.eqb_spec j i) as [->|]; [|apply W].
      intro F; inversion F; subst f. rewrite Q1, Q2, Q3. apply (sw_ent _ _ W _ _ E).
    + intros j f. rewrite G. destruct (Z.eqb_spec j i) as [->|]; [|apply W].
      intro F; inversion F; subst f. rewrite Q1. apply (sw_in _ _ W _ _ E).
    + intros b c j Hc Hj. destruct (sw_chain _ _ W _ _ _ Hc Hj) as (f & F & B). rewrite G.
      destruct (Z.eqb_spec j i) as [->|]; [|eauto]. rewrite E in F. inversion F; subst f.
      exists e2. rewrite Q1. auto.
    + apply W.
    + intros j k f g. rewrite !G. intros F1 F2 Q. 
      assert (exists f', tab_get (v_strs s) j = Some f' /\ s_str f' = s_str f) as (f' & F1' & X1).
      { destruct (Z.eqb_spec j i) as [->|]; [|eauto]. exists e. inversion F1; subst f. auto. }
      assert (exists g', tab_get (v_strs s) k = Some g' /\ s_str g' = s_str g) as (g' & F2' & X2).
      { destruct (Z.eqb_spec k i) as [->|]; [|eauto]. exists e. inversion F2; subst g. auto. }
      apply (sw_uniq _ _ W _ _ _ _ F1' F2'). congruence.
  - intro j. unfold get_str, get_str_entry. vs. rewrite G. destruct (Z.eqb_spec j i) as [->|]; auto.
    rewrite E. congruence.
Qed.

Lemma str_history_inv s m : str_history s m ->
  str_wf (v_strs s) (v_byhash s) /\ live_ctx s (v_cur s) /\ forall i, get_str s i = m i.
Proof.
  induction 1 as [s H1 H2 H3 | s m txt i s' H (W & L & G) T E | s m i gc keep H (W & L & G)
                 | s m pass s' H (W & L & G) E].
  - rewrite H1, H2. sp; [apply str_wf_init|exact H3|].
    intro i. unfold get_str, get_str_entry. rewrite H1, tab_init_get. reflexivity.
  - destruct (find_or_add_ok s txt W L T) as (i2 & s2 & E2 & W2 & I).
    rewrite E in E2. inversion E2; subst i2 s2. split; [auto|].
    destruct I as [(e & Ee & Et & ->)|[(t & bh & -> & Fr & R & G2 & _)|(-> & (e & ->) & _)]].
    + split; [auto|]. intro j. destruct (Z.eqb_spec j i) as [->|]; cbn; [|apply G].
      unfold get_str. rewrite Ee, Et.
      pose proof (tab_get_range _ _ _ Ee) as R. pose proof (tw_cap _ (sw_tab _ _ W)) as C.
      apply pow2_bounds in C. destruct (Z.eqb_spec i INVALID); [|reflexivity].
      unfold INVALID, W31 in *. lia.
    + split; [exact L|]. intro j. unfold get_str, get_str_entry. vs. rewrite G2.
      destruct (Z.eqb_spec j i) as [->|]; cbn.
      * destruct (Z.eqb_spec i INVALID); [|reflexivity]. unfold INVALID, W31 in *. lia.
      * apply G.
    + split; [exact L|]. intro j. rewrite andb_false_r. apply G.
  - destruct (with_flags_ok s i gc keep W) as [W' G']. split; [auto|split].
    + unfold with_flags. destruct (tab_get (v_strs s) i); exact L.
    + intro j. rewrite G'. apply G.
  - destruct (clean_old_strings_ok s pass W) as (t & bh & E' & W' & G'). rewrite E in E'. inversion E'; subst s'.
    vs. split; [auto|split; [exact L|]]. intro j. unfold get_str, get_str_entry. vs. rewrite G'.
    unfold get_str_entry. specialize (G j). unfold get_str, get_str_entry in G.
    destruct (tab_get (v_strs s) j) as [e|]; auto. unfold keeps. rewrite (Z.eqb_sym pass).
    destruct ((s_gc e =? pass) || s_keep e); auto.
Qed.

(** C08: in every history the identifiers in use denote what the history says
    (so a text never changes), and equal texts have equal identifiers. *)
Theorem C08_canonical : forall s m,
  str_history s m ->
  (forall i, get_str s i = m i) /\
  (forall i j t, m i = Some t -> m j = Some t -> i = j).
Proof.
  intros s m H. destruct (str_history_inv s m H) as (W & L & G). split; auto.
  intros i j t. rewrite <- !G. unfold get_str, get_str_entry.
  destruct (tab_get (v_strs s) i) as [e|] eqn:E; [|discriminate].
  destruct (tab_get (v_strs s) j) as [f|] eqn:F; [|discriminate].
  intros A B. inversion A; inversion B. eapply (sw_uniq _ _ W); eauto. congruence.
Qed.
Print Assumptions C08_canonical.

(** C08: asking again for a text in use returns its identifier and changes
    nothing. *)
Theorem C08_same_text_same_id : forall s m i t,
  str_history s m -> all_bytes t -> m i = Some t -> find_or_add_string t s = Ok (i, s).
Proof.
  intros s m i t H T E. destruct (str_history_inv s m H) as (W & L & G).
  destruct (find_or_add_ok s t W L T) as (i2 & s2 & E2 & W2 & I). rewrite E2.
  rewrite <- G in E. unfold get_str in E. destruct (get_str_entry s i) as [e|] eqn:Ge; [|discriminate].
  inversion E as [Et].
  destruct I as [(f & Ff & Ft & ->)|[(t' & bh & _ & _ & _ & _ & N)|(-> & _ & N)]].
  - assert (i2 = i); [|congruence]. eapply (sw_uniq _ _ W); [exact Ff|exact Ge|congruence].
  - destruct (N _ _ Ge Et).
  - (* exhausted table: the chain search would still have found it *)
    exfalso. unfold find_or_add_string in E2. unfold mbind at 1, gets at 1 in E2. cbv beta iota in E2.
    fold (str_bucket t) in E2. destruct (sw_in _ _ W _ _ Ge) as (c & Hc & Hi). rewrite Et in Hc.
    unfold mbind at 1, lift at 1, rd in E2. rewrite Hc in E2.
    destruct (find_in_chain_ok (v_strs s) t T c) as [(k & f & F & Hk & Gk & Etk)|[F NF]].
    { intros k Hk. destruct (sw_chain _ _ W _ _ _ Hc Hk) as (f & F & _). exists f.
      destruct (sw_ent _ _ W _ _ F) as (? & ? & ?). auto. }
    + unfold mbind at 1, lift at 1 in E2. rewrite F in E2. cbv beta iota in E2. inversion E2; subst k s2.
      pose proof (tab_get_range _ _ _ Gk) as R. pose proof (pow2_bounds _ (tw_cap _ (sw_tab _ _ W))).
      unfold INVALID, W31 in *. lia.
    + exact (NF _ _ Hi Ge Et).
Qed.
Print Assumptions C08_same_text_same_id.

(** C08: a new text gets an identifier not in use, which then denotes it;
    creation fails only when 2^31 strings are alive. *)
Theorem C08_new_text : forall s m t,
  str_history s m -> all_bytes t -> (forall i, m i <> Some t) ->
  exists i s', find_or_add_string t s = Ok (i, s') /\
    ((m i = None /\ i <> INVALID /\ get_str s' i = Some t) \/
     (i = INVALID /\ v_errs s' <> [] /\ forall j, 0 <= j < W31 -> exists u, m j = Some u)).
Proof.
  intros s m t H T N. destruct (str_history_inv s m H) as (W & L & G).
  destruct (find_or_add_ok s t W L T) as (i & s' & E & W' & I). exists i, s'. split; auto.
  destruct I as [(e & Ee & Et & ->)|[(t' & bh & -> & Fr & R & G2 & _)|(-> & (e & ->) & X)]].
  - exfalso. apply (N i). rewrite <- G. unfold get_str. rewrite Ee, Et. reflexivity.
  - left. rewrite <- G. unfold get_str. rewrite Fr. sp; auto.
    + unfold INVALID, W31 in *. lia.
    + unfold get_str_entry. vs. rewrite G2, Z.eqb_refl. reflexivity.
  - right. sp; auto.
    + vs. destruct (v_errs s); discriminate.
    + intros j Hj. destruct (X j Hj) as [e' Ee']. exists (s_str e'). rewrite <- G. unfold get_str. rewrite Ee'. auto.
Qed.
Print Assumptions C08_new_text.

(** C08: collections are always defined, drop exactly the unmarked strings
    without the keep flag, and never alter a surviving text. *)
Theorem C08_collect : forall s m pass,
  str_history s m ->
  exists s', clean_old_strings pass s = Ok (tt, s') /\
    forall i, get_str s' i = match tab_get (v_strs s) i with
                             | Some e => if (s_gc e =? pass) || s_keep e then m i else None
                             | None => None end.
Proof.
  intros s m pass H. destruct (str_history_inv s m H) as (W & L & G).
  destruct (clean_old_strings_ok s pass W) as (t & bh & E' & W' & G').
  eexists. split; [exact E'|].
  exact (proj2 (proj2 (str_history_inv _ _ (sh_collect _ _ _ _ H E')))).
Qed.
Print Assumptions C08_collect.

(** Non-vacuity: two different texts whose hashes fall into the same bucket,
    a repeated request, a collection that drops one of them. *)
Definition ex_s0 : vm :=
  mkVm [] [Some (mkC (mkK [] 0 0 0) 0 None vnil 2)] 0 [] 0 [] 0
    tab_init (repeat [] 256) tab_init [] [] 0 0 0 0 0 [] [] 0 0 [] 0 [] [] [] 0 [].
Definition ex_run {A} (m : M A) (s : vm) : vm := match m s with Ok (_, s') => s' | Ub _ => s end.
Definition ex_res {A} (d : A) (m : M A) (s : vm) : A := match m s with Ok (a, _) => a | Ub _ => d end.
Definition ex_a : bytes := [97; 98].       (* "ab" *)
Definition ex_b : bytes := [195].          (* -61 as signed char: a different bucket *)
Definition ex_c : bytes := [99; 96].       (* same byte sum as "ab": same low hash byte *)
Definition ex_s1 := ex_run (find_or_add_string ex_a) ex_s0.
Definition ex_s2 := ex_run (find_or_add_string ex_c) ex_s1.
Definition ex_s3 := with_flags ex_s2 0 7 false.
Definition ex_s4 := ex_run (clean_old_strings 7) ex_s3.

Example ex_same_bucket :
  str_hash ex_a <> str_hash ex_c /\ Z.land (str_hash ex_a) 255 = Z.land (str_hash ex_c) 255.
Proof. split; vm_compute; [discriminate|reflexivity]. Qed.

Example ex_str_history : exists m, str_history ex_s4 m /\ m 0 = Some ex_a /\ m 1 = None.
Proof.
  eexists. split.
  - eapply (sh_collect ex_s3 _ 7); [|vm_compute; reflexivity].
    apply sh_flags.
    eapply (sh_create ex_s1 _ ex_c 1); [|repeat constructor; lia|vm_compute; reflexivity].
    eapply (sh_create ex_s0 _ ex_a 0); [|repeat constructor; lia|vm_compute; reflexivity].
    apply sh_init; [reflexivity|reflexivity|eexists; reflexivity].
  - split; vm_compute; reflexivity.
Qed.
Example ex_str_again : ex_res 9 (find_or_add_string ex_c) ex_s2 = 1 /\ ex_res 9 (find_or_add_string ex_a) ex_s4 = 0.
Proof. split; vm_compute; reflexivity. Qed.
