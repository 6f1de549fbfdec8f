(** * Proofs about the allocator *)
From Verif Require Import Base BaseFacts MemModel MemSpec.
From Coq Require Import Permutation.
Ltac Zify.zify_post_hook ::= Z.div_mod_to_equations.

Fixpoint chain (h : addr -> option header) (p : ploc) (cur : option addr) (L : ledger) : Prop :=
  match L with
  | [] => cur = None
  | (a, s) :: r =>
      cur = Some a /\
      exists hd, h a = Some hd /\ h_size hd = s /\ h_prev hd = p /\
                 zlen (h_data hd) = s /\ chain h (PNext a) (h_next hd) r
  end.

Record inv (hdr : Z) (m : mem) (L : ledger) : Prop := {
  inv_chain : chain (m_heap m) PHead (m_head m) L;
  inv_nodup : NoDup (map fst L);
  inv_heap : forall a hd, m_heap m a = Some hd -> In a (map fst L);
  inv_pos : forall a s, In (a, s) L -> 0 < s < W32;
  inv_usage : m_usage m = total hdr L;
  inv_u32 : is_u32 (m_usage m);
  inv_max : is_u32 (m_max m);
  inv_peak : m_usage m <= m_peak m
}.

Lemma live_fst L a : live L a <-> In a (map fst L).
Proof.
  unfold live. split.
  - intros [s H]. change a with (fst (a, s)). apply in_map. exact H.
  - intros H. apply in_map_iff in H as [[b s] [E H]]. cbn in E. subst. eauto.
Qed.

Lemma chain_ext h h' p cur L :
  (forall a, In a (map fst L) -> h' a = h a) -> chain h p cur L -> chain h' p cur L.
Proof.
  revert p cur. induction L as [|[a s] L IH]; intros p cur E; cbn [chain]; auto.
  intros [-> (hd & H1 & H2 & H3 & H4 & H5)]. split; [reflexivity|].
  exists hd. rewrite E by (left; reflexivity). repeat split; auto.
  apply IH; auto. intros b Hb. apply E. right. exact Hb.
Qed.

Lemma chain_lookup h p cur L a s :
  chain h p cur L -> In (a, s) L ->
  exists hd, h a = Some hd /\ h_size hd = s /\ zlen (h_data hd) = s.
Proof.
  revert p cur. induction L as [|[b t] L IH]; intros p cur; cbn [chain In]; [tauto|].
  intros [-> (hd & H1 & H2 & H3 & H4 & H5)] [E|Hin].
  - injection E as -> ->. eauto 6.
  - eauto.
Qed.

Lemma total_nonneg hdr L : 0 <= hdr -> (forall a s, In (a, s) L -> 0 < s < W32) -> 0 <= total hdr L.
Proof.
  intros Hh. induction L as [|[a s] L IH]; cbn [total]; intros H; [lia|].
  assert (0 < s < W32) by (apply (H a); left; reflexivity).
  assert (0 <= total hdr L) by (apply IH; intros; eapply H; right; eauto). lia.
Qed.

Lemma inv_init hdr max : is_u32 max -> inv hdr (mem_init max) [].
Proof.
  intros H. constructor; cbn; auto; try (unfold is_u32, W32; lia); try tauto.
  - constructor.
  - discriminate.
Qed.

Lemma malloc_spec hdr m L size o :
  0 < hdr < W32 -> inv hdr m L -> is_u32 size -> host_ok L size o ->
  (malloc hdr m size o = Ok (set_fail m true, Jump) /\
     (W32 <= size + hdr \/ (size <> 0 /\ (m_max m < m_usage m + (size + hdr) \/ o = None)))) \/
  (size = 0 /\ malloc hdr m size o = Ok (m, Ret None)) \/
  (size <> 0 /\ m_usage m + (size + hdr) <= m_max m /\
   exists a junk m', o = Some (a, junk) /\ malloc hdr m size o = Ok (m', Ret (Some a)) /\
     inv hdr m' ((a, size) :: L) /\ m_max m' = m_max m /\ m_fail m' = m_fail m /\
     m_freed m' = m_freed m /\ m_peak m <= m_peak m' /\
     (exists hd, m_heap m' a = Some hd /\ h_data hd = junk) /\
     (forall b, b <> a -> contents m' b = contents m b)).
Proof.
  intros Hh HI Hs Ho. destruct HI as [IC IN IH IP IU I32 IM IK].
  unfold malloc. unfold is_u32, W32, INVALID in *.
  destruct (Z.ltb_spec (4294967295 - hdr) size).
  { left. split; [reflexivity|]. left. lia. }
  destruct (Z.eqb_spec size 0) as [->|Hne].
  { right. left. auto. }
  cbv zeta.
  rewrite (u32_id (size + hdr)) by (unfold is_u32, W32; lia).
  destruct ((size + hdr <? size) || (m_max m <? m_usage m) || (m_max m - m_usage m <? size + hdr)) eqn:E.
  { left. split; [reflexivity|]. right. split; [exact Hne|]. left. lia. }
  destruct o as [[a junk]|].
  2:{ left. split; [reflexivity|]. right. auto. }
  right. right. split; [exact Hne|]. split; [lia|].
  destruct Ho as [Hfresh Hjunk].
  rewrite live_fst in Hfresh.
  rewrite (u32_id (m_usage m + (size + hdr))) by (unfold is_u32, W32; lia).
  set (m1 := set_usage m (m_usage m + (size + hdr))).
  set (m2 := if m_peak m1 <? m_usage m + (size + hdr) then set_peak m1 (m_usage m + (size + hdr)) else m1).
  assert (E2 : m_heap m2 = m_heap m /\ m_head m2 = m_head m /\ m_usage m2 = m_usage m + (size + hdr)
            /\ m_max m2 = m_max m /\ m_fail m2 = m_fail m /\ m_freed m2 = m_freed m /\
            m_usage m2 <= m_peak m2 /\ m_peak m <= m_peak m2).
  { unfold m2. destruct (Z.ltb_spec (m_peak m1) (m_usage m + (size + hdr))); subst m1;
      cbn [set_usage set_peak m_heap m_head m_usage m_max m_fail m_freed m_peak] in *; repeat split; lia. }
  destruct E2 as (Eh & Ehd & Eu & Emx & Ef & Efr & Epk & Epk2).
  clearbody m2. clear m1.
  exists a, junk.
  set (nh := mkHeader size (m_head m2) PHead junk).
  destruct L as [|[b t] L].
  - cbn in IC. assert (Hd : m_head m2 = None) by congruence.
    cbn [set_heap m_head bind]. rewrite Hd. cbn [bind].
    eexists. split; [reflexivity|]. split; [reflexivity|].
    cbn [set_head set_heap m_heap m_max m_fail m_freed m_peak contents].
    split; [|repeat split; auto].
    + constructor; cbn [set_head set_heap m_heap m_max m_fail m_freed m_peak m_head m_usage].
      * cbn [chain]. split; [reflexivity|]. exists nh. unfold hset. rewrite Z.eqb_refl.
        repeat split; auto.
      * repeat constructor. intros [].
      * intros b hd. unfold hset. destruct (Z.eqb_spec b a); [subst; left; reflexivity|].
        rewrite Eh. intros Hb. exfalso. exact (IH _ _ Hb).
      * intros b s [Eq|[]]. injection Eq as <- <-. unfold W32. lia.
      * rewrite Eu, IU. cbn [total]. lia.
      * unfold is_u32, W32. lia.
      * rewrite Emx. exact IM.
      * exact Epk.
    + exists nh. unfold hset. rewrite Z.eqb_refl. auto.
    + intros b Hb. unfold contents. cbn. unfold hset. destruct (Z.eqb_spec b a); [congruence|]. rewrite Eh. reflexivity.
  - destruct IC as [Hhead (hb & HB1 & HB2 & HB3 & HB4 & HB5)].
    assert (Hd : m_head m2 = Some b) by congruence.
    cbn [set_heap m_head bind]. rewrite Hd.
    unfold store_prev. cbn [set_heap m_heap].
    assert (Hab : b <> a). { intros ->. apply Hfresh. left. reflexivity. }
    unfold hset at 1. destruct (Z.eqb_spec b a); [congruence|]. rewrite Eh, HB1. cbn [bind].
    eexists. split; [reflexivity|]. split; [reflexivity|].
    cbn [set_head set_heap m_heap m_max m_fail m_freed m_peak contents].
    split; [|repeat split; auto].
    + constructor; cbn [set_head set_heap m_heap m_max m_fail m_freed m_peak m_head m_usage].
      * cbn [chain]. split; [reflexivity|]. exists nh. unfold hset.
        destruct (Z.eqb_spec a b); [congruence|]. rewrite Z.eqb_refl.
        repeat split; auto.
        exists (with_prev hb (PNext a)). rewrite Z.eqb_refl. repeat split; auto.
        cbn [with_prev h_next].
        eapply chain_ext; [|exact HB5].
        intros c Hc. cbn in IN. inversion IN as [|? ? Hnin Hnd]; subst.
        destruct (Z.eqb_spec c b); [subst; contradiction|].
        destruct (Z.eqb_spec c a); [subst; exfalso; apply Hfresh; right; exact Hc|]. reflexivity.
      * cbn [map fst] in *. constructor; auto.
      * intros c hd. unfold hset. destruct (Z.eqb_spec c b); [subst; intros _; right; left; reflexivity|].
        destruct (Z.eqb_spec c a); [subst; left; reflexivity|].
        intros Hc. right. eapply IH; eauto.
      * intros c s [Eq|Hin]; [injection Eq as <- <-; unfold W32; lia|eapply IP; eauto].
      * rewrite Eu, IU. cbn [total]. lia.
      * unfold is_u32, W32. lia.
      * rewrite Emx. exact IM.
      * exact Epk.
    + exists nh. unfold hset. destruct (Z.eqb_spec a b); [congruence|]. rewrite Z.eqb_refl. auto.
    + intros c Hc. unfold contents. cbn. unfold hset.
      destruct (Z.eqb_spec c b).
      * subst. rewrite HB1. reflexivity.
      * destruct (Z.eqb_spec c a); [congruence|]. reflexivity.
Qed.

Lemma lremove_split L a :
  In a (map fst L) -> NoDup (map fst L) ->
  exists L1 s L2, L = L1 ++ (a, s) :: L2 /\ lremove L a = L1 ++ L2.
Proof.
  induction L as [|[b t] L IH]; cbn [map fst In lremove]; [tauto|].
  intros Hin Hnd. inversion Hnd as [|? ? Hn1 Hn2]; subst.
  destruct (Z.eqb_spec b a) as [->|Hne].
  - exists [], t, L. auto.
  - destruct Hin as [?|Hin]; [contradiction|].
    destruct (IH Hin Hn2) as (L1 & s & L2 & E1 & E2).
    exists ((b, t) :: L1), s, L2. subst. cbn. rewrite E2. auto.
Qed.

Lemma total_app hdr L1 L2 : total hdr (L1 ++ L2) = total hdr L1 + total hdr L2.
Proof. induction L1 as [|[a s] L1 IH]; cbn [total app]; lia. Qed.

Lemma chain_remove h h' a s ha L2 : forall L1 p cur,
  NoDup (map fst (L1 ++ (a, s) :: L2)) ->
  chain h p cur (L1 ++ (a, s) :: L2) ->
  h a = Some ha ->
  (match L1 with [] => h_prev ha = p | _ => True end) ->
  (forall b, b <> a ->
     match h b with
     | None => True
     | Some hb =>
         exists hb', h' b = Some hb' /\ h_size hb' = h_size hb /\ h_data hb' = h_data hb /\
           h_next hb' = (match h_prev ha with PNext c => if c =? b then h_next ha else h_next hb | PHead => h_next hb end) /\
           h_prev hb' = (match h_next ha with Some c => if c =? b then h_prev ha else h_prev hb | None => h_prev hb end)
     end) ->
  (forall c, p = PNext c -> ~ In c (map fst (L1 ++ (a, s) :: L2))) ->
  exists cur', chain h' p cur' (L1 ++ L2) /\
    (match L1 with [] => cur' = h_next ha | _ => cur' = cur end) /\
    (match L1 with [] => h_prev ha = p | _ => exists c, h_prev ha = PNext c /\ In c (map fst L1) end).
Proof.
  induction L1 as [|[b t] L1 IH]; intros p cur Hnd Hc Ha Hp Hh' Hfr; cbn [app] in *.
  - destruct Hc as [-> (hd & H1 & H2 & H3 & H4 & H5)]. rewrite Ha in H1. injection H1 as <-.
    exists (h_next ha). split; [|auto].
    cbn [map fst] in Hnd. inversion Hnd as [|? ? Hn1 Hn2]; subst.
    destruct L2 as [|[c u] L2]; cbn [chain] in *; [exact H5|].
    destruct H5 as [Hnx (hc & C1 & C2 & C3 & C4 & C5)].
    split; [exact Hnx|].
    assert (Hca : c <> a). { intros ->. apply Hn1. left. reflexivity. }
    pose proof (Hh' c Hca) as Q. rewrite C1 in Q.
    destruct Q as (hc' & Q1 & Q2 & Q3 & Q4 & Q5).
    exists hc'. rewrite Hnx, Z.eqb_refl in Q5.
    split; [exact Q1|]. split; [congruence|]. split; [congruence|].
    split; [unfold zlen in *; rewrite Q3; congruence|].
    replace (h_next hc') with (h_next hc).
    2:{ rewrite Q4. destruct (h_prev ha) as [|d]; [reflexivity|].
        destruct (Z.eqb_spec d c); [|reflexivity]. subst d.
        exfalso. eapply Hfr; [reflexivity|]. right. left. reflexivity. }
    (* rest of the chain *)
    clear Q1 Q2 Q3 Q4 Q5.
    assert (Hrest : forall L p cur, chain h p cur L ->
       (forall x, In x (map fst L) -> x <> a /\ h_next ha <> Some x /\ h_prev ha <> PNext x) ->
       chain h' p cur L).
    { clear - Hh'. induction L as [|[x v] L IHL]; intros p cur; cbn [chain]; auto.
      intros [-> (hx & X1 & X2 & X3 & X4 & X5)] Hn. split; [reflexivity|].
      destruct (Hn x (or_introl eq_refl)) as (N1 & N2 & N3).
      pose proof (Hh' x N1) as Q. rewrite X1 in Q.
      destruct Q as (hx' & Q1 & Q2 & Q3 & Q4 & Q5).
      exists hx'. split; [exact Q1|]. split; [congruence|]. split.
      - rewrite Q5. destruct (h_next ha) as [y|]; [|exact X3].
        destruct (Z.eqb_spec y x); [congruence|exact X3].
      - split; [unfold zlen in *; rewrite Q3; congruence|].
        replace (h_next hx') with (h_next hx).
        + apply IHL; auto. intros y Hy. apply Hn. right. exact Hy.
        + rewrite Q4. destruct (h_prev ha) as [|d]; [reflexivity|].
          destruct (Z.eqb_spec d x); [congruence|reflexivity]. }
    apply Hrest; [exact C5|].
    intros x Hx. cbn [map fst] in Hn2. inversion Hn2 as [|? ? Hn3 Hn4]; subst.
    split; [|split].
    + intros ->. apply Hn1. right. exact Hx.
    + rewrite Hnx. intros [= ->]. contradiction.
    + intros Hpx. eapply (Hfr x); [exact Hpx|]. right. right. exact Hx.
  - destruct Hc as [-> (hb & B1 & B2 & B3 & B4 & B5)].
    cbn [map fst] in Hnd. inversion Hnd as [|? ? Hn1 Hn2]; subst.
    assert (Hba : b <> a).
    { intros ->. apply Hn1. rewrite map_app. apply in_or_app. right. left. reflexivity. }
    assert (Hpb : match L1 with [] => h_prev ha = PNext b | _ => True end).
    { destruct L1; [|exact I]. cbn in B5. destruct B5 as [_ (hd & D1 & _ & D3 & _)].
      congruence. }
    destruct (IH (PNext b) (h_next hb) Hn2 B5 Ha Hpb Hh') as (cur' & K1 & K2 & K3).
    { intros c [= <-]. exact Hn1. }
    exists (Some b). split; [|split; [reflexivity|]].
    + split; [reflexivity|].
      pose proof (Hh' b Hba) as Q. rewrite B1 in Q.
      destruct Q as (hb' & Q1 & Q2 & Q3 & Q4 & Q5).
      exists hb'. split; [exact Q1|]. split; [congruence|]. split.
      * rewrite Q5. destruct (h_next ha) as [y|] eqn:Ey; [|reflexivity].
        destruct (Z.eqb_spec y b); [|reflexivity]. subst y. exfalso.
        (* next of a would be b, but the next of a lies in L2 *)
        apply Hn1. rewrite map_app. apply in_or_app. right. right.
        assert (G : forall L p cur, chain h p cur (L ++ (a, s) :: L2) -> In b (map fst L2)).
        { clear - Ha Ey. induction L as [|[x v] L IHL]; intros p cur; cbn [app chain].
          - intros [_ (hd & D1 & _ & _ & _ & D5)]. rewrite Ha in D1. injection D1 as <-.
            destruct L2 as [|[y w] L2]; cbn in D5; [congruence|].
            destruct D5 as [D5 _]. left. cbn. congruence.
          - intros [_ (hd & _ & _ & _ & _ & D5)]. eauto. }
        eapply G. exact B5.
      * split; [unfold zlen in *; rewrite Q3; congruence|].
        replace (h_next hb') with cur'; [exact K1|].
        rewrite Q4. destruct L1 as [|[c u] L1].
        -- rewrite K3. rewrite Z.eqb_refl. exact K2.
        -- rewrite K2. destruct K3 as (d & D1 & D2). rewrite D1.
           destruct (Z.eqb_spec d b); [|reflexivity]. subst d. exfalso. apply Hn1.
           rewrite map_app. apply in_or_app. left. exact D2.
    + destruct L1 as [|[c u] L1].
      * exists b. split; [exact K3|left; reflexivity].
      * destruct K3 as (d & D1 & D2). exists d. split; [exact D1|right; exact D2].
Qed.

Lemma chain_neighbours h p cur L a ha :
  NoDup (map fst L) -> chain h p cur L -> (forall c, p = PNext c -> ~ In c (map fst L)) ->
  In a (map fst L) -> h a = Some ha ->
  (forall b, h_next ha = Some b -> b <> a /\ In b (map fst L)) /\
  (forall b, h_prev ha = PNext b -> b <> a /\ (In b (map fst L) \/ p = PNext b)).
Proof.
  revert p cur. induction L as [|[x v] L IH]; intros p cur Hnd Hc Hfr Hin Ha; cbn [map fst In] in *; [tauto|].
  destruct Hc as [-> (hx & X1 & X2 & X3 & X4 & X5)].
  inversion Hnd as [|? ? Hn1 Hn2]; subst.
  destruct (Z.eq_dec x a) as [->|Hne].
  - rewrite Ha in X1. injection X1 as <-. split.
    + intros b Hb. destruct L as [|[c u] L]; cbn in X5; [congruence|].
      destruct X5 as [X5 _]. cbn [map fst In] in *. split.
      * intros ->. apply Hn1. left. congruence.
      * right. left. congruence.
    + intros b Hb. split; [|auto]. intros ->. eapply Hfr; [exact Hb|]. left. reflexivity.
  - destruct Hin as [?|Hin]; [contradiction|].
    destruct (IH (PNext x) (h_next hx) Hn2 X5) as [I1 I2]; auto.
    { intros c [= <-]. exact Hn1. }
    split.
    + intros b Hb. destruct (I1 b Hb). auto.
    + intros b Hb. destruct (I2 b Hb) as [? [?|E]]; [auto|]. injection E as <-. auto.
Qed.

Lemma free_spec hdr m L a :
  0 < hdr < W32 -> inv hdr m L -> live L a ->
  exists m', free hdr m (Some a) = Ok m' /\ inv hdr m' (lremove L a) /\
    m_max m' = m_max m /\ m_fail m' = m_fail m /\ m_peak m' = m_peak m /\
    m_freed m' = a :: m_freed m /\
    m_heap m' a = None /\ (forall b, b <> a -> contents m' b = contents m b).
Proof.
  intros Hh HI Hl. pose proof HI as HI0. destruct HI as [IC IN IH IP IU I32 IM IK].
  pose proof Hl as Hl'. apply live_fst in Hl. destruct Hl' as [s Hs].
  destruct (chain_lookup _ _ _ _ _ _ IC Hs) as (ha & Ha & Hsz & Hdl).
  destruct (chain_neighbours _ _ _ _ _ _ IN IC ltac:(discriminate) Hl Ha) as [N1 N2].
  unfold free. rewrite Ha.
  set (m0 := set_usage m _).
  set (h1 := match h_next ha with
             | None => m_heap m
             | Some b => match m_heap m b with
                         | Some hb => hset (m_heap m) b (Some (with_prev hb (h_prev ha)))
                         | None => m_heap m end
             end).
  assert (E1 : (match h_next ha with None => Ok m0 | Some b => store_prev m0 b (h_prev ha) end)
               = Ok (set_heap m0 h1)).
  { unfold h1. destruct (h_next ha) as [b|] eqn:En.
    - destruct (N1 b eq_refl) as [_ Hb]. apply live_fst in Hb as [t Ht].
      destruct (chain_lookup _ _ _ _ _ _ IC Ht) as (hb & Hb & _).
      unfold store_prev. subst m0. cbn [set_usage m_heap]. rewrite Hb. reflexivity.
    - subst m0. destruct m; reflexivity. }
  rewrite E1. cbn [bind]. clear E1.
  assert (Hh1a : h1 a = Some ha).
  { unfold h1. destruct (h_next ha) as [b|] eqn:En; [|exact Ha].
    destruct (N1 b eq_refl) as [Hba _].
    destruct (m_heap m b); [|exact Ha]. unfold hset. destruct (Z.eqb_spec a b); [congruence|exact Ha]. }
  assert (Hh1 : forall b, b <> a -> match m_heap m b with
     | None => h1 b = None
     | Some hb => h1 b = Some (match h_next ha with Some c => if c =? b then with_prev hb (h_prev ha) else hb | None => hb end)
     end).
  { intros b Hb. unfold h1. destruct (h_next ha) as [c|] eqn:En.
    - destruct (m_heap m c) as [hc|] eqn:Ec.
      + unfold hset. rewrite (Z.eqb_sym c b). destruct (Z.eqb_spec b c).
        * subst. rewrite Ec. reflexivity.
        * destruct (m_heap m b); reflexivity.
      + destruct (m_heap m b) eqn:Eb; [|reflexivity].
        destruct (Z.eqb_spec c b); [congruence|reflexivity].
    - destruct (m_heap m b); reflexivity. }
  set (h2 := match h_prev ha with
             | PHead => h1
             | PNext c => match h1 c with
                          | Some hc => hset h1 c (Some (with_next hc (h_next ha)))
                          | None => h1 end
             end).
  set (hd2 := match h_prev ha with PHead => h_next ha | PNext _ => m_head m end).
  assert (Hprev_in : forall c, h_prev ha = PNext c -> c <> a /\ exists hc, m_heap m c = Some hc).
  { intros c Hc. destruct (N2 c Hc) as [? [Hin|?]]; [|discriminate]. split; [assumption|].
    apply live_fst in Hin as [t Ht].
    destruct (chain_lookup _ _ _ _ _ _ IC Ht) as (hc & Hc' & _). eauto. }
  assert (E2 : store_ploc (set_heap m0 h1) (h_prev ha) (h_next ha) = Ok (set_head (set_heap m0 h2) hd2)).
  { unfold store_ploc, h2, hd2. destruct (h_prev ha) as [|c] eqn:Ep.
    - reflexivity.
    - destruct (Hprev_in c eq_refl) as (Hca & hc & Hc).
      pose proof (Hh1 c Hca) as Q. rewrite Hc in Q. cbn [set_heap m_heap]. rewrite Q.
      subst m0. destruct m; reflexivity. }
  rewrite E2. cbn [bind]. eexists. split; [reflexivity|]. clear E2.
  cbn [set_freed set_heap set_head m_heap m_head m_usage m_peak m_max m_fail m_freed].
  assert (Hh2 : forall b, b <> a -> match m_heap m b with
     | None => h2 b = None
     | Some hb => exists hb', h2 b = Some hb' /\ h_size hb' = h_size hb /\ h_data hb' = h_data hb /\
           h_next hb' = (match h_prev ha with PNext c => if c =? b then h_next ha else h_next hb | PHead => h_next hb end) /\
           h_prev hb' = (match h_next ha with Some c => if c =? b then h_prev ha else h_prev hb | None => h_prev hb end)
     end).
  { intros b Hb. specialize (Hh1 b Hb). unfold h2.
    destruct (m_heap m b) as [hb|] eqn:Eb.
    - set (hb1 := match h_next ha with Some c => if c =? b then with_prev hb (h_prev ha) else hb | None => hb end) in *.
      assert (P : h_size hb1 = h_size hb /\ h_data hb1 = h_data hb /\ h_next hb1 = h_next hb /\
                  h_prev hb1 = match h_next ha with Some c => if c =? b then h_prev ha else h_prev hb | None => h_prev hb end).
      { unfold hb1. destruct (h_next ha) as [c|]; [destruct (c =? b)|]; auto. }
      destruct P as (P1 & P2 & P3 & P4).
      destruct (h_prev ha) as [|c] eqn:Ep.
      + exists hb1. auto.
      + destruct (Hprev_in c eq_refl) as (Hca & hc & Hc).
        destruct (h1 c) as [hc1|] eqn:Ec1.
        * unfold hset. rewrite (Z.eqb_sym c b). destruct (Z.eqb_spec b c).
          -- subst c. assert (hc1 = hb1) by congruence. subst hc1.
             eexists. split; [reflexivity|]. cbn. auto.
          -- exists hb1. auto.
        * exists hb1. split; [exact Hh1|]. repeat split; auto.
          destruct (Z.eqb_spec c b); [|auto]. subst. congruence.
    - destruct (h_prev ha) as [|c]; [exact Hh1|].
      destruct (h1 c) as [hc1|] eqn:Ec1; [|exact Hh1].
      unfold hset. destruct (Z.eqb_spec b c); [|exact Hh1]. subst. congruence. }
  destruct (lremove_split L a Hl IN) as (L1 & s' & L2 & EL & ER).
  assert (s' = s).
  { assert (In (a, s') L) by (rewrite EL; apply in_or_app; right; left; reflexivity).
    destruct (chain_lookup _ _ _ _ _ _ IC H) as (hx & HX & HX2 & _). congruence. }
  subst s'. rewrite ER in *.
  assert (Hperm : NoDup (map fst (L1 ++ L2)) /\ ~ In a (map fst (L1 ++ L2))).
  { rewrite EL in IN. rewrite !map_app in *. cbn [map fst] in IN.
    split; [eapply NoDup_remove_1; exact IN | eapply NoDup_remove_2; exact IN]. }
  destruct Hperm as [Hnd' Hnin].
  set (h3 := hset h2 a None).
  assert (Hh3 : forall b, b <> a -> h3 b = h2 b).
  { intros b Hb. unfold h3, hset. destruct (Z.eqb_spec b a); [congruence|reflexivity]. }
  assert (HC : chain h3 PHead hd2 (L1 ++ L2)).
  { pose proof IC as IC'. rewrite EL in IC', IN.
    assert (Hp1 : match L1 with [] => h_prev ha = PHead | _ => True end).
    { destruct L1; [|exact I]. cbn in IC'. destruct IC' as [_ (hd & D1 & _ & D3 & _)]. congruence. }
    destruct (chain_remove (m_heap m) h3 a s ha L2 L1 PHead (m_head m) IN IC' Ha Hp1) as (cur' & K1 & K2 & K3).
    { intros b Hb. specialize (Hh2 b Hb). rewrite (Hh3 b Hb). destruct (m_heap m b); auto. }
    { discriminate. }
    replace hd2 with cur'; [exact K1|]. unfold hd2. destruct L1.
    - rewrite K3. exact K2.
    - destruct K3 as (c & K3 & _). rewrite K3. exact K2. }
  assert (Hus : m_usage m = total hdr (L1 ++ L2) + (s + hdr)).
  { rewrite IU, EL, !total_app. cbn [total]. lia. }
  assert (Hpos : forall x t, In (x, t) (L1 ++ L2) -> 0 < t < W32).
  { intros x t Hx. apply (IP x). rewrite EL. apply in_or_app. apply in_app_or in Hx as [?|?]; [left|right; right]; assumption. }
  assert (Htn : 0 <= total hdr (L1 ++ L2)) by (apply total_nonneg; [lia|exact Hpos]).
  assert (Hspos : 0 < s < W32) by (eapply IP; eauto).
  assert (Hu' : u32 (m_usage m - (h_size ha + hdr)) = total hdr (L1 ++ L2)).
  { rewrite Hsz, Hus. unfold is_u32, u32, W32 in *. rewrite Z.mod_small; lia. }
  split; [|repeat split; auto].
  - constructor; cbn [set_freed set_heap set_head m_heap m_head m_usage m_peak m_max m_fail m_freed]; fold h3.
    + exact HC.
    + exact Hnd'.
    + intros b hd. destruct (Z.eq_dec b a) as [->|Hb].
      * unfold h3, hset. rewrite Z.eqb_refl. discriminate.
      * rewrite (Hh3 b Hb). intros Hb2. specialize (Hh2 b Hb).
        destruct (m_heap m b) as [hb|] eqn:Eb; [|congruence].
        apply IH in Eb. rewrite EL in Eb. rewrite map_app in *. apply in_app_or in Eb.
        apply in_or_app. cbn [map fst In] in Eb. destruct Eb as [?|[?|?]]; [auto|congruence|auto].
    + exact Hpos.
    + unfold m0. cbn. exact Hu'.
    + unfold m0. cbn. rewrite Hu'. unfold is_u32 in *. lia.
    + exact IM.
    + unfold m0. cbn. rewrite Hu'. lia.
  - fold h3. unfold h3, hset. rewrite Z.eqb_refl. reflexivity.
  - intros b Hb. unfold contents. cbn. fold h3. rewrite (Hh3 b Hb).
    specialize (Hh2 b Hb). destruct (m_heap m b) as [hb|].
    + destruct Hh2 as (hb' & Q1 & _ & Q3 & _). rewrite Q1, Q3. reflexivity.
    + rewrite Hh2. reflexivity.
Qed.

(* --------------------------------------------------------------- *)

Lemma inv_data hdr m L b d hb :
  inv hdr m L -> m_heap m b = Some hb -> zlen d = h_size hb ->
  inv hdr (set_heap m (hset (m_heap m) b (Some (with_data hb d)))) L.
Proof.
  intros [IC IN IH IP IU I32 IM IK] Hb Hd. constructor; cbn; auto.
  - clear - IC Hb Hd. revert IC. generalize PHead, (m_head m).
    induction L as [|[a s] L IHL]; intros p cur; cbn [chain]; auto.
    intros [-> (ha & H1 & H2 & H3 & H4 & H5)]. split; [reflexivity|].
    destruct (Z.eq_dec a b) as [->|Hne].
    + assert (ha = hb) by congruence. subst ha.
      exists (with_data hb d). unfold hset at 1. rewrite Z.eqb_refl. cbn.
      repeat split; auto. congruence.
    + exists ha. unfold hset at 1. destruct (Z.eqb_spec a b); [contradiction|].
      repeat split; auto.
  - intros a hd. unfold hset. destruct (Z.eqb_spec a b); [subst; intros _; eauto|eauto].
Qed.

Lemma inv_fail hdr m L b : inv hdr m L -> inv hdr (set_fail m b) L.
Proof. intros [IC IN IH IP IU I32 IM IK]. constructor; auto. Qed.

Lemma copy_into_len old new n :
  0 <= n <= zlen old -> n <= zlen new -> zlen (copy_into old new n) = zlen new.
Proof.
  unfold copy_into, zlen. intros H1 H2. rewrite app_length, firstn_length, skipn_length. lia.
Qed.

Lemma copy_into_firstn old new n :
  0 <= n <= zlen old -> firstn (Z.to_nat n) (copy_into old new n) = firstn (Z.to_nat n) old.
Proof.
  unfold copy_into, zlen. intros H1.
  rewrite firstn_app, firstn_firstn, Nat.min_id, firstn_length.
  replace (Z.to_nat n - Nat.min (Z.to_nat n) (length old))%nat with 0%nat by lia.
  rewrite firstn_O, app_nil_r. reflexivity.
Qed.

(** Full description of realloc of a live block. *)
Lemma realloc_spec hdr m L a size o :
  0 < hdr < W32 -> inv hdr m L -> is_u32 size -> host_ok L size o -> live L a ->
  (realloc hdr m (Some a) size o = Ok (set_fail m true, Jump)) \/
  (size = 0 /\ exists m', realloc hdr m (Some a) size o = Ok (m', Ret None) /\
     free hdr m (Some a) = Ok m' /\ inv hdr m' (lremove L a) /\
     m_max m' = m_max m /\ m_fail m' = m_fail m /\ m_peak m' = m_peak m /\
     m_heap m' a = None /\ (forall b, b <> a -> contents m' b = contents m b)) \/
  (size <> 0 /\ m_usage m + (size + hdr) <= m_max m /\
   exists b junk m' olddata newdata,
     o = Some (b, junk) /\ realloc hdr m (Some a) size o = Ok (m', Ret (Some b)) /\
     inv hdr m' (lremove ((b, size) :: L) a) /\ b <> a /\
     m_max m' = m_max m /\ m_fail m' = m_fail m /\ m_peak m <= m_peak m' /\
     m_heap m' a = None /\
     contents m a = Some olddata /\ contents m' b = Some newdata /\ zlen newdata = size /\
     (let n := Z.to_nat (Z.min size (zlen olddata)) in firstn n newdata = firstn n olddata) /\
     (forall c, c <> a -> c <> b -> contents m' c = contents m c)).
Proof.
  intros Hh HI Hs Ho Hl. pose proof Hl as [s Hin].
  destruct (chain_lookup _ _ _ _ _ _ (inv_chain _ _ _ HI) Hin) as (ha & Ha & Hsz & Hdl).
  unfold realloc. rewrite Ha.
  destruct (malloc_spec hdr m L size o Hh HI Hs Ho) as [[E _]|[[E0 E]|(Hne & Hfit & b & junk & m' & Eo & E & HI' & Hmx & Hf & Hfr & Hpk & (hb & Hb & Hbd) & Hoth)]].
  - left. rewrite E. reflexivity.
  - right. left. split; [exact E0|]. rewrite E. cbn [bind].
    destruct (free_spec hdr m L a Hh HI Hl) as (m' & F1 & F2 & F3 & F4 & F5 & F6 & F7 & F8).
    exists m'. rewrite F1. cbn [bind]. auto 10.
  - right. right. split; [exact Hne|]. split; [exact Hfit|].
    rewrite E. cbn [bind].
    subst o. destruct Ho as [Hfresh Hjl].
    assert (Hba : b <> a). { intros ->. apply Hfresh. exact Hl. }
    assert (Hca : contents m' a = contents m a) by (apply Hoth; congruence).
    unfold contents in Hca. rewrite Ha in Hca.
    destruct (m_heap m' a) as [ha'|] eqn:Ha'; [|discriminate]. injection Hca as Hda.
    rewrite Hb.
    set (n := if size <? h_size ha then size else h_size ha).
    assert (Hn : n = Z.min size s) by (unfold n; rewrite Hsz; destruct (Z.ltb_spec size s); lia).
    pose proof (inv_pos _ _ _ HI _ _ Hin) as Hsp.
    assert (Hbs : h_size hb = size /\ zlen (h_data hb) = size).
    { destruct (chain_lookup _ _ _ _ b size (inv_chain _ _ _ HI') ltac:(left; reflexivity)) as (hx & X1 & X2 & X3).
      assert (hx = hb) by congruence. subst. auto. }
    destruct Hbs as [Hbs1 Hbs2].
    unfold is_u32 in Hs.
    set (nd := copy_into (h_data ha') (h_data hb) n).
    assert (Hnd : zlen nd = size).
    { unfold nd. rewrite copy_into_len; [exact Hbs2| |]; rewrite ?Hda; lia. }
    pose proof (inv_data hdr m' _ b nd hb HI' Hb ltac:(congruence)) as HI2.
    set (m2 := set_heap m' (hset (m_heap m') b (Some (with_data hb nd)))) in *.
    assert (Hl2 : live ((b, size) :: L) a) by (exists s; right; exact Hin).
    destruct (free_spec hdr m2 _ a Hh HI2 Hl2) as (m3 & F1 & F2 & F3 & F4 & F5 & F6 & F7 & F8).
    rewrite F1. cbn [bind].
    exists b, junk, m3, (h_data ha), nd.
    split; [reflexivity|]. split; [reflexivity|]. split; [exact F2|]. split; [exact Hba|].
    split; [rewrite F3; exact Hmx|]. split; [rewrite F4; exact Hf|].
    split; [rewrite F5; exact Hpk|]. split; [exact F7|].
    split; [unfold contents; rewrite Ha; reflexivity|].
    split.
    { rewrite F8 by exact Hba. unfold contents, m2. cbn. unfold hset. rewrite Z.eqb_refl. reflexivity. }
    split; [exact Hnd|]. split.
    { cbv zeta. rewrite Hdl, <- Hn. unfold nd. rewrite copy_into_firstn; rewrite Hda; [reflexivity|lia]. }
    intros c Hc1 Hc2. rewrite F8 by exact Hc1. unfold contents, m2. cbn. unfold hset.
    destruct (Z.eqb_spec c b); [contradiction|]. apply (Hoth c Hc2).
Qed.

Lemma array_size size count :
  is_u32 size -> is_u32 count -> size <> 0 -> count < INVALID / size ->
  0 <= size * count < W32 /\ u32 (size * count) = size * count.
Proof.
  intros Hs Hc Hn Hlt.
  assert (0 <= size * count < W32).
  { unfold is_u32, INVALID, W32 in *.
    assert (size * (4294967295 / size) <= 4294967295) by (apply Z.mul_div_le; lia).
    nia. }
  split; [assumption|]. apply u32_id. exact H.
Qed.

Lemma step_progress hdr m L o :
  0 < hdr < W32 -> inv hdr m L -> valid L o ->
  exists m' r, step hdr m o = Ok (m', r) /\ inv hdr m' (ledger_step L o r) /\
    m_peak m <= m_peak m' /\
    (r = Jump -> m' = set_fail m true) /\
    (r <> Jump -> m_fail m' = m_fail m) /\
    ((forall z, o <> OSetMax z) -> m_max m' = m_max m) /\
    (m_usage m' <= m_usage m \/ m_usage m' <= m_max m \/ exists z, o = OSetMax z).
Proof.
  intros Hh HI Hv.
  assert (Mal : forall size h, is_u32 size -> host_ok L size h ->
    exists m' r, malloc hdr m size h = Ok (m', r) /\
      inv hdr m' (match r with Jump => L | Ret p => ladd L p size end) /\
      m_peak m <= m_peak m' /\ (r = Jump -> m' = set_fail m true) /\
      (r <> Jump -> m_fail m' = m_fail m) /\ m_max m' = m_max m /\
      (m_usage m' <= m_usage m \/ m_usage m' <= m_max m) /\
      (forall a, r = Ret (Some a) -> exists hd, m_heap m' a = Some hd)).
  { intros size h Hs Ho.
    destruct (malloc_spec hdr m L size h Hh HI Hs Ho) as [[E _]|[[E0 E]|(Hne & Hfit & b & junk & m' & Eo & E & HI' & Hmx & Hf & Hfr & Hpk & (hb & Hb & Hbd) & Hoth)]].
    - exists (set_fail m true), Jump. rewrite E.
      sp; auto; try discriminate; cbn; try lia; try congruence; try apply inv_fail; auto.
    - exists m, (Ret None). rewrite E. sp; auto; try discriminate; try lia.
    - exists m', (Ret (Some b)). rewrite E. sp; auto; try discriminate; try lia.
      + right. rewrite (inv_usage _ _ _ HI'). cbn [total]. rewrite <- (inv_usage _ _ _ HI). lia.
      + intros a [= <-]. eauto. }
  assert (Rea : forall p size h, is_u32 size -> ptr_ok L p -> host_ok L size h ->
    exists m' r, realloc hdr m p size h = Ok (m', r) /\
      inv hdr m' (match r with Jump => L | Ret q => lremove_opt (ladd L q size) p end) /\
      m_peak m <= m_peak m' /\ (r = Jump -> m' = set_fail m true) /\
      (r <> Jump -> m_fail m' = m_fail m) /\ m_max m' = m_max m /\
      (m_usage m' <= m_usage m \/ m_usage m' <= m_max m)).
  { intros [a|] size h Hs Hp Ho.
    2:{ destruct (Mal size h Hs Ho) as (m' & r & A1 & A2 & A3 & A4 & A5 & A6 & A7 & A8).
        exists m', r. cbn [realloc lremove_opt]. repeat (split; [assumption|]). assumption. }
    cbn in Hp.
    destruct (realloc_spec hdr m L a size h Hh HI Hs Ho Hp)
      as [E|[(E0 & m' & E & F & HI' & Hmx & Hf & Hpk & _)|(Hne & Hfit & b & junk & m' & od & nd & Eo & E & HI' & Hba & Hmx & Hf & Hpk & _)]].
    - exists (set_fail m true), Jump. rewrite E.
      sp; auto; try discriminate; cbn; try lia; try congruence; try apply inv_fail; auto.
    - exists m', (Ret None). rewrite E. sp; auto; try discriminate; try lia.
      left. destruct (lremove_split L a ltac:(apply live_fst; exact Hp) (inv_nodup _ _ _ HI)) as (L1 & s & L2 & EL & ER).
      rewrite (inv_usage _ _ _ HI'), (inv_usage _ _ _ HI), ER, EL, !total_app. cbn [total].
      assert (0 < s < W32). { apply (inv_pos _ _ _ HI a). rewrite EL. apply in_or_app. right. left. reflexivity. }
      lia.
    - exists m', (Ret (Some b)). rewrite E. sp; auto; try discriminate; try lia.
      right.
      assert (Hsum : total hdr (lremove ((b, size) :: L) a) <= total hdr ((b, size) :: L)).
      { cbn [lremove]. destruct (Z.eqb_spec b a); [contradiction|]. cbn [total].
        destruct (lremove_split L a ltac:(apply live_fst; exact Hp) (inv_nodup _ _ _ HI)) as (L1 & s & L2 & EL & ER).
        rewrite ER, EL, !total_app. cbn [total].
        assert (0 < s < W32). { apply (inv_pos _ _ _ HI a). rewrite EL. apply in_or_app. right. left. reflexivity. }
        lia. }
      rewrite (inv_usage _ _ _ HI'). cbn [total] in Hsum. rewrite <- (inv_usage _ _ _ HI) in Hsum. lia. }
  destruct o as [size h|p|p size h|size count h|p size count h|s h|z]; cbn [step valid ledger_step] in *.
  - destruct Hv as [Hs Ho]. destruct (Mal size h Hs Ho) as (m' & r & A1 & A2 & A3 & A4 & A5 & A6 & A7 & A8).
    exists m', r. repeat (split; [assumption || (intros; assumption)|]). tauto.
  - destruct p as [a|].
    + destruct (free_spec hdr m L a Hh HI Hv) as (m' & F1 & F2 & F3 & F4 & F5 & F6 & F7 & F8).
      rewrite F1. cbn [bind]. exists m', (Ret None).
      sp; auto; try discriminate; try lia.
      left. destruct (lremove_split L a ltac:(apply live_fst; exact Hv) (inv_nodup _ _ _ HI)) as (L1 & s & L2 & EL & ER).
      rewrite (inv_usage _ _ _ F2), (inv_usage _ _ _ HI), ER, EL, !total_app. cbn [total].
      assert (0 < s < W32). { apply (inv_pos _ _ _ HI a). rewrite EL. apply in_or_app. right. left. reflexivity. }
      lia.
    + cbn [free bind]. exists m, (Ret None). sp; auto; try discriminate; try lia.
  - destruct Hv as (Hs & Hp & Ho). destruct (Rea p size h Hs Hp Ho) as (m' & r & A1 & A2 & A3 & A4 & A5 & A6 & A7).
    exists m', r. repeat (split; [assumption || (intros; assumption)|]). tauto.
  - destruct Hv as (Hs & Hc & Hn & Ho). unfold malloc_array.
    destruct (Z.eqb_spec size 0); [contradiction|].
    destruct (Z.leb_spec (INVALID / size) count).
    + exists (set_fail m true), Jump. sp; auto; try discriminate; cbn; try lia; try congruence; try apply inv_fail; auto.
    + destruct (array_size size count Hs Hc Hn H) as [R1 R2]. rewrite R2.
      destruct (Mal (size * count) h R1 Ho) as (m' & r & A1 & A2 & A3 & A4 & A5 & A6 & A7 & A8).
      exists m', r. repeat (split; [assumption || (intros; assumption)|]). tauto.
  - destruct Hv as (Hs & Hc & Hn & Hp & Ho). unfold realloc_array.
    destruct (Z.eqb_spec size 0); [contradiction|].
    destruct (Z.leb_spec (INVALID / size) count).
    + exists (set_fail m true), Jump. sp; auto; try discriminate; cbn; try lia; try congruence; try apply inv_fail; auto.
    + destruct (array_size size count Hs Hc Hn H) as [R1 R2]. rewrite R2.
      destruct (Rea p (size * count) h R1 Hp Ho) as (m' & r & A1 & A2 & A3 & A4 & A5 & A6 & A7).
      exists m', r. repeat (split; [assumption || (intros; assumption)|]). tauto.
  - destruct s as [s|]; cbn [strdup].
    2:{ exists m, (Ret None). sp; auto; try discriminate; try lia. }
    destruct Hv as [Hlen Ho].
    pose proof (zlen_nonneg s) as Hs0.
    rewrite (u32_id (zlen s)) by (unfold is_u32; lia).
    rewrite (u32_id (zlen s + 1)) by (unfold is_u32; lia).
    destruct (Z.eqb_spec (zlen s + 1) 0); [lia|].
    destruct (Mal (zlen s + 1) h ltac:(unfold is_u32; lia) Ho) as (m' & r & A1 & A2 & A3 & A4 & A5 & A6 & A7 & A8).
    rewrite A1. cbn [bind]. destruct r as [[a|]|].
    + destruct (A8 a eq_refl) as [hd Hd]. rewrite Hd.
      assert (Hsz : h_size hd = zlen s + 1 /\ zlen (h_data hd) = zlen s + 1).
      { destruct (chain_lookup _ _ _ _ a (zlen s + 1) (inv_chain _ _ _ A2) ltac:(left; reflexivity)) as (hx & X1 & X2 & X3).
        assert (hx = hd) by congruence. subst. auto. }
      destruct Hsz as [Hz1 Hz2].
      destruct (Z.ltb_spec (zlen s) (h_size hd)); [|lia].
      eexists _, (Ret (Some a)). split; [reflexivity|]. cbn [ladd].
      split.
      { apply (inv_data hdr m' _ a _ hd A2 Hd). rewrite copy_into_len; rewrite ?zlen_app, ?Hz1, ?Hz2; change (zlen [0]) with 1; lia. }
      cbn. sp; auto; try discriminate. tauto.
    + exists m', (Ret None). repeat (split; [assumption || (intros; assumption)|]). tauto.
    + exists m', Jump. repeat (split; [assumption || (intros; assumption)|]). tauto.
  - exists (set_max m z), (Ret None). split; [reflexivity|]. split.
    { destruct HI. constructor; auto. }
    cbn [set_max m_peak m_usage m_max m_fail]. sp; auto; try discriminate; try lia.
    intros Hz. exfalso. apply (Hz z). reflexivity.
Qed.

Lemma history_inv hdr m L : 0 < hdr < W32 -> history hdr m L -> inv hdr m L.
Proof.
  intros Hh. induction 1 as [max Hm|m L o m' r H IH Hv E].
  - apply inv_init. exact Hm.
  - destruct (step_progress hdr m L o Hh IH Hv) as (m2 & r2 & E2 & HI & _).
    rewrite E in E2. injection E2 as <- <-. exact HI.
Qed.

Lemma teardown_spec : forall L m p,
  chain (m_heap m) p (m_head m) L -> NoDup (map fst L) ->
  (forall a hd, m_heap m a = Some hd -> In a (map fst L)) ->
  exists m', teardown (length L) m = Ok m' /\
    m_freed m' = rev (map fst L) ++ m_freed m /\ m_head m' = None /\
    (forall a, m_heap m' a = None).
Proof.
  induction L as [|[a s] L IH]; intros m p Hc Hnd Hhp.
  - cbn in Hc. exists m. cbn [length teardown]. rewrite Hc. cbn. sp; auto; try lia.
    intros a. destruct (m_heap m a) eqn:E; [|reflexivity]. destruct (Hhp a _ E).
  - destruct Hc as [Hhead (ha & H1 & H2 & H3 & H4 & H5)].
    cbn [map fst] in Hnd. inversion Hnd as [|? ? Hn1 Hn2]; subst.
    cbn [length teardown]. rewrite Hhead, H1.
    match goal with |- context [teardown (length L) ?m'] =>
      destruct (IH m' (PNext a)) as (m2 & T1 & T2 & T3 & T4) end.
    + cbn. eapply chain_ext; [|exact H5]. intros b Hb. unfold hset.
      destruct (Z.eqb_spec b a); [subst; contradiction|reflexivity].
    + exact Hn2.
    + cbn. intros b hd. unfold hset. destruct (Z.eqb_spec b a); [discriminate|].
      intros Hb. apply Hhp in Hb. cbn [map fst In] in Hb. destruct Hb as [?|?]; [congruence|assumption].
    + exists m2. rewrite T1. split; [reflexivity|]. split; [|auto].
      rewrite T2. cbn [map fst rev]. rewrite <- app_assoc. reflexivity.
Qed.

Lemma usage_exact hdr m L :
  0 < hdr < W32 -> history hdr m L ->
  m_usage m = total hdr L /\ NoDup (map fst L) /\
  (forall a, (exists d, contents m a = Some d) <-> live L a) /\
  (forall a s, In (a, s) L -> exists d, contents m a = Some d /\ zlen d = s).
Proof.
  intros Hh H. pose proof (history_inv hdr m L Hh H) as HI.
  split; [apply HI|]. split; [apply HI|].
  assert (G : forall a s, In (a, s) L -> exists d, contents m a = Some d /\ zlen d = s).
  { intros a s Hin. destruct (chain_lookup _ _ _ _ _ _ (inv_chain _ _ _ HI) Hin) as (hd & A & B & C).
    exists (h_data hd). unfold contents. rewrite A. auto. }
  split; [|exact G].
  intros a. split.
  - intros [d Hd]. unfold contents in Hd. destruct (m_heap m a) eqn:E; [|discriminate].
    apply live_fst. eapply inv_heap; eauto.
  - intros [s Hs]. destruct (G a s Hs) as (d & Hd & _). eauto.
Qed.

Lemma history_progress hdr m L o :
  0 < hdr < W32 -> history hdr m L -> valid L o -> exists m' r, step hdr m o = Ok (m', r).
Proof.
  intros Hh H Hv.
  destruct (step_progress hdr m L o Hh (history_inv _ _ _ Hh H) Hv) as (m' & r & E & _). eauto.
Qed.

Lemma peak_bound hdr m L m' L' :
  0 < hdr < W32 -> history hdr m L -> continues hdr m L m' L' ->
  m_usage m <= m_peak m' /\ m_usage m' <= m_peak m'.
Proof.
  intros Hh H C.
  assert (G : history hdr m' L' /\ m_peak m <= m_peak m').
  { induction C as [|m L m1 L1 o m2 r C IH Hv E]; [split; [exact H|lia]|].
    destruct (IH H) as [H1 Hp]. split; [econstructor; eauto|].
    destruct (step_progress hdr m1 L1 o Hh (history_inv _ _ _ Hh H1) Hv) as (m3 & r3 & E3 & _ & Hp3 & _).
    rewrite E in E3. injection E3 as <- <-. lia. }
  destruct G as [H1 Hp].
  pose proof (inv_peak _ _ _ (history_inv _ _ _ Hh H)).
  pose proof (inv_peak _ _ _ (history_inv _ _ _ Hh H1)). lia.
Qed.

Lemma history_limit_history hdr max m L : history_limit hdr max m L -> history hdr m L.
Proof. induction 1; econstructor; eauto. Qed.

Lemma limit_respected hdr max m L :
  0 < hdr < W32 -> history_limit hdr max m L -> m_usage m <= max /\ m_max m = max.
Proof.
  intros Hh. induction 1 as [Hm|m L o m' r H IH Hv Hns E].
  - cbn. unfold is_u32 in Hm. lia.
  - destruct IH as [IH1 IH2].
    pose proof (history_inv _ _ _ Hh (history_limit_history _ _ _ _ H)) as HI.
    destruct (step_progress hdr m L o Hh HI Hv) as (m2 & r2 & E2 & _ & _ & _ & _ & Hmx & Hu).
    rewrite E in E2. injection E2 as <- <-. specialize (Hmx Hns).
    split; [|lia]. destruct Hu as [?|[?|[z Hz]]]; try lia. exfalso. exact (Hns z Hz).
Qed.

Lemma refusal_harmless hdr m L o m' :
  0 < hdr < W32 -> history hdr m L -> valid L o -> step hdr m o = Ok (m', Jump) ->
  m_usage m' = m_usage m /\ m_peak m' = m_peak m /\ m_max m' = m_max m /\
  m_head m' = m_head m /\ (forall a, m_heap m' a = m_heap m a) /\ m_freed m' = m_freed m /\
  m_fail m' = true.
Proof.
  intros Hh H Hv E.
  destruct (step_progress hdr m L o Hh (history_inv _ _ _ Hh H) Hv) as (m2 & r2 & E2 & _ & _ & J & _).
  rewrite E in E2. injection E2 as <- <-. rewrite (J eq_refl). cbn. repeat split; auto.
Qed.

Lemma malloc_outcome hdr m L size o m' r :
  0 < hdr < W32 -> history hdr m L -> valid L (OMalloc size o) ->
  step hdr m (OMalloc size o) = Ok (m', r) ->
  (r = Jump <->
     W32 <= size + hdr \/ (size <> 0 /\ (m_max m < m_usage m + (size + hdr) \/ o = None))).
Proof.
  intros Hh H [Hs Ho] E. cbn [step] in E.
  pose proof (history_inv _ _ _ Hh H) as HI.
  pose proof (inv_max _ _ _ HI) as Hmx. pose proof (inv_u32 _ _ _ HI) as Hus. unfold is_u32 in *.
  destruct (malloc_spec hdr m L size o Hh HI Hs Ho) as [[E2 C]|[[E0 E2]|(Hne & Hfit & b & junk & m2 & Eo & E2 & _)]];
    rewrite E in E2; injection E2 as -> ->.
  - tauto.
  - split; [discriminate|]. subst. intros [?|[? _]]; lia.
  - split; [discriminate|]. subst o. intros [?|[_ [?|?]]]; try lia. discriminate.
Qed.

Lemma teardown_history hdr m L :
  0 < hdr < W32 -> history hdr m L ->
  exists m', teardown (length L) m = Ok m' /\
    m_freed m' = rev (map fst L) ++ m_freed m /\ NoDup (map fst L) /\
    (forall a, In a (map fst L) <-> live L a) /\
    m_head m' = None /\ (forall a, contents m' a = None).
Proof.
  intros Hh H. pose proof (history_inv _ _ _ Hh H) as HI.
  destruct (teardown_spec L m PHead (inv_chain _ _ _ HI) (inv_nodup _ _ _ HI) (inv_heap _ _ _ HI))
    as (m' & A & B & C & D).
  exists m'. split; [exact A|]. split; [exact B|]. split; [apply HI|].
  split; [intros a; symmetry; apply live_fst|]. split; [exact C|].
  intros a. unfold contents. rewrite D. reflexivity.
Qed.

Lemma realloc_contents hdr m L a size o m' b :
  0 < hdr < W32 -> history hdr m L -> valid L (ORealloc (Some a) size o) ->
  step hdr m (ORealloc (Some a) size o) = Ok (m', Ret (Some b)) ->
  exists old new, contents m a = Some old /\ contents m' b = Some new /\ zlen new = size /\
    (forall i, 0 <= i < Z.min (zlen old) size -> znth new i = znth old i) /\
    contents m' a = None /\
    (forall c, c <> a -> c <> b -> contents m' c = contents m c).
Proof.
  intros Hh H (Hs & Hp & Ho) E. cbn [step] in E.
  pose proof (history_inv _ _ _ Hh H) as HI.
  destruct (realloc_spec hdr m L a size o Hh HI Hs Ho Hp)
      as [E2|[(E0 & m2 & E2 & _)|(Hne & Hfit & b2 & junk & m2 & od & nd & Eo & E2 & HI' & Hba & Hmx & Hf & Hpk & Hgone & C1 & C2 & C3 & C4 & C5)]];
    rewrite E in E2; try discriminate; injection E2 as -> ->.
  exists od, nd. split; [exact C1|]. split; [exact C2|]. split; [exact C3|]. split.
  { intros i Hi. cbv zeta in C4. rewrite ?znth_def.
    destruct (Z.ltb_spec i 0); [lia|].
    assert (Q : forall (l : list Z) n k, (k < n)%nat -> nth_error l k = nth_error (firstn n l) k).
    { clear. induction l as [|x l IH]; intros [|n] [|k] Hk; cbn; try lia; auto.
      apply IH. lia. }
    rewrite (Q nd (Z.to_nat (Z.min size (zlen od)))), (Q od (Z.to_nat (Z.min size (zlen od)))) by lia.
    rewrite C4. reflexivity. }
  split; [unfold contents; rewrite Hgone; reflexivity|exact C5].
Qed.

Lemma realloc_fail hdr m L p size o m' :
  0 < hdr < W32 -> history hdr m L -> valid L (ORealloc p size o) ->
  step hdr m (ORealloc p size o) = Ok (m', Jump) ->
  forall a, contents m' a = contents m a.
Proof.
  intros Hh H Hv E a.
  destruct (refusal_harmless _ _ _ _ _ Hh H Hv E) as (_ & _ & _ & _ & K & _).
  unfold contents. rewrite K. reflexivity.
Qed.

Lemma array_exact hdr m L size count p o m' a :
  0 < hdr < W32 -> history hdr m L ->
  (valid L (OMallocArray size count o) /\ step hdr m (OMallocArray size count o) = Ok (m', Ret (Some a))) \/
  (valid L (OReallocArray p size count o) /\ step hdr m (OReallocArray p size count o) = Ok (m', Ret (Some a))) ->
  exists d, contents m' a = Some d /\ zlen d = size * count.
Proof.
  intros Hh H Hcase. pose proof (history_inv _ _ _ Hh H) as HI.
  assert (HI' : exists L', inv hdr m' L' /\ In (a, size * count) L').
  { destruct Hcase as [[Hv E]|[Hv E]].
    - destruct (step_progress hdr m L _ Hh HI Hv) as (m2 & r2 & E2 & HI2 & _).
      rewrite E in E2. injection E2 as <- <-. cbn [ledger_step ladd] in HI2.
      eexists. split; [exact HI2|left; reflexivity].
    - destruct (step_progress hdr m L _ Hh HI Hv) as (m2 & r2 & E2 & HI2 & _).
      rewrite E in E2. injection E2 as <- <-. cbn [ledger_step ladd] in HI2.
      eexists. split; [exact HI2|].
      destruct p as [q|]; cbn [lremove_opt lremove] in *; [|left; reflexivity].
      destruct (Z.eqb_spec a q); [|left; reflexivity].
      exfalso. subst q. destruct Hv as (Hs & Hc & Hn & Hp & Ho).
      cbn [step] in E. unfold realloc_array in E.
      destruct (Z.eqb_spec size 0); [contradiction|].
      destruct (Z.leb_spec (INVALID / size) count); [discriminate|].
      destruct (array_size size count Hs Hc Hn H0) as [R1 R2]. rewrite R2 in E.
      destruct (realloc_spec hdr m L a (size * count) o Hh HI R1 Ho Hp)
      as [E2|[(E0 & m2 & E2 & _)|(Hne & Hfit & b2 & junk & m2 & od & nd & Eo & E2 & HI' & Hba & _)]];
      rewrite E in E2; try discriminate; injection E2 as -> ->. congruence. }
  destruct HI' as (L' & HI' & Hin).
  destruct (chain_lookup _ _ _ _ _ _ (inv_chain _ _ _ HI') Hin) as (hd & A & B & C).
  exists (h_data hd). unfold contents. rewrite A. auto.
Qed.

Lemma strdup_contents hdr m L s o m' a :
  0 < hdr < W32 -> history hdr m L -> valid L (OStrdup (Some s) o) ->
  step hdr m (OStrdup (Some s) o) = Ok (m', Ret (Some a)) ->
  contents m' a = Some (s ++ [0]).
Proof.
  intros Hh H [Hlen Ho] E. pose proof (history_inv _ _ _ Hh H) as HI.
  cbn [step strdup] in E. pose proof (zlen_nonneg s) as Hs0.
  rewrite (u32_id (zlen s)) in E by (unfold is_u32; lia).
  rewrite (u32_id (zlen s + 1)) in E by (unfold is_u32; lia).
  destruct (Z.eqb_spec (zlen s + 1) 0); [lia|].
  destruct (malloc_spec hdr m L (zlen s + 1) o Hh HI ltac:(unfold is_u32; lia) Ho)
    as [[E2 _]|[[E0 E2]|(Hne & Hfit & b & junk & m2 & Eo & E2 & HI' & Hmx & Hf & Hfr & Hpk & (hb & Hb & Hbd) & Hoth)]];
    rewrite E2 in E; cbn [bind] in E; try discriminate.
  rewrite Hb in E.
  destruct (chain_lookup _ _ _ _ b (zlen s + 1) (inv_chain _ _ _ HI') ltac:(left; reflexivity)) as (hx & X1 & X2 & X3).
  assert (hx = hb) by congruence. subst hx.
  destruct (Z.ltb_spec (zlen s) (h_size hb)); [|discriminate]. injection E as <- <-.
  unfold contents. cbn. unfold hset. rewrite Z.eqb_refl. cbn. f_equal.
  unfold copy_into. rewrite firstn_all2 by (rewrite app_length; cbn; unfold zlen; lia).
  rewrite skipn_all2 by (unfold zlen in *; lia). apply app_nil_r.
Qed.
