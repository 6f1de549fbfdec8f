(** * CoroProofs: switching between contexts *)
From Verif Require Import Base BaseFacts.
From Verif Require Import VmModel MonadFacts StackProofs ObjsProofs HostModel VmSpec VmInv VmSafety VmCall VmStep VmProperties OpProofs CtxProofs CallSpec CallProofs.

(** ** What one instruction does to the contexts *)

(** A context slot with the same parent, or the given one, or freed. *)
Definition par (p : option Z) (x y : option ctx) : Prop :=
  match x, y with
  | Some c, Some c' => c_parent c' = p /\ c_obj c' = c_obj c
  | _, None => True
  | None, Some _ => False
  end.
Definition parent_of (x : option ctx) : option Z := match x with Some c => c_parent c | None => None end.

Definition unfinished (y : option ctx) : Prop := match y with Some c => c_state c <> CO_FINISHED | None => True end.
(** Contexts that were not there before have no parent. *)
Definition fresh (s s' : vm) : Prop := forall i c, zlen (v_ctxs s) <= i -> znth (v_ctxs s') i = Some (Some c) -> c_parent c = None.

Inductive cstep (s s' : vm) : Prop :=
| cs_same : v_cur s' = v_cur s -> zlen (v_ctxs s) <= zlen (v_ctxs s') -> fresh s s' ->
    (forall i x, znth (v_ctxs s) i = Some x -> exists y, znth (v_ctxs s') i = Some y /\
       (if i =? v_cur s then touched x y \/ (parent_of x = None /\ par None x y) else kept x y)) -> cstep s s'
| cs_pop c : znth (v_ctxs s) (v_cur s) = Some (Some c) -> c_parent c = Some (v_cur s') -> zlen (v_ctxs s) <= zlen (v_ctxs s') -> fresh s s' ->
    (forall i x, znth (v_ctxs s) i = Some x -> exists y, znth (v_ctxs s') i = Some y /\
       (if i =? v_cur s' then touched x y \/ v_cur s' = v_cur s else if i =? v_cur s then par None x y else kept x y)) -> cstep s s'
| cs_push c : znth (v_ctxs s) (v_cur s') = Some (Some c) -> c_parent c = None -> c_state c <> CO_FINISHED ->
    c_state c <> CO_INVALID -> zlen (v_ctxs s) <= zlen (v_ctxs s') -> fresh s s' ->
    (forall i x, znth (v_ctxs s) i = Some x -> exists y, znth (v_ctxs s') i = Some y /\
       (if i =? v_cur s' then (par (Some (v_cur s)) x y /\ unfinished y) \/ v_cur s' = v_cur s else if i =? v_cur s then touched x y else kept x y)) -> cstep s s'.

Lemma touched_par x y : touched x y -> par (parent_of x) x y.
Proof. destruct x, y; cbn; tauto. Qed.
Lemma touched_par_l p x y z : touched x y -> par p y z -> par p x z.
Proof. destruct x, y, z; cbn; try tauto. intuition congruence. Qed.
Lemma par_touched p x y z : par p x y -> touched y z -> par p x z.
Proof. destruct x, y, z; cbn; try tauto. intuition congruence. Qed.
Lemma touched_parent x y : touched x y -> y = None \/ parent_of y = parent_of x.
Proof. destruct x, y; cbn; intuition. Qed.

Lemma lc_slot s s' : lc true s s' -> forall i x, znth (v_ctxs s) i = Some x -> exists y, znth (v_ctxs s') i = Some y /\
  (if i =? v_cur s then touched x y else kept x y).
Proof.
  intros L i x Hx. destruct (Z.eqb_spec i (v_cur s)) as [-> |N].
  - exact (lc_here _ _ _ L x Hx).
  - exact (lc_other _ _ _ L i x N Hx).
Qed.


Lemma lc_back s s' : lc true s s' -> forall i c', znth (v_ctxs s') i = Some (Some c') -> exists c, znth (v_ctxs s) i = Some (Some c) /\
  c_parent c' = c_parent c /\ c_obj c' = c_obj c /\ c_state c' = c_state c.
Proof.
  intros L i c' H. pose proof (znth_some_range _ _ _ H) as R. rewrite (lc_len _ _ _ L) in R.
  destruct (znth_in_range (v_ctxs s) i R) as (x & Hx). destruct (lc_slot _ _ L i x Hx) as (y & Hy & K).
  rewrite H in Hy. injection Hy as <-. assert (touched x (Some c')) as T.
  { destruct (i =? v_cur s); auto. apply kept_touched; auto. }
  destruct x as [c|]; [|destruct T]. exists c. auto.
Qed.

Lemma fresh_len s s' : zlen (v_ctxs s') = zlen (v_ctxs s) -> fresh s s'.
Proof. intros E i c L H. apply znth_some_range in H. lia. Qed.
Lemma fresh_l s s1 s' : lc true s s1 -> fresh s1 s' -> fresh s s'.
Proof. intros L F i c Li H. eapply F; eauto. rewrite (lc_len _ _ _ L). auto. Qed.
Lemma fresh_r s s1 s' : fresh s s1 -> lc true s1 s' -> fresh s s'.
Proof. intros F L i c Li H. destruct (lc_back _ _ L _ _ H) as (c0 & H0 & P & _). rewrite P. eauto. Qed.
Lemma unfinished_touched y z : unfinished y -> touched y z -> unfinished z.
Proof. destruct y, z; cbn; intuition congruence. Qed.

Lemma lc_cstep s s' : lc true s s' -> cstep s s'.
Proof.
  intro L. apply cs_same; try apply L. { pose proof (lc_len _ _ _ L). lia. } { apply fresh_len, L. }
  intros i x Hx. destruct (lc_slot _ _ L i x Hx) as (y & Hy & K).
  exists y. split; auto. destruct (i =? v_cur s); auto.
Qed.

Ltac slot L H := let y := fresh "y" in let Hy := fresh "Hy" in let K := fresh "K" in destruct (L _ _ H) as (y & Hy & K).

Lemma lc_cstep_l s s1 s' : lc true s s1 -> cstep s1 s' -> cstep s s'.
Proof.
  intros L C. pose proof (lc_cur _ _ _ L) as Cu. pose proof (lc_len _ _ _ L) as Ln. pose proof (lc_slot _ _ L) as SL.
  destruct C as [C1 C2 Fr C3|c C1 C2 C3 Fr C4|c C1 C2 C3 C4 C5 Fr C6]; pose proof (fresh_l _ _ _ L Fr) as Fr'.
  - apply cs_same; [congruence|lia|auto|]. intros i x Hx. slot SL Hx. slot C3 Hy. exists y0. split; auto. rewrite Cu in K0.
    destruct (i =? v_cur s).
    + destruct K0 as [K0|[K0 K1]]; [left; eapply touched_trans; eauto|].
      destruct (touched_parent _ _ K) as [-> |P]; [left; destruct y0; [destruct K1|]; destruct x; exact I|].
      right. split; [congruence|]. eapply touched_par_l; eauto.
    + eapply kept_trans; eauto.
  - destruct (lc_back _ _ L _ _ C1) as (c0 & H0 & P0 & _). rewrite Cu in *.
    eapply (cs_pop s s' c0); auto; [congruence|lia|].
    intros i x Hx. slot SL Hx. slot C4 Hy. exists y0. split; auto.
    destruct (i =? v_cur s'); [|destruct (i =? v_cur s)].
    + destruct K0 as [K0|K0]; [left|right; auto].
      destruct (i =? v_cur s); [|apply kept_touched in K]; eapply touched_trans; eauto.
    + eapply touched_par_l; eauto.
    + eapply kept_trans; eauto.
  - destruct (lc_back _ _ L _ _ C1) as (c0 & H0 & P0 & _ & S0). rewrite Cu in *.
    eapply (cs_push s s' c0); auto; try congruence; try lia.
    intros i x Hx. slot SL Hx. slot C6 Hy. exists y0. split; auto.
    destruct (i =? v_cur s'); [|destruct (i =? v_cur s)].
    + destruct K0 as [[K0 K1]|K0]; [left|right; auto]. split; auto.
      destruct (i =? v_cur s); [|apply kept_touched in K]; eapply touched_par_l; eauto.
    + eapply touched_trans; eauto.
    + eapply kept_trans; eauto.
Qed.

Lemma kept_par p x y z : par p x y -> kept y z -> par p x z.
Proof. intros P K. eapply par_touched; eauto. apply kept_touched; auto. Qed.

Lemma lc_cstep_r s s1 s' : cstep s s1 -> lc true s1 s' -> cstep s s'.
Proof.
  intros C L. pose proof (lc_cur _ _ _ L) as Cu. pose proof (lc_len _ _ _ L) as Ln. pose proof (lc_slot _ _ L) as SL.
  destruct C as [C1 C2 Fr C3|c C1 C2 C3 Fr C4|c C1 C2 C3 C4 C5 Fr C6]; pose proof (fresh_r _ _ _ Fr L) as Fr'.
  - apply cs_same; [congruence|lia|auto|]. intros i x Hx. slot C3 Hx. slot SL Hy. exists y0. split; auto. rewrite C1 in K0.
    destruct (i =? v_cur s); [|eapply kept_trans; eauto].
    destruct K as [K|[K K1]]; [left; eapply touched_trans; eauto|right; split; auto; eapply par_touched; eauto].
  - eapply (cs_pop s s' c); auto; [congruence|lia|].
    intros i x Hx. slot C4 Hx. slot SL Hy. exists y0. split; auto. rewrite Cu.
    destruct (i =? v_cur s1); [|destruct (i =? v_cur s)].
    + destruct K as [K|K]; [left|right; congruence]. eapply touched_trans; eauto.
    + eapply kept_par; eauto.
    + eapply kept_trans; eauto.
  - rewrite <- Cu in C1. eapply (cs_push s s' c); auto; try congruence; try lia.
    intros i x Hx. slot C6 Hx. slot SL Hy. exists y0. split; auto. rewrite Cu.
    destruct (i =? v_cur s1); [|destruct (i =? v_cur s)].
    + destruct K as [[K K1]|K]; [left|right; congruence]. split; [eapply par_touched; eauto|eapply unfinished_touched; eauto].
    + eapply touched_trans; eauto. apply kept_touched; auto.
    + eapply kept_trans; eauto.
Qed.

Definition csl {T} (m : M T) : Prop := forall s x s', m s = Ok (x, s') -> cstep s s'.
Lemma c_lcl {T} (m : M T) : lcl true m -> csl m.
Proof. intros H s x s' E. apply lc_cstep. eapply H; eauto. Qed.
Lemma c_bind_l {T U} (m : M T) (k : T -> M U) : lcl true m -> (forall x, csl (k x)) -> csl (mbind m k).
Proof. intros Hm Hk s x s' E. destruct (bind_inv _ _ _ _ _ E) as (y & s1 & E1 & E2). eapply lc_cstep_l; [eapply Hm|eapply Hk]; eauto. Qed.
Lemma c_bind_r {T U} (m : M T) (k : T -> M U) : csl m -> (forall x, lcl true (k x)) -> csl (mbind m k).
Proof. intros Hm Hk s x s' E. destruct (bind_inv _ _ _ _ _ E) as (y & s1 & E1 & E2). eapply lc_cstep_r; [eapply Hm|eapply Hk]; eauto. Qed.

Ltac csx := repeat match goal with
  | |- csl (mbind _ _) => apply c_bind_l; [solve [loc]|intro]
  | |- csl (match ?z with _ => _ end) => destruct z
  | |- csl _ => solve [apply c_lcl; loc]
  end.

Lemma get_ctx_inv i s c s' : get_ctx i s = Ok (c, s') -> s' = s /\ znth (v_ctxs s) i = Some (Some c).
Proof. unfold get_ctx. destruct (znth _ _) as [[?|]|]; [|discriminate..]. intro E. injection E as <- <-. auto. Qed.
Lemma put_ctx_inv i c s u s' : put_ctx i c s = Ok (u, s') -> exists c0, znth (v_ctxs s) i = Some (Some c0) /\
  s' = set_ctxs (zupd (v_ctxs s) i (Some c)) s.
Proof. unfold put_ctx. destruct (znth _ _) as [[?|]|] eqn:H; [|discriminate..]. intro E. injection E as _ <-. eauto. Qed.

Lemma pop_context_inv s u s' : pop_context s = Ok (u, s') -> exists c, znth (v_ctxs s) (v_cur s) = Some (Some c) /\
  ((c_parent c = None /\ lc true s s') \/
   (exists p, c_parent c = Some p /\ s' = set_ctxs (zupd (v_ctxs s) (v_cur s) (Some (set_c_parent None c))) (set_cur p s))).
Proof.
  unfold pop_context. unfold mbind at 1, gets at 1. intro E. destruct (bind_inv _ _ _ _ _ E) as (c & s1 & E1 & E2).
  apply get_ctx_inv in E1. destruct E1 as [-> Hc]. exists c. split; auto. destruct (c_parent c) as [p|].
  - right. exists p. split; auto. unfold mbind, modify in E2. apply put_ctx_inv in E2. destruct E2 as (c0 & _ & ->). reflexivity.
  - left. split; auto. eapply (l_error true); eauto.
Qed.

Lemma c_pop_context : csl pop_context.
Proof.
  intros s u s' E. destruct (pop_context_inv _ _ _ E) as (c & Hc & [[P L]|(p & P & ->)]); [apply lc_cstep; auto|].
  pose proof (znth_some_range _ _ _ Hc). eapply cs_pop; vs; eauto; [rewrite zlen_zupd; lia|apply fresh_len; vs; apply zlen_zupd|].
  intros i x Hx. destruct (Z.eqb_spec i p) as [Q|Q].
  - destruct (Z.eq_dec i (v_cur s)) as [Q1|Q1].
    + rewrite Q1, znth_zupd_same by auto. eexists. split; eauto. right. congruence.
    + rewrite znth_zupd_other by auto. exists x. split; auto. left. apply touched_refl.
  - destruct (Z.eqb_spec i (v_cur s)) as [Q1|Q1].
    + rewrite Q1, znth_zupd_same by auto. rewrite Q1, Hc in Hx. injection Hx as <-. eexists. split; eauto. cbn. auto.
    + rewrite znth_zupd_other by auto. exists x. split; auto. left. auto.
Qed.

Lemma c_yield : csl op_yield.
Proof. unfold op_yield. csx. apply c_bind_r; [apply c_pop_context|intro; loc]. Qed.

Lemma mod_cur_inv f s u s' : mod_cur f s = Ok (u, s') -> exists c, znth (v_ctxs s) (v_cur s) = Some (Some c) /\
  s' = set_ctxs (zupd (v_ctxs s) (v_cur s) (Some (f c))) s.
Proof.
  unfold mod_cur. unfold mbind at 1, gets at 1. intro E. destruct (bind_inv _ _ _ _ _ E) as (c & s1 & E1 & E2).
  apply get_ctx_inv in E1. destruct E1 as [-> Hc]. apply put_ctx_inv in E2. destruct E2 as (_ & _ & ->). eauto.
Qed.

Lemma c_finish : csl (mod_cur (fun c => set_c_ip INVALID (set_c_state CO_FINISHED c)) ;;; pop_context).
Proof.
  intros s u s' E. destruct (bind_inv _ _ _ _ _ E) as (y & s1 & E1 & E2).
  destruct (mod_cur_inv _ _ _ _ E1) as (c & Hc & Es1). pose proof (znth_some_range _ _ _ Hc) as R.
  assert (forall i x, znth (v_ctxs s) i = Some x -> exists y, znth (v_ctxs s1) i = Some y /\
    if i =? v_cur s then par (parent_of x) x y else y = x) as S1.
  { subst s1. intros i x Hx. vs. destruct (Z.eqb_spec i (v_cur s)) as [-> |Q].
    - rewrite znth_zupd_same by auto. rewrite Hc in Hx. injection Hx as <-. eexists. split; eauto. cbn. auto.
    - rewrite znth_zupd_other by auto. eauto. }
  assert (v_cur s1 = v_cur s /\ zlen (v_ctxs s1) = zlen (v_ctxs s)) as [Cu1 Ln1] by (subst s1; vs; rewrite zlen_zupd; auto).
  assert (forall x y z, par (parent_of x) x y -> par (parent_of y) y z -> par (parent_of x) x z) as PT.
  { intros [x|] [b|] [z|]; cbn; try tauto. intuition congruence. }
  assert (forall x y z, par (parent_of x) x y -> par None y z -> par None x z) as PN.
  { intros [x|] [b|] [z|]; cbn; try tauto. intuition congruence. }
  destruct (pop_context_inv _ _ _ E2) as (c2 & H2 & [[P2 L2]|(p & P2 & E3)]).
  - pose proof (lc_cstep _ _ L2) as C. pose proof (lc_cur _ _ _ L2). pose proof (lc_len _ _ _ L2). pose proof (lc_slot _ _ L2) as SL.
    apply cs_same; [congruence|lia|apply fresh_len; lia|]. intros i x Hx. slot S1 Hx. slot SL Hy. exists y1. split; auto. rewrite Cu1 in K0.
    destruct (Z.eqb_spec i (v_cur s)) as [Q|Q]; [|subst y0; auto].
    assert (parent_of x = None) as Px.
    { rewrite Q, Hc in Hx. injection Hx as <-. rewrite Cu1 in H2. rewrite Es1 in H2. vsin H2. rewrite znth_zupd_same in H2 by auto. injection H2 as <-. exact P2. }
    right. rewrite Px in K. split; auto. eapply par_touched; eauto.
  - assert (c2 = set_c_ip INVALID (set_c_state CO_FINISHED c)) as Ec2.
    { rewrite Cu1 in H2. rewrite Es1 in H2. vsin H2. rewrite znth_zupd_same in H2 by auto. congruence. }
    assert (v_cur s' = p) as Cp by (subst s'; reflexivity).
    assert (c_parent c = Some p) as Pc by (subst c2; exact P2).
    rewrite <- Cp in Pc. eapply (cs_pop s s' c); auto; [subst s'; vs; rewrite zlen_zupd; lia|apply fresh_len; subst s'; vs; rewrite zlen_zupd; lia|].
    intros i x Hx. rewrite E3, Cu1, Es1. vs. rewrite zupd_zupd. destruct (Z.eqb_spec i p) as [Q|Q].
    + destruct (Z.eq_dec i (v_cur s)) as [Q1|Q1].
      * rewrite Q1, znth_zupd_same by auto. eexists. split; eauto. right. congruence.
      * rewrite znth_zupd_other by auto. exists x. split; auto. left. apply touched_refl.
    + destruct (Z.eqb_spec i (v_cur s)) as [Q1|Q1].
      * rewrite Q1, znth_zupd_same by auto. rewrite Q1, Hc in Hx. injection Hx as <-. eexists. split; eauto. subst c2. cbn. auto.
      * rewrite znth_zupd_other by auto. exists x. split; auto. left. auto.
Qed.

Lemma c_return : csl op_return.
Proof.
  unfold op_return. csx. intros s u s' E.
  destruct (bind_inv _ _ _ _ _ E) as (y & s1 & E1 & E2). destruct (bind_inv _ _ _ _ _ E2) as (y2 & s2 & E3 & E4).
  eapply lc_cstep_r; [eapply c_finish|eapply l_push; eauto].
  unfold mbind at 1. rewrite E1. exact E3.
Qed.

Lemma push_context_inv i s u s' : push_context i s = Ok (u, s') -> exists c, znth (v_ctxs s) i = Some (Some c) /\
  ((c_parent c <> None /\ lc true s s') \/
   (c_parent c = None /\ s' = set_cur i (set_ctxs (zupd (v_ctxs s) i (Some (set_c_parent (Some (v_cur s)) c))) s))).
Proof.
  unfold push_context. intro E. destruct (bind_inv _ _ _ _ _ E) as (c & s1 & E1 & E2).
  apply get_ctx_inv in E1. destruct E1 as [-> Hc]. exists c. split; auto. destruct (c_parent c) as [p|].
  - left. split; [discriminate|]. eapply (l_error true); eauto.
  - right. split; auto. unfold mbind at 1, gets at 1 in E2. destruct (bind_inv _ _ _ _ _ E2) as (y & s2 & E3 & E4).
    apply put_ctx_inv in E3. destruct E3 as (_ & _ & ->). unfold modify in E4. injection E4 as _ <-. reflexivity.
Qed.

Lemma push_cstep s i c s1 : znth (v_ctxs s) i = Some (Some c) -> c_parent c = None -> c_state c <> CO_FINISHED -> c_state c <> CO_INVALID ->
  s1 = set_cur i (set_ctxs (zupd (v_ctxs s) i (Some (set_c_parent (Some (v_cur s)) c))) s) ->
  cstep s s1 /\ forall st, st <> CO_FINISHED -> cstep s (set_ctxs (zupd (v_ctxs s1) i (Some (set_c_state st (set_c_parent (Some (v_cur s)) c)))) s1).
Proof.
  intros Hc P N1 N2 E. pose proof (znth_some_range _ _ _ Hc) as R.
  assert (forall c', c_parent c' = Some (v_cur s) -> c_obj c' = c_obj c -> c_state c' <> CO_FINISHED ->
    cstep s (set_cur i (set_ctxs (zupd (v_ctxs s) i (Some c')) s))) as Q.
  { intros c' P' O' S'. eapply (cs_push _ _ c); vs; auto; [rewrite zlen_zupd; lia|apply fresh_len; vs; apply zlen_zupd|]. intros j x Hx. destruct (Z.eqb_spec j i) as [-> |Qj].
    - rewrite znth_zupd_same by auto. rewrite Hc in Hx. injection Hx as <-. eexists. split; eauto. left. cbn. auto.
    - rewrite znth_zupd_other by auto. exists x. split; auto. destruct (j =? v_cur s); [apply touched_refl|left; auto]. }
  split.
  - subst s1. apply Q; auto.
  - intros st Nst. subst s1. vs. rewrite zupd_zupd. exact (Q (set_c_state st (set_c_parent (Some (v_cur s)) c)) eq_refl eq_refl Nst).
Qed.

Lemma c_resume_body ci v : csl (c <- get_ctx ci ;;
      if c_state c =? CO_INVALID then add_error (bs "Tried to resume an invalid coroutine.")
      else if c_state c =? CO_FINISHED then push vnil
      else
        match c_parent c with
        | Some _ => add_error (bs "Tried to recursively resume an active coroutine.")
        | None =>
          push_context ci ;;;
          if c_state c =? CO_CREATED then
            c' <- get_ctx ci ;; put_ctx ci (set_c_state CO_RUNNING c')
          else if c_state c =? CO_RUNNING then push v
          else ret tt
        end).
Proof.
  intros s u s' E. destruct (bind_inv _ _ _ _ _ E) as (c & s1 & E1 & E2).
  apply get_ctx_inv in E1. destruct E1 as [-> Hc].
  destruct (Z.eqb_spec (c_state c) CO_INVALID) as [S1|S1]; [apply lc_cstep; eapply (l_error true); eauto|].
  destruct (Z.eqb_spec (c_state c) CO_FINISHED) as [S2|S2]; [apply lc_cstep; eapply l_push; eauto|].
  destruct (c_parent c) as [p|] eqn:P; [apply lc_cstep; eapply (l_error true); eauto|].
  destruct (bind_inv _ _ _ _ _ E2) as (y & s2 & E3 & E4).
  destruct (push_context_inv _ _ _ _ E3) as (c' & Hc' & [[P' _]|[_ Es2]]); rewrite Hc in Hc'; injection Hc' as <-; [congruence|].
  destruct (push_cstep _ _ _ _ Hc P S2 S1 Es2) as [Q1 Q2]. pose proof (znth_some_range _ _ _ Hc) as R.
  destruct (c_state c =? CO_CREATED).
  - destruct (bind_inv _ _ _ _ _ E4) as (c2 & s3 & E5 & E6). apply get_ctx_inv in E5. destruct E5 as [-> Hc2].
    apply put_ctx_inv in E6. destruct E6 as (_ & _ & ->).
    replace c2 with (set_c_parent (Some (v_cur s)) c); [apply Q2; discriminate|]. rewrite Es2 in Hc2. vsin Hc2. rewrite znth_zupd_same in Hc2 by auto. congruence.
  - destruct (c_state c =? CO_RUNNING).
    + eapply lc_cstep_r; [exact Q1|eapply l_push; eauto].
    + unfold ret in E4. injection E4 as _ <-. exact Q1.
Qed.
Lemma c_resume : csl op_resume.
Proof. unfold op_resume. do 4 (apply c_bind_l; [solve [loc]|intro]). destruct (negb _); [csx|]. apply c_bind_l; [solve [loc]|intro d]. destruct d; [apply c_resume_body|csx]. Qed.

(** Creating a coroutine: the contexts there were before. *)
Definition below (u n : Z) (s s' : vm) : Prop :=
  zlen (v_ctxs s) <= zlen (v_ctxs s') <= Z.max (zlen (v_ctxs s)) (n + 1) /\
  forall i x, i < n -> znth (v_ctxs s) i = Some x -> exists y, znth (v_ctxs s') i = Some y /\ (if i =? u then touched x y else kept x y).
Lemma below_trans u n s1 s2 s3 : below u n s1 s2 -> below u n s2 s3 -> below u n s1 s3.
Proof.
  intros [L1 A] [L2 B]. split; [lia|]. intros i x Ri Hx. destruct (A i x Ri Hx) as (y & Hy & K). destruct (B i y Ri Hy) as (z & Hz & K2).
  exists z. split; auto. destruct (i =? u); [eapply touched_trans; eauto|eapply kept_trans; eauto].
Qed.
Lemma below_lc u n s s' : lc true s s' -> v_cur s = u \/ n <= v_cur s -> below u n s s'.
Proof.
  intros L C. split; [pose proof (lc_len _ _ _ L); lia|]. intros i x Ri Hx. destruct (lc_slot _ _ L i x Hx) as (y & Hy & K).
  exists y. split; auto. destruct (Z.eqb_spec i (v_cur s)) as [Q|Q], (Z.eqb_spec i u) as [Q1|Q1]; auto; [lia|]. apply kept_touched; auto.
Qed.
Lemma below_put u n s i c : n <= i -> below u n s (set_ctxs (zupd (v_ctxs s) i c) s).
Proof.
  intro L. split; vs; [rewrite zlen_zupd; lia|]. intros j x Rj Hx. rewrite znth_zupd_other by lia. exists x. split; auto.
  destruct (j =? u); [apply touched_refl|left; auto].
Qed.
Lemma below_cur u n s s' i : below u n s s' -> below u n s (set_cur i s').
Proof. intros [L A]. split; auto. Qed.
Lemma lc_false_true s s' : lc false s s' -> lc true s s'. Proof. apply lc_weak. Qed.

Lemma coroutine_object_inv ci out s ok s' : coroutine_object ci out s = Ok (ok, s') -> ci <> v_cur s ->
  (exists c, znth (v_ctxs s) ci = Some (Some c) /\ c_parent c = None) ->
  v_cur s' = v_cur s /\ below (v_cur s) ci s s' /\ forall c, znth (v_ctxs s') ci = Some (Some c) -> c_parent c = None.
Proof.
  intros E N (c0 & H0 & P0). unfold coroutine_object in E.
  assert (forall T (m : M T) y t t', lcl true m -> m t = Ok (y, t') -> v_cur t = v_cur s -> below (v_cur s) ci s t ->
    (forall c, znth (v_ctxs t) ci = Some (Some c) -> c_parent c = None) ->
    v_cur t' = v_cur s /\ below (v_cur s) ci s t' /\ (forall c, znth (v_ctxs t') ci = Some (Some c) -> c_parent c = None)) as St.
  { intros T m y t t' Lm Em Cu B P. pose proof (Lm _ _ _ Em) as L. split; [rewrite (lc_cur _ _ _ L); auto|]. split.
    - eapply below_trans; [exact B|]. apply below_lc; auto.
    - intros c Hc. destruct (lc_back _ _ L _ _ Hc) as (c1 & Hc1 & Q & _). rewrite Q. eauto. }
  assert (v_cur s = v_cur s /\ below (v_cur s) ci s s /\ forall c, znth (v_ctxs s) ci = Some (Some c) -> c_parent c = None) as (A1 & A2 & A3).
  { split; auto. split; [|congruence]. split; [lia|]. intros i x _ Hx. exists x. split; auto. destruct (i =? v_cur s); [apply touched_refl|left; auto]. }
  destruct (bind_inv _ _ _ _ _ E) as (old & s1 & E1 & E'). clear E.
  destruct (St _ _ _ _ _ (l_get_slot true out) E1 A1 A2 A3) as (B1 & B2 & B3).
  destruct (bind_inv _ _ _ _ _ E') as (? & s2 & E2 & E). clear E'.
  destruct (St _ _ _ _ _ (l_set_slot _ _) E2 B1 B2 B3) as (C1 & C2 & C3).
  destruct (bind_inv _ _ _ _ _ E) as (id & s3 & E3 & E'). clear E.
  destruct (St _ _ _ _ _ (l_create true) E3 C1 C2 C3) as (D1 & D2 & D3).
  destruct (bind_inv _ _ _ _ _ E') as (? & s4 & E4 & E). clear E'.
  destruct (St _ _ _ _ _ (l_set_slot _ _) E4 D1 D2 D3) as (F1 & F2 & F3).
  destruct (bind_inv _ _ _ _ _ E) as (c & s5 & E5 & E'). clear E.
  apply get_ctx_inv in E5. destruct E5 as [-> Hc].
  destruct (bind_inv _ _ _ _ _ E') as (? & s6 & E6 & E). clear E'.
  apply put_ctx_inv in E6. destruct E6 as (_ & _ & Es6). pose proof (znth_some_range _ _ _ Hc) as R.
  assert (v_cur s6 = v_cur s /\ below (v_cur s) ci s s6 /\ forall c, znth (v_ctxs s6) ci = Some (Some c) -> c_parent c = None) as (G1 & G2 & G3).
  { split; [subst s6; exact F1|]. split; [eapply below_trans; [exact F2|subst s6; apply below_put; lia]|].
    intros c1 Hc1. subst s6. vsin Hc1. rewrite znth_zupd_same in Hc1 by auto. injection Hc1 as <-. cbn. eauto. }
  match type of E with ?m _ = _ => assert (lcl true m) as Lm by loc end.
  exact (St _ _ _ _ _ Lm E G1 G2 G3).
Qed.

Section Op.
Variable host : Z -> list value -> M value.
Hypothesis Hhost : forall cb args, lcl true (host cb args).

Lemma c_create_body ci fv args argc :
  forall s u s', ci = zlen (v_ctxs s) -> 0 <= v_cur s < ci ->
  forall out,
  (modify (fun s => set_ctxs (v_ctxs s ++ [Some ctx_init]) s) ;;;
      ok <- coroutine_object ci out ;;
      if ok then
        push_context ci ;;;
        push fv ;;;
        push_all args ;;;
        push_int argc ;;;
        c' <- get_ctx ci ;;
        put_ctx ci (set_c_ip INVALID c') ;;;
        op_call host ;;;
        pop_context
      else ret tt) s = Ok (u, s') -> v_cur s' = v_cur s /\ below (v_cur s) ci s s' /\ fresh s s'.
Proof.
  intros s u s' Ec Rc out E. unfold mbind at 1, modify at 1 in E.
  set (s1 := set_ctxs (v_ctxs s ++ [Some ctx_init]) s) in *.
  assert (below (v_cur s) ci s s1) as B0.
  { split; [unfold s1; vs; rewrite zlen_app, zlen_cons, zlen_nil; lia|]. intros i x Ri Hx. unfold s1. vs.
    pose proof (znth_some_range _ _ _ Hx). rewrite znth_app_l by lia. exists x. split; auto. destruct (i =? v_cur s); [apply touched_refl|left; auto]. }
  assert (znth (v_ctxs s1) ci = Some (Some ctx_init)) as Hci.
  { unfold s1. vs. rewrite znth_app_r by lia. rewrite Ec, Z.sub_diag. reflexivity. }
  destruct (bind_inv _ _ _ _ _ E) as (okb & s2 & E2 & E3). clear E.
  destruct (coroutine_object_inv _ _ _ _ _ E2) as (Cu2 & B2 & P2).
  { unfold s1. vs. lia. } { exists ctx_init. auto. }
  change (v_cur s1) with (v_cur s) in *.
  assert (below (v_cur s) ci s s2) as B02 by (eapply below_trans; eauto).
  assert (forall t, below (v_cur s) ci s t -> (forall c, znth (v_ctxs t) ci = Some (Some c) -> c_parent c = None) -> fresh s t) as Fr.
  { intros t [Lt _] Pt i c Li Hi. pose proof (znth_some_range _ _ _ Hi). assert (i = ci) as -> by lia. eauto. }
  destruct okb; [|unfold ret in E3; injection E3 as _ <-; auto].
  destruct (bind_inv _ _ _ _ _ E3) as (? & s3 & E4 & E). clear E3.
  destruct (push_context_inv _ _ _ _ E4) as (c3 & Hc3 & [[P' _]|[_ Es3]]); [apply P2 in Hc3; congruence|].
  pose proof (znth_some_range _ _ _ Hc3) as R2.
  assert (v_cur s3 = ci /\ below (v_cur s) ci s s3 /\
    forall c, znth (v_ctxs s3) ci = Some (Some c) -> c_parent c = Some (v_cur s)) as (A1 & A2 & A3).
  { subst s3. split; [reflexivity|]. split; [apply below_cur; eapply below_trans; [exact B02|apply below_put; lia]|].
    intros c Hc. vsin Hc. rewrite znth_zupd_same in Hc by auto. injection Hc as <-. cbn. congruence. }
  assert (forall T (m : M T) y t t', lcl true m -> m t = Ok (y, t') -> v_cur t = ci -> below (v_cur s) ci s t ->
    (forall c, znth (v_ctxs t) ci = Some (Some c) -> c_parent c = Some (v_cur s)) ->
    v_cur t' = ci /\ below (v_cur s) ci s t' /\ (forall c, znth (v_ctxs t') ci = Some (Some c) -> c_parent c = Some (v_cur s))) as St.
  { intros T m y t t' Lm Em Cu B P. pose proof (Lm _ _ _ Em) as L. split; [rewrite (lc_cur _ _ _ L); auto|]. split.
    - eapply below_trans; [exact B|]. apply below_lc; auto. right. lia.
    - intros c Hc. destruct (lc_back _ _ L _ _ Hc) as (c1 & Hc1 & Q & _). rewrite Q. eauto. }
  destruct (bind_inv _ _ _ _ _ E) as (? & s4 & E5 & E'). clear E.
  destruct (St _ _ _ _ _ (l_push _) E5 A1 A2 A3) as (D1 & D2 & D3).
  destruct (bind_inv _ _ _ _ _ E') as (? & s5 & E6 & E). clear E'.
  destruct (St _ _ _ _ _ (l_push_all _) E6 D1 D2 D3) as (F1 & F2 & F3).
  destruct (bind_inv _ _ _ _ _ E) as (? & s6 & E7 & E'). clear E.
  destruct (St _ _ _ _ _ (l_push_int _) E7 F1 F2 F3) as (G1 & G2 & G3).
  destruct (bind_inv _ _ _ _ _ E') as (c' & s7 & E8 & E). clear E'.
  apply get_ctx_inv in E8. destruct E8 as [-> Hc'].
  destruct (bind_inv _ _ _ _ _ E) as (? & s8 & E9 & E'). clear E.
  apply put_ctx_inv in E9. destruct E9 as (_ & _ & Es8). pose proof (znth_some_range _ _ _ Hc') as R8.
  assert (v_cur s8 = ci /\ below (v_cur s) ci s s8 /\
    forall c, znth (v_ctxs s8) ci = Some (Some c) -> c_parent c = Some (v_cur s)) as (I1 & I2 & I3).
  { subst s8. split; [exact G1|]. split; [eapply below_trans; [exact G2|apply below_put; lia]|].
    intros c Hc. vsin Hc. rewrite znth_zupd_same in Hc by auto. injection Hc as <-. cbn. eauto. }
  destruct (bind_inv _ _ _ _ _ E') as (? & s9 & E10 & E). clear E'.
  destruct (St _ _ _ _ _ (l_call host Hhost) E10 I1 I2 I3) as (J1 & J2 & J3).
  destruct (pop_context_inv _ _ _ E) as (c9 & H9 & [[P9 _]|(p & P9 & ->)]); rewrite J1 in H9; pose proof (J3 _ H9) as Q; [congruence|].
  split; [vs; congruence|]. rewrite J1.
  match goal with |- below _ _ _ ?t /\ _ => assert (below (v_cur s) ci s t) as Bt; [|split; auto; apply Fr; auto; vs; rewrite znth_zupd_same by (eapply znth_some_range; eauto); intros c H; injection H as <-; reflexivity] end.
  apply below_trans with s9; [exact J2|].
  apply (below_trans _ _ _ (set_cur p s9)); [apply below_cur; split; [lia|]|].
  - intros i y _ Hy. exists y. split; auto. destruct (i =? v_cur s); [apply touched_refl|left; auto].
  - refine (below_put _ _ (set_cur p s9) _ _ _). lia.
Qed.

Lemma c_create_coroutine : csl (op_coroutine_create host).
Proof.
  unfold op_coroutine_create. do 2 (apply c_bind_l; [solve [loc]|intro]). destruct (_ <? 0); [csx|].
  apply c_bind_l; [solve [loc]|intro pc]. cbv zeta. destruct (_ <? _); [csx|].
  apply c_bind_l; [solve [loc]|intro args]. do 2 (apply c_bind_l; [solve [loc]|intro]). intros s u s' E.
  destruct (bind_inv _ _ _ _ _ E) as (out & s1 & E1 & E2). pose proof (l_push_slot _ _ _ E1) as L.
  eapply lc_cstep_l; [exact L|]. unfold mbind at 1, self at 1, gets at 1 in E2. cbv zeta in E2.
  assert (0 <= v_cur s1 < zlen (v_ctxs s1)) as Rc.
  { unfold push_slot in E1. destruct (bind_inv _ _ _ _ _ E1) as (c & t & E3 & _). unfold cur_ctx in E3. unfold mbind at 1, gets at 1 in E3.
    apply get_ctx_inv in E3. destruct E3 as [_ H]. rewrite (lc_cur _ _ _ L), (lc_len _ _ _ L). apply (znth_some_range _ _ _ H). }
  destruct (c_create_body (zlen (v_ctxs s1)) _ _ _ s1 u s' eq_refl Rc out E2) as [Cu [[Ln B] Fr]].
  apply cs_same; auto; [lia|]. intros i y Hy. destruct (B i y) as (z & Hz & K); auto. { apply (znth_some_range _ _ _ Hy). }
  exists z. split; auto. destruct (i =? v_cur s1); auto.
Qed.

Lemma c_opcode n : csl (opcode host n).
Proof.
  destruct (in_dec Z.eq_dec n [19; 38; 39; 40]) as [I|I]; [|apply c_lcl, l_opcode; auto].
  destruct I as [<-|[<-|[<-|[<-|[]]]]]; [apply c_return|apply c_create_coroutine|apply c_yield|apply c_resume].
Qed.

Lemma c_iterate hostmark : csl (iterate hostmark host).
Proof.
  unfold iterate. apply c_bind_l; [apply l_fetch|intro w]. apply c_bind_l; [apply l_tick|intro go]. destruct go; [|csx].
  apply c_bind_r; [apply c_opcode|intro; loc].
Qed.
End Op.

(** ** Executions *)
Lemma goes_ok hostmark prog s l s' : vm_ok s -> goes hostmark (api_host hostmark prog) s l s' -> vm_ok s'.
Proof.
  intros V G. induction G as [s|s s1 l s' N Gp E G IH]; auto. apply IH.
  pose proof (C18_step_safe hostmark prog s V N Gp) as Q. rewrite E in Q. exact Q.
Qed.
Lemma l_api_host hostmark prog cb args : lcl true (api_host hostmark prog cb args).
Proof. apply l_run_host. Qed.

Lemma cstep_sleep s s' i x : cstep s s' -> v_cur s <> i -> v_cur s' <> i -> znth (v_ctxs s) i = Some x ->
  exists y, znth (v_ctxs s') i = Some y /\ kept x y.
Proof.
  intros C N N' Hx. apply Z.eqb_neq in N as Nb. apply Z.eqb_neq in N' as Nb'. rewrite Z.eqb_sym in Nb, Nb'.
  destruct C as [C1 C2 Fr C3|c C1 C2 C3 Fr C4|c C1 C2 C3 C4 C5 Fr C6].
  - specialize (C3 i x Hx). rewrite Nb in C3. auto.
  - specialize (C4 i x Hx). rewrite Nb, Nb' in C4. auto.
  - specialize (C6 i x Hx). rewrite Nb, Nb' in C6. auto.
Qed.

Lemma goes_sleep hostmark prog s l s' i : goes hostmark (api_host hostmark prog) s l s' -> sleeps i l s' ->
  forall x, znth (v_ctxs s) i = Some x -> exists y, znth (v_ctxs s') i = Some y /\ kept x y.
Proof.
  intros G. induction G as [s|s s1 l s' N Gp E G IH]; intros [F L] x Hx.
  - exists x. split; auto. left. auto.
  - inversion F as [|? ? F1 F2]; subst.
    assert (v_cur s1 <> i) as N1. { destruct G; auto. inversion F2; auto. }
    destruct (cstep_sleep _ _ i x (c_iterate _ (l_api_host hostmark prog) hostmark _ _ _ E) F1 N1 Hx) as (y & Hy & K).
    destruct (IH (conj F2 L) y Hy) as (z & Hz & K2). exists z. split; auto. eapply kept_trans; eauto.
Qed.

(** The parent of a context changes only when it stops or starts. *)
Lemma cstep_parent s s' i c c' : cstep s s' -> znth (v_ctxs s) i = Some (Some c) -> znth (v_ctxs s') i = Some (Some c') ->
  c_parent c' = c_parent c \/ (v_cur s = i /\ c_parent c = Some (v_cur s')) \/ (v_cur s' = i /\ c_parent c = None).
Proof.
  intros C H H'. destruct C as [C1 C2 Fr C3|d C1 C2 C3 Fr C4|d C1 C2 C3 C4 C5 Fr C6].
  - destruct (C3 _ _ H) as (y & Hy & K). rewrite H' in Hy. injection Hy as <-. left.
    destruct (i =? v_cur s); [destruct K as [K|[K1 K]]; [apply K|cbn in K1; destruct K; congruence]|destruct K as [K|K]; [congruence|discriminate]].
  - destruct (C4 _ _ H) as (y & Hy & K). rewrite H' in Hy. injection Hy as <-.
    destruct (Z.eqb_spec i (v_cur s')) as [Q|Q]; [|destruct (Z.eqb_spec i (v_cur s)) as [Q1|Q1]].
    + destruct K as [K|K]; [left; apply K|]. right. left. rewrite <- K in C1. rewrite <- Q, H in C1. injection C1 as <-. split; congruence.
    + right. left. split; auto. rewrite <- Q1, H in C1. congruence.
    + left. destruct K as [K|K]; [congruence|discriminate].
  - destruct (C6 _ _ H) as (y & Hy & K). rewrite H' in Hy. injection Hy as <-.
    destruct (Z.eqb_spec i (v_cur s')) as [Q|Q]; [|destruct (Z.eqb_spec i (v_cur s)) as [Q1|Q1]].
    + right. right. split; auto. rewrite <- Q, H in C1. congruence.
    + left. apply K.
    + left. destruct K as [K|K]; [congruence|discriminate].
Qed.

(** Which context runs next. *)
Lemma cstep_cur s s' : cstep s s' -> v_cur s' = v_cur s \/
  (exists c, znth (v_ctxs s) (v_cur s) = Some (Some c) /\ c_parent c = Some (v_cur s')) \/
  (exists c, znth (v_ctxs s) (v_cur s') = Some (Some c) /\ c_parent c = None /\ c_state c <> CO_FINISHED /\ c_state c <> CO_INVALID).
Proof. destruct 1; eauto 10. Qed.

Lemma chain_no_child cs i l : chain cs i l -> forall j c, In j l -> znth cs j = Some (Some c) -> c_parent c <> Some i.
Proof.
  intros C. inversion C as [c0 H1 H2|? c0 p l' N H1 H2 C' NI]; subst; intros j c J Hj.
  - destruct J as [<-|[]]. congruence.
  - destruct J as [<-|J].
    + rewrite H1 in Hj. injection Hj as <-. intro Q. apply NI. rewrite H2 in Q. injection Q as ->. eapply chain_head; eauto.
    + intro Q. apply NI. destruct (Z.eq_dec j 0) as [-> |Nj].
      * exfalso. clear -C' J Hj Q. induction C' as [c1 A1 A2|? c1 q l1 N1 A1 A2 C1 IH NI1].
        -- congruence.
        -- destruct J as [J|J]; [congruence|auto].
      * destruct (chain_parent _ _ _ C' _ _ J Nj Hj) as (q & Pq & Iq). congruence.
Qed.
Lemma chain_child cs i l : chain cs i l -> forall j k c d p, In j l -> In k l -> znth cs j = Some (Some c) -> znth cs k = Some (Some d) ->
  c_parent c = Some p -> c_parent d = Some p -> j = k.
Proof.
  induction 1 as [c0 H1 H2|i c0 q l N H1 H2 C IH NI]; intros j k c d p J K Hj Hk Pj Pk.
  - destruct J as [<-|[]], K as [<-|[]]. auto.
  - destruct J as [<-|J], K as [<-|K]; auto.
    + exfalso. rewrite H1 in Hj. injection Hj as <-. assert (q = p) as -> by congruence. exact (chain_no_child _ _ _ C k d K Hk Pk).
    + exfalso. rewrite H1 in Hk. injection Hk as <-. assert (q = p) as -> by congruence. exact (chain_no_child _ _ _ C j c J Hj Pj).
    + eapply IH; eauto.
Qed.

(** Contexts on the chain have a parent, except the root. *)
Lemma cur_parent s c : vm_ok s -> znth (v_ctxs s) (v_cur s) = Some (Some c) -> v_cur s <> 0 -> c_parent c <> None.
Proof.
  intros (b & W) H N. destruct (w_chain _ _ _ W) as (l & C & _). destruct (chain_parent _ _ _ C _ _ (chain_head _ _ _ C) N H) as (p & P & _). congruence.
Qed.
Lemma parent_live s c p : vm_ok s -> znth (v_ctxs s) (v_cur s) = Some (Some c) -> c_parent c = Some p ->
  p <> v_cur s /\ v_cur s <> 0 /\ exists d, znth (v_ctxs s) p = Some (Some d) /\ (p <> 0 -> c_parent d <> None).
Proof.
  intros (b & W) H P. destruct (w_chain _ _ _ W) as (l & C & _).
  pose proof (chain_no_child _ _ _ C _ _ (chain_head _ _ _ C) H) as Q. split; [congruence|].
  assert (v_cur s <> 0) as N. { intro N. inversion C; subst; congruence. }
  split; auto. destruct (chain_parent _ _ _ C _ _ (chain_head _ _ _ C) N H) as (p' & P' & I). assert (p' = p) as -> by congruence.
  destruct (chain_in _ _ _ C _ I) as (d & Hd). exists d. split; auto. intro Np.
  destruct (chain_parent _ _ _ C _ _ I Np Hd) as (q & Pq & _). congruence.
Qed.
Lemma coroutine_live s co i : vm_ok s -> coroutine s co i -> i <> 0 /\ exists c, znth (v_ctxs s) i = Some (Some c).
Proof.
  intros (b & W) (T & o & G & X & D). destruct (w_co2 _ _ _ W _ _ G X) as (j & c & D' & N & _ & H & _).
  rewrite D in D'. injection D' as <-. eauto.
Qed.

(** A finished coroutine stays finished. *)
Definition done (s : vm) (i : Z) : Prop := v_cur s <> i /\ i <> 0 /\ exists x, znth (v_ctxs s) i = Some x /\
  forall c, x = Some c -> c_state c = CO_FINISHED /\ c_parent c = None.
Lemma step_done hostmark prog s s' i : vm_ok s -> vm_ok s' -> iterate hostmark (api_host hostmark prog) s = Ok (tt, s') ->
  done s i -> done s' i.
Proof.
  intros V V' E (N & N0 & x & Hx & Fx). pose proof (c_iterate _ (l_api_host hostmark prog) hostmark _ _ _ E) as C.
  assert (v_cur s' <> i) as N'.
  { intro Q. destruct (cstep_cur _ _ C) as [Q1|[(c & Hc & P)|(c & Hc & P & S1 & S2)]].
    - congruence.
    - destruct (parent_live _ _ _ V Hc P) as (_ & _ & d & Hd & Pd). rewrite Q in *. rewrite Hx in Hd. injection Hd as ->.
      destruct (Fx d eq_refl) as (_ & Q2). apply Pd; auto.
    - rewrite Q, Hx in Hc. injection Hc as ->. destruct (Fx c eq_refl). congruence. }
  split; auto. split; auto. destruct (cstep_sleep _ _ i x C N N' Hx) as (y & Hy & K). exists y. split; auto.
  intros c ->. destruct K as [K|K]; [apply Fx; auto|discriminate].
Qed.
Lemma goes_done hostmark prog s l s' i : vm_ok s -> goes hostmark (api_host hostmark prog) s l s' -> done s i ->
  Forall (fun t => v_cur t <> i) l /\ done s' i.
Proof.
  intros V G. induction G as [s|s s1 l s' N Gp E G IH]; intro D; [split; auto|].
  pose proof (C18_step_safe hostmark prog s V N Gp) as Q. rewrite E in Q.
  destruct (IH Q (step_done _ _ _ _ _ V Q E D)) as [F D']. split; auto. constructor; auto. apply D.
Qed.

(** ** The switching instructions *)
Definition swap2 (s : vm) (a : Z) (ca : ctx) (b : Z) (cb : ctx) (s' : vm) : Prop :=
  s' = set_cur b (set_ctxs (zupd (zupd (v_ctxs s) a (Some ca)) b (Some cb)) s).

Lemma swap2_spec s a ca b cb s' ca0 cb0 : swap2 s a ca b cb s' -> a <> b ->
  znth (v_ctxs s) a = Some (Some ca0) -> znth (v_ctxs s) b = Some (Some cb0) -> c_obj ca = c_obj ca0 -> c_obj cb = c_obj cb0 ->
  v_cur s' = b /\ switched s [a; b] s' /\ znth (v_ctxs s') a = Some (Some ca) /\ znth (v_ctxs s') b = Some (Some cb).
Proof.
  intros -> N Ha Hb Oa Ob. pose proof (znth_some_range _ _ _ Ha) as Ra. pose proof (znth_some_range _ _ _ Hb) as Rb.
  assert (znth (zupd (zupd (v_ctxs s) a (Some ca)) b (Some cb)) a = Some (Some ca)) as A1
    by (rewrite znth_zupd_other by auto; apply znth_zupd_same; auto).
  assert (znth (zupd (zupd (v_ctxs s) a (Some ca)) b (Some cb)) b = Some (Some cb)) as B1
    by (apply znth_zupd_same; rewrite zlen_zupd; auto).
  split; [reflexivity|]. split; [|split; vs; auto]. split; [reflexivity|]. split; [vs; rewrite !zlen_zupd; auto|]. vs. split.
  - intros j NI. rewrite !znth_zupd_other; auto; intros ->; apply NI; cbn; auto.
  - intros j c c' H H'. destruct (Z.eq_dec j b) as [-> |Nb]; [congruence|]. destruct (Z.eq_dec j a) as [-> |Na]; [congruence|].
    rewrite !znth_zupd_other in H' by auto. congruence.
Qed.

Lemma instruction_swap host op s s1 a ca b cb : opcode host op s = Ok (tt, s1) -> swap2 s a ca b cb s1 -> 0 <= b < zlen (v_ctxs s) ->
  exists s', instruction host op s = Ok (tt, s') /\ swap2 s a ca b (set_c_ip (u32 (c_ip cb + 1)) cb) s'.
Proof.
  intros E -> R. unfold instruction. rewrite (bind_run _ _ _ _ _ E).
  assert (0 <= b < zlen (zupd (v_ctxs s) a (Some ca))) as R' by (rewrite zlen_zupd; auto).
  unfold get_ip, cur_ctx. unfold mbind at 1 2 3, gets. vs. unfold get_ctx. vs. rewrite znth_zupd_same by auto. cbv beta iota. unfold ret. cs.
  unfold set_ip. rewrite (mod_cur_upd _ _) by (eexists; vs; apply znth_zupd_same; auto).
  eexists. split; [reflexivity|]. unfold swap2, upd_cur. vs. rewrite znth_zupd_same by auto. vs. rewrite zupd_zupd. reflexivity.
Qed.

Lemma coroutine_rs s l n t co i : rs s l n t -> coroutine s co i ->
  get_ext_type co t = Ok (v_corotype s, t) /\ get_ext_data co t = Ok (Some i, t) /\ v_corotype t = v_corotype s.
Proof.
  intros R (T & o & G & X & D). destruct (rs_frame _ _ _ _ R) as (_ & _ & Ob).
  assert (get_obj t (v_data co) = Some o) as G' by (unfold get_obj in *; rewrite Ob; auto).
  assert (v_corotype t = v_corotype s) as Ct by (destruct R as (c & k & Hc & _ & _ & _ & ->); unfold with_stack, upd_cur; rewrite Hc; reflexivity).
  assert (obj_of_value t co = Some (v_data co)) as Ov by (unfold obj_of_value; rewrite T, G'; reflexivity).
  split; [|split; auto].
  - unfold get_ext_type. unfold mbind at 1, gets at 1. rewrite Ov. rewrite (bind_run _ _ _ _ _ (rd_obj_ok _ _ _ G')). rewrite X. reflexivity.
  - unfold get_ext_data. unfold mbind at 1, gets at 1. rewrite Ov. rewrite (bind_run _ _ _ _ _ (rd_obj_ok _ _ _ G')). rewrite D. reflexivity.
Qed.

Lemma rs_slots s l n t : rs s l n t -> exists c k, znth (v_ctxs s) (v_cur s) = Some (Some c) /\ kwf k /\ contents k = l /\
  t = set_ctxs (zupd (v_ctxs s) (v_cur s) (Some (set_c_stack k c))) s.
Proof. intros (c & k & H & W & C & N & ->). exists c, k. sp; auto. apply with_stack_eq; auto. Qed.

Lemma resume_enter s st co v i c : stack_is s (st ++ [co; v]) -> coroutine s co i ->
  znth (v_ctxs s) i = Some (Some c) ->
  exists t2, rs s st 2 t2 /\ op_resume s =
     (if c_state c =? CO_INVALID
      then add_error (bs "Tried to resume an invalid coroutine.")
      else if c_state c =? CO_FINISHED then push vnil
      else
        match c_parent c with
        | Some _ => add_error (bs "Tried to recursively resume an active coroutine.")
        | None =>
          push_context i ;;;
          if c_state c =? CO_CREATED then
            c' <- get_ctx i ;; put_ctx i (set_c_state CO_RUNNING c')
          else if c_state c =? CO_RUNNING then push v
          else ret tt
        end) t2.
Proof.
  intros S Co Hc. pose proof (rs_start _ _ S) as R. replace (st ++ [co; v]) with ((st ++ [co]) ++ [v]) in R by (rewrite <- app_assoc; reflexivity).
  destruct (pop_rs _ _ _ _ _ R) as (t1 & E1 & R1). destruct (pop_rs _ _ _ _ _ R1) as (t2 & E2 & R2). exists t2. split; auto.
  unfold op_resume. rewrite (bind_run _ _ _ _ _ E1), (bind_run _ _ _ _ _ E2). unfold mbind at 1, gets at 1.
  destruct (coroutine_rs _ _ _ _ _ _ R2 Co) as (X1 & X2 & X3). rewrite X3. rewrite (bind_run _ _ _ _ _ X1). rewrite Z.eqb_refl. cbn [negb].
  rewrite (bind_run _ _ _ _ _ X2). destruct (rs_slots _ _ _ _ R2) as (d & k & Hd & W & Ck & ->).
  pose proof (znth_some_range _ _ _ Hd) as Rd. destruct (Z.eqb_spec i (v_cur s)) as [-> |N].
  - rewrite Hd in Hc. injection Hc as <-. vs.
    erewrite bind_run; [|apply get_ctx_ok; vs; apply znth_zupd_same; auto]. reflexivity.
  - erewrite bind_run; [|apply get_ctx_ok; vs; rewrite znth_zupd_other by auto; exact Hc]. reflexivity.
Qed.

Lemma push_swap s a ca b cb t l v : swap2 s a ca b cb t -> 0 <= b < zlen (v_ctxs s) -> kwf (c_stack cb) -> contents (c_stack cb) = l -> fits s (l ++ [v]) ->
  exists k s', push v t = Ok (tt, s') /\ kwf k /\ contents k = l ++ [v] /\ swap2 s a ca b (set_c_stack k cb) s'.
Proof.
  intros -> Rb W C F. set (t := set_cur b _).
  assert (0 <= b < zlen (zupd (v_ctxs s) a (Some ca))) as Rb' by (rewrite zlen_zupd; auto).
  assert (znth (v_ctxs t) (v_cur t) = Some (Some cb)) as Hb by (unfold t; vs; apply znth_zupd_same; auto).
  assert (stack_is t l) as S by (exists cb; auto).
  destruct (push_fits t l v 0 t (rs_start _ _ S)) as (s' & E & R); [exact F|].
  destruct (rs_slots _ _ _ _ R) as (c & k & Hc & Wk & Ck & Es). rewrite Hb in Hc. injection Hc as <-.
  exists k, s'. split; auto. split; auto. split; auto. unfold swap2. rewrite Es. unfold t. vs. rewrite zupd_zupd. reflexivity.
Qed.

Lemma resume_run s st co v i c cst : vm_ok s -> stack_is s (st ++ [co; v]) -> coroutine s co i ->
  znth (v_ctxs s) i = Some (Some c) -> c_parent c = None -> contents (c_stack c) = cst ->
  c_state c = CO_RUNNING /\ fits s (cst ++ [v]) \/ c_state c = CO_CREATED ->
  exists d k c' s', znth (v_ctxs s) (v_cur s) = Some (Some d) /\ kwf k /\ contents k = st /\ i <> v_cur s /\
    op_resume s = Ok (tt, s') /\ swap2 s (v_cur s) (set_c_stack k d) i c' s' /\
    kwf (c_stack c') /\ contents (c_stack c') = (if c_state c =? CO_CREATED then cst else cst ++ [v]) /\
    c_ip c' = c_ip c /\ c_parent c' = Some (v_cur s) /\ c_state c' = CO_RUNNING /\ c_obj c' = c_obj c.
Proof.
  intros V S Co Hc P Cs St. destruct (coroutine_live _ _ _ V Co) as (N0 & _).
  assert (i <> v_cur s) as N. { intros ->. exact (cur_parent _ _ V Hc N0 P). }
  destruct (resume_enter s st co v i c S Co Hc) as (t2 & R2 & E). rewrite E. clear E.
  destruct (rs_slots _ _ _ _ R2) as (d & k & Hd & W & Ck & Et2). pose proof (znth_some_range _ _ _ Hd) as Rd. pose proof (znth_some_range _ _ _ Hc) as Rc.
  assert (c_state c =? CO_INVALID = false /\ c_state c =? CO_FINISHED = false) as [Q1 Q2].
  { destruct St as [[-> _]| ->]; split; reflexivity. }
  rewrite Q1, Q2, P.
  assert (znth (v_ctxs t2) i = Some (Some c)) as Hc2 by (rewrite Et2; vs; rewrite znth_zupd_other by auto; auto).
  assert (exists s3, push_context i t2 = Ok (tt, s3) /\ swap2 s (v_cur s) (set_c_stack k d) i (set_c_parent (Some (v_cur s)) c) s3) as (s3 & E3 & Sw).
  { unfold push_context. rewrite (bind_run _ _ _ _ _ (get_ctx_ok _ _ _ Hc2)), P. unfold mbind at 1, gets at 1.
    rewrite (bind_run _ _ _ _ _ (put_ctx_ok _ _ _ _ Hc2)). eexists. split; [reflexivity|]. unfold swap2. rewrite Et2. reflexivity. }
  rewrite (bind_run _ _ _ _ _ E3). assert (kwf (c_stack c)) as Wc. { destruct V as (b & Wb). eapply w_stk; eauto. }
  exists d, k. destruct St as [[St F]|St]; rewrite St.
  - change (CO_RUNNING =? CO_CREATED) with false. change (CO_RUNNING =? CO_RUNNING) with true. cbv iota.
    destruct (push_swap _ _ _ _ _ _ cst v Sw Rc Wc Cs F) as (k' & s' & E4 & W4 & C4 & Sw4).
    eexists _, s'. split; [auto|]. split; [auto|]. split; [auto|]. split; [auto|]. split; [exact E4|]. split; [exact Sw4|].
    cs. auto 10.
  - change (CO_CREATED =? CO_CREATED) with true. cbv iota.
    assert (znth (v_ctxs s3) i = Some (Some (set_c_parent (Some (v_cur s)) c))) as H3.
    { rewrite Sw. vs. apply znth_zupd_same. rewrite zlen_zupd. auto. }
    rewrite (bind_run _ _ _ _ _ (get_ctx_ok _ _ _ H3)), (put_ctx_ok _ _ _ _ H3).
    eexists (set_c_state CO_RUNNING (set_c_parent (Some (v_cur s)) c)), _. split; [auto|]. split; [auto|]. split; [auto|]. split; [auto|].
    split; [reflexivity|]. split; [unfold swap2; rewrite Sw; vs; rewrite zupd_zupd; reflexivity|]. cs. auto 10.
Qed.

Lemma back_run s c' t p d st y : t = set_ctxs (zupd (v_ctxs s) (v_cur s) (Some c')) s -> 0 <= v_cur s < zlen (v_ctxs s) ->
  c_parent c' = Some p -> p <> v_cur s ->
  znth (v_ctxs s) p = Some (Some d) -> kwf (c_stack d) -> contents (c_stack d) = st -> fits s (st ++ [y]) ->
  exists k s', (pop_context ;;; push y) t = Ok (tt, s') /\ kwf k /\ contents k = st ++ [y] /\
    swap2 s (v_cur s) (set_c_parent None c') p (set_c_stack k d) s'.
Proof.
  intros Et R P N Hd W C F. pose proof (znth_some_range _ _ _ Hd) as Rd.
  assert (znth (v_ctxs t) (v_cur t) = Some (Some c')) as Hc by (rewrite Et; vs; apply znth_zupd_same; auto).
  assert (exists t2, pop_context t = Ok (tt, t2) /\ swap2 s (v_cur s) (set_c_parent None c') p d t2) as (t2 & E & Sw).
  { unfold pop_context. unfold mbind at 1, gets at 1. rewrite (bind_run _ _ _ _ _ (get_ctx_ok _ _ _ Hc)), P. unfold mbind at 1, modify at 1.
    rewrite (put_ctx_ok (set_cur p t) _ _ _ Hc). eexists. split; [reflexivity|]. unfold swap2. rewrite Et. vs. rewrite zupd_zupd.
    rewrite (zupd_same (zupd (v_ctxs s) (v_cur s) (Some (set_c_parent None c')))); [reflexivity|]. rewrite znth_zupd_other by auto. exact Hd. }
  rewrite (bind_run _ _ _ _ _ E). eapply push_swap; eauto.
Qed.

Lemma yield_run s cst y c p d st : vm_ok s -> stack_is s (cst ++ [y]) -> znth (v_ctxs s) (v_cur s) = Some (Some c) -> c_parent c = Some p ->
  znth (v_ctxs s) p = Some (Some d) -> contents (c_stack d) = st -> fits s (st ++ [y]) ->
  exists k k' s', op_yield s = Ok (tt, s') /\ kwf k /\ contents k = cst /\ kwf k' /\ contents k' = st ++ [y] /\
    swap2 s (v_cur s) (set_c_parent None (set_c_stack k c)) p (set_c_stack k' d) s'.
Proof.
  intros V S Hc P Hd C F. destruct (parent_live _ _ _ V Hc P) as (N & N0 & _).
  unfold op_yield. unfold mbind at 1, gets at 1. destruct (Z.eqb_spec (v_cur s) 0); [contradiction|].
  destruct (pop_rs _ _ _ _ _ (rs_start _ _ S)) as (t1 & E1 & R1). rewrite (bind_run _ _ _ _ _ E1).
  destruct (rs_slots _ _ _ _ R1) as (c0 & k & Hc0 & W & Ck & Et). rewrite Hc in Hc0. injection Hc0 as <-.
  assert (kwf (c_stack d)) as Wd. { destruct V as (b & Wb). eapply w_stk; eauto. }
  destruct (back_run s (set_c_stack k c) t1 p d st y Et (znth_some_range _ _ _ Hc) P N Hd Wd C F) as (k' & s' & E & W' & C' & Sw).
  exists k, k', s'. auto 10.
Qed.

Lemma finish_run s pre fv args locals rv c p d st : vm_ok s ->
  stack_is s (pre ++ call_frame fv args ++ [vint INVALID] ++ locals ++ [rv; vint (zlen locals)]) ->
  znth (v_ctxs s) (v_cur s) = Some (Some c) -> c_parent c = Some p ->
  znth (v_ctxs s) p = Some (Some d) -> contents (c_stack d) = st -> fits s (st ++ [rv]) ->
  exists k k' s', op_return s = Ok (tt, s') /\ kwf k /\ contents k = pre /\ kwf k' /\ contents k' = st ++ [rv] /\
    swap2 s (v_cur s) (set_c_parent None (set_c_ip INVALID (set_c_state CO_FINISHED (set_c_stack k c)))) p (set_c_stack k' d) s'.
Proof.
  intros V S Hc P Hd C F. destruct (parent_live _ _ _ V Hc P) as (N & N0 & _).
  destruct (pop_back_run _ _ _ _ _ _ _ _ 0 S eq_refl eq_refl) as (t & R & E). unfold op_return. rewrite E.
  rewrite u32_s32. rewrite u32_id by (unfold is_u32, INVALID, W32; lia). change (INVALID =? INVALID) with true. cbv iota.
  destruct (rs_slots _ _ _ _ R) as (c0 & k & Hc0 & W & Ck & Et). rewrite Hc in Hc0. injection Hc0 as <-.
  pose proof (znth_some_range _ _ _ Hc) as Rc.
  assert (znth (v_ctxs t) (v_cur t) = Some (Some (set_c_stack k c))) as Ht by (rewrite Et; vs; apply znth_zupd_same; auto).
  erewrite bind_run; [|apply mod_cur_ok; exact Ht].
  assert (kwf (c_stack d)) as Wd. { destruct V as (b & Wb). eapply w_stk; eauto. }
  eassert (_ = set_ctxs (zupd (v_ctxs s) (v_cur s) (Some (set_c_ip INVALID (set_c_state CO_FINISHED (set_c_stack k c))))) s) as Et2.
  2: destruct (back_run s (set_c_ip INVALID (set_c_state CO_FINISHED (set_c_stack k c))) _ p d st rv Et2 Rc P N Hd Wd C F) as (k' & s' & E' & W' & C' & Sw).
  2: { exists k, k', s'. split; [exact E'|]. auto 10. }
  rewrite Et. vs. rewrite zupd_zupd. reflexivity.
Qed.

(** ** Creating a coroutine *)
Lemma push_slot_rs s l n t : rs s l n t -> 0 < n -> exists x t', push_slot t = Ok (zlen l, t') /\ rs s (l ++ [x]) 0 t'.
Proof.
  intros R Pn. destruct (rs_at _ _ _ _ R) as (k & A & W & C & N).
  assert (room t k = true) as Rm by (unfold room; destruct (Z.ltb_spec (k_size k) (k_cap k)); auto; lia).
  rewrite (push_slot_room _ _ A W Rm). pose proof (grown_wf _ _ W Rm) as Wg. pose proof (grown_size k) as Sg.
  pose proof (contents_len _ W) as L. rewrite C in L.
  pose proof (kw_size _ Wg). pose proof (kw_len _ Wg). pose proof (kw_size _ W).
  destruct (znth_in_range (k_vals (grown k)) (k_size k)) as [x X]; [lia|]. exists x. eexists.
  split; [rewrite L; reflexivity|]. destruct R as (c & k0 & H2 & W0 & C0 & N0 & ->). exists c, (grown k).
  split; [auto|]. split; [auto|]. split; [|split; [lia|apply with_stack_twice]].
  unfold contents. rewrite Sg. rewrite (firstn_snoc _ _ x X). rewrite grown_contents by auto. rewrite C. auto.
Qed.

Lemma copy_args_run2 k st v args : kwf k -> contents k = st ++ v :: args ->
  copy_args (mkK (k_vals k) (k_size k) (k_cap k) INVALID) (zlen args - 1) (zseq 0 (Z.to_nat (zlen args))) = Ok args.
Proof.
  intros W C. pose proof (contents_len _ W) as L. rewrite C, zlen_app, zlen_cons in L. pose proof (zlen_nonneg st). pose proof (zlen_nonneg args).
  pose proof (kw_size _ W). pose proof (kwf_cap _ W).
  assert (forall pre post, args = pre ++ post ->
    copy_args (mkK (k_vals k) (k_size k) (k_cap k) INVALID) (zlen args - 1) (zseq (zlen pre) (length post)) = Ok post) as Q.
  { intros pre post. revert pre. induction post as [|a post IH]; intros pre E; [reflexivity|].
    cbn [length zseq copy_args]. cbn [k_size k_vals k_mask].
    replace (k_size k - (zlen args - 1) - 1 + zlen pre) with (zlen (st ++ v :: pre)) by (rewrite zlen_app, zlen_cons; lia).
    assert (zlen (st ++ v :: pre) < k_size k) as Lt.
    { pose proof (f_equal zlen E) as EL. rewrite zlen_app, zlen_cons in EL. pose proof (zlen_nonneg post). rewrite zlen_app, zlen_cons. lia. }
    pose proof (zlen_nonneg (st ++ v :: pre)).
    rewrite u32_id by (unfold is_u32, W31, W32 in *; lia).
    replace (Z.land INVALID (zlen (st ++ v :: pre))) with (zlen (st ++ v :: pre)).
    2:{ change INVALID with (Z.ones 32). rewrite Z.land_comm, Z.land_ones by lia. symmetry. apply Z.mod_small. unfold W31 in *. lia. }
    assert (znth (k_vals k) (zlen (st ++ v :: pre)) = Some a) as V.
    { assert (znth (contents k) (zlen (st ++ v :: pre)) = Some a) as V.
      { rewrite C, E. change (st ++ v :: pre ++ a :: post) with (st ++ (v :: pre) ++ a :: post). rewrite app_assoc. apply znth_mid. }
      apply contents_znth in V as [V _]; auto. }
    unfold rd. rewrite V. cbn [bind].
    replace (zlen pre + 1) with (zlen (pre ++ [a])) by (rewrite zlen_app; reflexivity).
    rewrite (IH (pre ++ [a])); [reflexivity|]. rewrite <- app_assoc. exact E. }
  specialize (Q [] args eq_refl). cbn [zlen] in Q. unfold zlen at 2. rewrite Nat2Z.id. exact Q.
Qed.

Section Create.
Variables (s : vm) (c : ctx).
Hypothesis Hc : znth (v_ctxs s) (v_cur s) = Some (Some c).
Let ci := zlen (v_ctxs s).

Record cc (u : Z) (l : list value) (X : ctx) (t : vm) : Prop := {
  cc_eq : t = set_cur u (set_newcount (v_newcount t) (set_objs (v_objs t) (set_ctxs (v_ctxs t) s)));
  cc_len : zlen (v_ctxs t) = ci + 1;
  cc_here : exists k, znth (v_ctxs t) (v_cur s) = Some (Some (set_c_stack k c)) /\ kwf k /\ contents k = l;
  cc_new : znth (v_ctxs t) ci = Some (Some X);
  cc_rest : forall j, j <> v_cur s -> j <> ci -> znth (v_ctxs t) j = znth (v_ctxs s) j
}.
Lemma cc_range : 0 <= v_cur s < ci. Proof. apply (znth_some_range _ _ _ Hc). Qed.
Lemma cc_cur u l X t : cc u l X t -> v_cur t = u.
Proof. intro C. rewrite (cc_eq _ _ _ _ C). reflexivity. Qed.
Lemma cc_funcs u l X t : cc u l X t -> v_funcs t = v_funcs s /\ v_maxstack t = v_maxstack s /\ v_corotype t = v_corotype s /\ v_errs t = v_errs s.
Proof. intro C. rewrite (cc_eq _ _ _ _ C). auto. Qed.

Lemma cc_rs l X t l' n t' : cc (v_cur s) l X t -> rs t l' n t' -> cc (v_cur s) l' X t' /\ v_objs t' = v_objs t.
Proof.
  intros C R. pose proof (cc_cur _ _ _ _ C) as Cu. pose proof cc_range. destruct (rs_slots _ _ _ _ R) as (d & k & Hd & W & Ck & E).
  destruct C as [C1 C2 (k0 & C3 & _) C4 C5]. rewrite Cu, C3 in Hd. injection Hd as <-. rewrite Cu in E. subst t'.
  split; [split|]; vs; auto.
  - rewrite C1. reflexivity.
  - rewrite zlen_zupd. auto.
  - exists k. rewrite znth_zupd_same by lia. auto.
  - rewrite znth_zupd_other by lia. auto.
  - intros j N1 N2. rewrite znth_zupd_other by auto. auto.
Qed.
Lemma cc_rs_new l X t l' n t' : cc ci l X t -> rs t l' n t' -> exists k, kwf k /\ contents k = l' /\ cc ci l (set_c_stack k X) t' /\ v_objs t' = v_objs t.
Proof.
  intros C R. pose proof (cc_cur _ _ _ _ C) as Cu. pose proof cc_range. destruct (rs_slots _ _ _ _ R) as (d & k & Hd & W & Ck & E).
  destruct C as [C1 C2 (k0 & C3 & C3') C4 C5]. rewrite Cu, C4 in Hd. injection Hd as <-. rewrite Cu in E. subst t'.
  exists k. split; auto. split; auto. split; [split|]; vs; auto.
  - rewrite C1. reflexivity.
  - rewrite zlen_zupd. auto.
  - exists k0. rewrite znth_zupd_other by lia. auto.
  - rewrite znth_zupd_same by lia. auto.
  - intros j N1 N2. rewrite znth_zupd_other by auto. auto.
Qed.
Lemma cc_put u l X t X' : cc u l X t -> put_ctx ci X' t = Ok (tt, set_ctxs (zupd (v_ctxs t) ci (Some X')) t) /\
  cc u l X' (set_ctxs (zupd (v_ctxs t) ci (Some X')) t).
Proof.
  intro C. pose proof cc_range. destruct C as [C1 C2 (k0 & C3 & C3') C4 C5]. split; [eapply put_ctx_ok; eauto|]. split; vs; auto.
  - rewrite C1. reflexivity.
  - rewrite zlen_zupd. auto.
  - exists k0. rewrite znth_zupd_other by lia. auto.
  - rewrite znth_zupd_same by lia. auto.
  - intros j N1 N2. rewrite znth_zupd_other by auto. auto.
Qed.
Lemma cc_setcur u l X t u' : cc u l X t -> cc u' l X (set_cur u' t).
Proof. intros [C1 C2 C3 C4 C5]. split; auto. vs. rewrite C1. reflexivity. Qed.
Lemma cc_objs u l X t o n : cc u l X t -> cc u l X (set_newcount n (set_objs o t)).
Proof. intros [C1 C2 C3 C4 C5]. split; auto. rewrite C1. reflexivity. Qed.
Lemma cc_put_obj u l X t id o : cc u l X t -> cc u l X (put_obj id o t).
Proof. intros C. unfold put_obj. match goal with |- cc _ _ _ (set_objs ?o _) => pose proof (cc_objs _ _ _ _ o (v_newcount t) C) as Q end. destruct t. exact Q. Qed.
Lemma cc_stack u l X t : cc u l X t -> u = v_cur s -> stack_is t l.
Proof. intros C ->. pose proof (cc_cur _ _ _ _ C) as Cu. destruct (cc_here _ _ _ _ C) as (k & H & W & Ck). exists (set_c_stack k c). rewrite Cu. auto. Qed.
Lemma cc_stack_new l X t l' : cc ci l X t -> kwf (c_stack X) -> contents (c_stack X) = l' -> stack_is t l'.
Proof. intros C W Ck. pose proof (cc_cur _ _ _ _ C) as Cu. exists X. rewrite Cu. split; auto. apply (cc_new _ _ _ _ C). Qed.

Lemma cc_push l X t cst v : cc ci l X t -> kwf (c_stack X) -> contents (c_stack X) = cst -> fits s (cst ++ [v]) ->
  exists k t', push v t = Ok (tt, t') /\ kwf k /\ contents k = cst ++ [v] /\ cc ci l (set_c_stack k X) t' /\ v_objs t' = v_objs t.
Proof.
  intros C W Ck F. destruct (push_fits t cst v 0 t (rs_start _ _ (cc_stack_new _ _ _ _ C W Ck))) as (t' & E & R).
  { destruct (cc_funcs _ _ _ _ C) as (_ & M & _). unfold fits in *. rewrite M. exact F. }
  destruct (cc_rs_new _ _ _ _ _ _ C R) as (k & Wk & Kk & C' & O). exists k, t'. auto.
Qed.
Lemma cc_push_all l vs : forall X t cst, cc ci l X t -> kwf (c_stack X) -> contents (c_stack X) = cst -> fits s (cst ++ vs) ->
  exists k t', push_all vs t = Ok (tt, t') /\ kwf k /\ contents k = cst ++ vs /\ cc ci l (set_c_stack k X) t' /\ v_objs t' = v_objs t.
Proof.
  induction vs as [|v vs IH]; intros X t cst C W Ck F; cbn [push_all].
  - exists (c_stack X), t. split; [reflexivity|]. rewrite app_nil_r. split; auto. split; auto. split; auto.
    replace (set_c_stack (c_stack X) X) with X by (destruct X; reflexivity). exact C.
  - destruct (cc_push l X t cst v C W Ck) as (k & t' & E & Wk & Kk & C' & O).
    { eapply fits_sub; [|exact F]. rewrite !zlen_app, !zlen_cons, zlen_nil. pose proof (zlen_nonneg vs). lia. }
    rewrite (bind_run _ _ _ _ _ E). destruct (IH (set_c_stack k X) t' (cst ++ [v]) C') as (k2 & t2 & E2 & W2 & K2 & C2 & O2); auto.
    { rewrite <- app_assoc. exact F. }
    exists k2, t2. split; auto. split; auto. rewrite K2, <- app_assoc. split; auto. split; [exact C2|congruence].
Qed.

Lemma create_run host st fv args f : vm_ok s -> stack_is s (st ++ call_frame fv args) ->
  function_is s fv f -> f_ext f = INVALID -> accepts (f_argc f) (zlen args) ->
  fits s (call_frame fv args ++ [vint INVALID]) -> (exists j, 0 <= j < W31 /\ get_obj s j = None) ->
  exists id k X t, op_coroutine_create host s = Ok (tt, t) /\ get_obj s id = None /\ v_cur t = v_cur s /\ cc (v_cur s) (st ++ [vobj id]) X t /\
    kwf k /\ X = mkC k (u32 (f_first f - 1)) None (vobj id) CO_CREATED /\ contents k = call_frame fv args ++ [vint INVALID] /\
    coroutine t (vobj id) ci /\ (forall j, j <> id -> get_obj t j = get_obj s j).
Proof.
  intros V S Fi X Ac F (fr & Fr & Gr). pose proof cc_range as Rg. unfold op_coroutine_create.
  pose proof (rs_start _ _ S) as R0. rewrite frame_split in R0. destruct (pop_rs _ _ _ _ _ R0) as (t1 & E1 & R1).
  rewrite (bind_run _ _ _ _ _ E1). pose proof (zlen_nonneg args). pose proof (zlen_nonneg st).
  pose proof (rs_len _ _ _ _ R0) as Ln. repeat rewrite ?zlen_app, ?zlen_cons, ?zlen_nil in Ln.
  assert (to_int (vint (zlen args)) t1 = Ok (zlen args, t1)) as TI.
  { unfold to_int. cbn [v_type vint]. change (T_INT =? T_INT) with true. cbv iota. unfold v_int, vint. cbn [v_data].
    rewrite s32_of_u32. rewrite s32_id; auto. unfold is_s32, W31 in *. lia. }
  rewrite (bind_run _ _ _ _ _ TI). destruct (Z.ltb_spec (zlen args) 0); [lia|].
  destruct (rs_at _ _ _ _ R1) as (k1 & (c1 & Hc1 & Ec1) & W1 & C1 & _). rewrite (bind_run _ _ _ _ _ (cur_ctx_ok _ _ Hc1)). cbv zeta. rewrite Ec1.
  pose proof (contents_len _ W1) as L1. rewrite C1, zlen_app, zlen_cons in L1.
  destruct (Z.ltb_spec (k_size k1) (zlen args)); [lia|].
  unfold mbind at 1, lift at 1. rewrite (copy_args_run2 k1 st fv args W1 C1).
  replace (st ++ fv :: args) with ((st ++ [fv]) ++ args) in R1 by (rewrite <- app_assoc; reflexivity).
  destruct (pop_n_rs _ _ _ _ _ R1) as (t2 & E2 & R2). rewrite (bind_run _ _ _ _ _ E2).
  destruct (pop_rs _ _ _ _ _ R2) as (t3 & E3 & R3). rewrite (bind_run _ _ _ _ _ E3).
  destruct (push_slot_rs _ _ _ _ R3) as (x & t4 & E4 & R4); [lia|]. rewrite (bind_run _ _ _ _ _ E4).
  unfold mbind at 1, self at 1, gets at 1. unfold mbind at 1, modify at 1.
  destruct (rs_slots _ _ _ _ R4) as (c4 & k4 & Hc4 & W4 & C4 & Et4). rewrite Hc in Hc4. injection Hc4 as <-.
  assert (zlen (v_ctxs t4) = ci) as Eci by (rewrite Et4; vs; rewrite zlen_zupd; reflexivity). rewrite Eci.
  set (ta := set_ctxs (v_ctxs t4 ++ [Some ctx_init]) t4).
  assert (cc (v_cur s) (st ++ [x]) ctx_init ta) as Ca.
  { unfold ta. split; vs.
    - rewrite Et4. reflexivity.
    - rewrite zlen_app, Eci. reflexivity.
    - exists k4. rewrite znth_app_l by lia. rewrite Et4. vs. rewrite znth_zupd_same by auto. auto.
    - rewrite znth_app_r by lia. rewrite Eci, Z.sub_diag. reflexivity.
    - intros j N1 N2. destruct (Z.ltb_spec j ci).
      + rewrite znth_app_l by lia. rewrite Et4. vs. apply znth_zupd_other. auto.
      + rewrite (znth_out (v_ctxs s)) by (fold ci; lia). apply znth_out. rewrite zlen_app. change (zlen [Some ctx_init]) with 1. lia. }
  assert (v_objs ta = v_objs s) as Oa. { unfold ta. vs. rewrite Et4. reflexivity. }
  (* the coroutine object *)
  assert (exists id tb, coroutine_object ci (zlen st) ta = Ok (true, tb) /\ get_obj s id = None /\
    cc (v_cur s) (st ++ [vobj id]) (mkC stack_init 0 None (vobj id) CO_CREATED) tb /\ coroutine tb (vobj id) ci /\
    (forall j, j <> id -> get_obj tb j = get_obj s j)) as (id & tb & Eb & Fresh & Cb & Cob & Oth).
  { unfold coroutine_object.
    pose proof (rs_start _ _ (cc_stack _ _ _ _ Ca eq_refl)) as Ra.
    destruct (slot_rs _ _ _ _ _ _ Ra) as (ka & _ & _ & _ & Ga & Sa). rewrite (bind_run _ _ _ _ _ Ga).
    destruct (Sa (mkV T_OBJ (v_data x))) as (t5 & E5 & R5 & _). rewrite (bind_run _ _ _ _ _ E5).
    destruct (cc_rs _ _ _ _ _ _ Ca R5) as (C5 & O5).
    destruct (create_object_ok t5) as (id & t6 & E6 & Cr).
    { rewrite O5, Oa. destruct V as (b & Wv). apply (w_tab _ _ _ Wv). }
    { destruct (cc_here _ _ _ _ C5) as (k5 & Q & _). rewrite (cc_cur _ _ _ _ C5). eexists. exact Q. }
    rewrite (bind_run _ _ _ _ _ E6).
    assert (forall j, get_obj t5 j = get_obj s j) as G5 by (intro j; unfold get_obj; rewrite O5, Oa; reflexivity).
    destruct Cr as [(tb & nn & Et6 & Wtb & Fresh & _ & G6)|(_ & _ & Full)].
    2:{ exfalso. destruct (Full fr Fr) as (o & Ho). rewrite G5 in Ho. congruence. }
    rewrite G5 in Fresh.
    pose proof (cc_objs _ _ _ _ tb nn C5) as C6. rewrite <- Et6 in C6.
    assert (forall j, get_obj t6 j = if j =? id then Some (new_obj id) else get_obj s j) as G6'.
    { intro j. unfold get_obj at 1. rewrite Et6. vs. rewrite G6. destruct (j =? id); auto. }
    pose proof (rs_start _ _ (cc_stack _ _ _ _ C6 eq_refl)) as R6.
    destruct (slot_rs _ _ _ _ _ _ R6) as (k6 & _ & _ & _ & _ & S6). destruct (S6 (vobj id)) as (t7 & E7 & R7 & _). rewrite (bind_run _ _ _ _ _ E7).
    destruct (cc_rs _ _ _ _ _ _ C6 R7) as (C7 & O7).
    rewrite (bind_run _ _ _ _ _ (get_ctx_ok _ _ _ (cc_new _ _ _ _ C7))).
    destruct (cc_put _ _ _ _ (set_c_state CO_CREATED (set_c_obj (vobj id) ctx_init)) C7) as (E8 & C8). rewrite (bind_run _ _ _ _ _ E8).
    set (t8 := set_ctxs _ t7) in *.
    assert (forall j, get_obj t8 j = if j =? id then Some (new_obj id) else get_obj s j) as G8.
    { intro j. rewrite <- G6'. unfold get_obj, t8. vs. rewrite O7. reflexivity. }
    assert (get_obj t8 id = Some (new_obj id)) as H8 by (rewrite G8, Z.eqb_refl; auto).
    destruct (cc_funcs _ _ _ _ C8) as (_ & _ & Ct8 & _).
    unfold mbind at 1, gets at 1. rewrite Ct8.
    set (t9 := put_obj id (set_o_ext (v_corotype s) (new_obj id)) t8).
    assert (tab_wf (v_objs t8)) as Wt8. { unfold t8. vs. rewrite O7, Et6. vs. auto. }
    assert (forall j, get_obj t9 j = if j =? id then Some (set_o_ext (v_corotype s) (new_obj id)) else get_obj t8 j) as G9.
    { intro j. unfold t9. apply (put_obj_wf t8 id _ _ Wt8 H8). }
    assert (set_ext_type (vobj id) (v_corotype s) t8 = Ok (true, t9)) as E9.
    { unfold set_ext_type. unfold mbind at 1, gets at 1. unfold obj_of_value. cbn [v_type v_data vobj]. change (T_OBJ =? T_OBJ) with true. cbv iota.
      rewrite H8. rewrite (bind_run _ _ _ _ _ (rd_obj_ok _ _ _ H8)). rewrite (bind_run _ _ _ _ _ (wr_obj_ok _ _ _ _ H8)). reflexivity. }
    rewrite (bind_run _ _ _ _ _ E9).
    assert (get_obj t9 id = Some (set_o_ext (v_corotype s) (new_obj id))) as H9 by (rewrite G9, Z.eqb_refl; auto).
    set (t10 := put_obj id (set_o_data (Some ci) (set_o_ext (v_corotype s) (new_obj id))) t9).
    assert (set_ext_data (vobj id) (Some ci) t9 = Ok (true, t10)) as E10.
    { unfold set_ext_data. unfold mbind at 1, gets at 1. unfold obj_of_value. cbn [v_type v_data vobj]. change (T_OBJ =? T_OBJ) with true. cbv iota.
      rewrite H9. rewrite (bind_run _ _ _ _ _ (rd_obj_ok _ _ _ H9)). rewrite (bind_run _ _ _ _ _ (wr_obj_ok _ _ _ _ H9)). reflexivity. }
    rewrite (bind_run _ _ _ _ _ E10). cbn [negb].
    pose proof (cc_put_obj _ _ _ _ id (set_o_ext (v_corotype s) (new_obj id)) C8) as C9.
    pose proof (cc_put_obj _ _ _ _ id (set_o_data (Some ci) (set_o_ext (v_corotype s) (new_obj id))) C9) as C10.
    fold t9 in C10. fold t10 in C10.
    assert (tab_wf (v_objs t9)) as Wt9 by (apply (put_obj_wf t8 id _ _ Wt8 H8)).
    assert (forall j, get_obj t10 j = if j =? id then Some (set_o_data (Some ci) (set_o_ext (v_corotype s) (new_obj id))) else get_obj t9 j) as G10.
    { intro j. unfold t10. apply (put_obj_wf t9 id _ _ Wt9 H9). }
    exists id, t10. split; [reflexivity|]. split; [auto|]. split; [exact C10|]. split.
    - split; [reflexivity|]. eexists. cbn [v_data vobj]. rewrite G10, Z.eqb_refl. split; [reflexivity|].
      destruct (cc_funcs _ _ _ _ C10) as (_ & _ & -> & _). split; reflexivity.
    - intros j Nj. apply Z.eqb_neq in Nj. rewrite G10, Nj, G9, Nj, G8, Nj. reflexivity. }
  rewrite (bind_run _ _ _ _ _ Eb).
  (* into the new context *)
  pose proof (cc_cur _ _ _ _ Cb) as Cub.
  destruct (cc_put _ _ _ _ (set_c_parent (Some (v_cur s)) (mkC stack_init 0 None (vobj id) CO_CREATED)) Cb) as (Ep & Cp).
  assert (push_context ci tb = Ok (tt, set_cur ci (set_ctxs (zupd (v_ctxs tb) ci (Some (set_c_parent (Some (v_cur s)) (mkC stack_init 0 None (vobj id) CO_CREATED)))) tb))) as Epc.
  { unfold push_context. rewrite (bind_run _ _ _ _ _ (get_ctx_ok _ _ _ (cc_new _ _ _ _ Cb))). cbn [c_parent]. unfold mbind at 1, gets at 1. rewrite Cub.
    rewrite (bind_run _ _ _ _ _ Ep). reflexivity. }
  rewrite (bind_run _ _ _ _ _ Epc). pose proof (cc_setcur _ _ _ _ ci Cp) as Cpc. set (tc := set_cur ci _) in *.
  assert (v_objs tc = v_objs tb) as Oc by reflexivity. clearbody tc.
  assert (kwf stack_init /\ contents stack_init = []) as [Wi Ci].
  { split; [|reflexivity]. apply stack_init_wf. }
  assert (forall l, zlen l <= zlen (call_frame fv args ++ [vint INVALID]) -> fits s l) as Fs by (intros l Ll; eapply fits_sub; eauto).
  assert (zlen (call_frame fv args ++ [vint INVALID]) = zlen args + 3) as LF.
  { unfold call_frame. repeat rewrite ?zlen_app, ?zlen_cons, ?zlen_nil. cbn [app]. repeat rewrite ?zlen_app, ?zlen_cons, ?zlen_nil. lia. }
  destruct (cc_push _ _ _ [] fv Cpc Wi Ci) as (k5 & t5 & E5 & W5 & K5 & C5 & O5); [apply Fs; rewrite LF; repeat rewrite ?zlen_app, ?zlen_cons, ?zlen_nil; lia|].
  rewrite (bind_run _ _ _ _ _ E5).
  destruct (cc_push_all _ args _ _ [fv] C5 W5 K5) as (k6 & t6 & E6 & W6 & K6 & C6 & O6); [apply Fs; rewrite LF; repeat rewrite ?zlen_app, ?zlen_cons, ?zlen_nil; lia|].
  rewrite (bind_run _ _ _ _ _ E6). unfold push_int.
  destruct (cc_push _ _ _ ([fv] ++ args) (vint (zlen args)) C6 W6 K6) as (k7 & t7 & E7 & W7 & K7 & C7 & O7); [apply Fs; rewrite LF; repeat rewrite ?zlen_app, ?zlen_cons, ?zlen_nil; lia|].
  rewrite (bind_run _ _ _ _ _ E7). rewrite (bind_run _ _ _ _ _ (get_ctx_ok _ _ _ (cc_new _ _ _ _ C7))).
  cs. match goal with |- context[put_ctx ci ?Y] => destruct (cc_put _ _ _ _ Y C7) as (E8 & C8) end.
  rewrite (bind_run _ _ _ _ _ E8). set (t8 := set_ctxs _ t7) in *. assert (v_objs t8 = v_objs t7) as O8 by reflexivity. clearbody t8.
  assert (contents k7 = call_frame fv args) as K7' by (rewrite K7, <- app_assoc; reflexivity).
  assert (stack_is t8 ([] ++ call_frame fv args)) as S8. { eapply cc_stack_new; eauto. }
  pose proof (rs_start _ _ S8) as R8.
  assert (v_type fv <> T_OBJ) as NT by (destruct Fi as [-> _]; discriminate).
  destruct (cc_funcs _ _ _ _ C8) as (Fu8 & Mx8 & _).
  destruct (script_run host t8 [] fv args _ _ fv f INVALID R8) as (t9 & E9 & Mv); auto.
  { destruct Fi. split; auto. rewrite Fu8. auto. }
  { eexists. rewrite (cc_cur _ _ _ _ C8). split; [apply (cc_new _ _ _ _ C8)|reflexivity]. }
  { unfold fits in *. rewrite Mx8. exact F. }
  assert (op_call host t8 = Ok (tt, t9)) as E9'.
  { rewrite (call_start host _ _ _ _ _ _ R8). rewrite (bind_run _ _ _ _ _ (resolve_end (Some fv) fv 10 _ _ (or_introl eq_refl) NT)). exact E9. }
  rewrite (bind_run _ _ _ _ _ E9').
  destruct Mv as (c9 & k9 & Hc9 & W9 & K9 & Et9). rewrite (cc_cur _ _ _ _ C8) in Hc9, Et9.
  rewrite (cc_new _ _ _ _ C8) in Hc9. injection Hc9 as <-.
  destruct (cc_put _ _ _ _ (set_c_ip (u32 (f_first f - 1)) (set_c_stack k9 (set_c_ip INVALID (set_c_stack k7 (set_c_stack k6 (set_c_stack k5 (set_c_parent (Some (v_cur s)) (mkC stack_init 0 None (vobj id) CO_CREATED)))))))) C8) as (_ & C9).
  rewrite <- Et9 in C9.
  unfold pop_context. unfold mbind at 1, gets at 1. rewrite (cc_cur _ _ _ _ C9). rewrite (bind_run _ _ _ _ _ (get_ctx_ok _ _ _ (cc_new _ _ _ _ C9))).
  cs. unfold mbind at 1, modify at 1. pose proof (cc_setcur _ _ _ _ (v_cur s) C9) as C10.
  match goal with |- context[put_ctx ci ?Y] => destruct (cc_put _ _ _ _ Y C10) as (E11 & C11) end.
  rewrite E11. exists id, k9. eexists _, _. split; [reflexivity|]. split; [auto|]. split; [exact (cc_cur _ _ _ _ C11)|]. split; [exact C11|]. split; [auto|].
  split; [reflexivity|]. split; [exact K9|].
  assert (v_objs t9 = v_objs tb) as O9. { rewrite Et9. vs. congruence. }
  split.
  - destruct Cob as (T & o & G & Q1 & Q2). split; auto. exists o. split; [|split; auto].
    + unfold get_obj in *. vs. rewrite O9. auto.
    + destruct (cc_funcs _ _ _ _ C11) as (_ & _ & -> & _). destruct (cc_funcs _ _ _ _ Cb) as (_ & _ & <- & _). auto.
  - intros j Nj. rewrite <- (Oth j Nj). unfold get_obj. vs. rewrite O9. reflexivity.
Qed.
End Create.

(** ** Finished contexts wait for nobody *)
Definition settled (s : vm) : Prop := forall i c, i <> 0 -> znth (v_ctxs s) i = Some (Some c) -> c_state c = CO_FINISHED -> c_parent c = None.
Lemma settled_step s s' : vm_ok s -> settled s -> cstep s s' -> settled s'.
Proof.
  intros V S C i c' N H' F.
  assert (forall x, znth (v_ctxs s) i = Some x -> touched x (Some c') -> c_parent c' = None) as T.
  { intros [c|] Hx K; [|destruct K]. cbn in K. destruct K as (P & _ & Q). rewrite P. apply (S i c); auto. congruence. }
  assert (forall x, znth (v_ctxs s) i = Some x -> kept x (Some c') -> c_parent c' = None) as T2.
  { intros x Hx K. apply (T x); auto. apply kept_touched; auto. }
  assert (forall y, znth (v_ctxs s') i = Some y -> y = Some c') as U by congruence.
  destruct (Z_lt_le_dec i (zlen (v_ctxs s))) as [L|L].
  - assert (exists x, znth (v_ctxs s) i = Some x) as (x & Hx).
    { apply znth_in_range. pose proof (znth_some_range _ _ _ H'). lia. }
    destruct C as [C1 C2 Fr C3|d C1 C2 C3 Fr C4|d C1 C2 C3 C4 C5 Fr C6].
    + destruct (C3 _ _ Hx) as (y & Hy & K). apply U in Hy. subst y. destruct (i =? v_cur s); [destruct K as [K|[_ K]]|]; eauto.
      destruct x; [apply K|destruct K].
    + destruct (C4 _ _ Hx) as (y & Hy & K). apply U in Hy. subst y. destruct (parent_live _ _ _ V C1 C2) as (Np & _).
      destruct (i =? v_cur s'); [|destruct (i =? v_cur s)]; eauto.
      * destruct K as [K|K]; [eauto|congruence].
      * destruct x; [apply K|destruct K].
    + destruct (C6 _ _ Hx) as (y & Hy & K). apply U in Hy. subst y.
      destruct (Z.eqb_spec i (v_cur s')) as [Q|Q]; [|destruct (i =? v_cur s)]; eauto.
      destruct K as [[_ K]|K]; [destruct (K F)|]. exfalso. rewrite K in C1. rewrite K in Q. apply (cur_parent _ _ V C1); congruence.
  - destruct C as [C1 C2 Fr C3|d C1 C2 C3 Fr C4|d C1 C2 C3 C4 C5 Fr C6]; eauto.
Qed.
Lemma goes_settled hostmark prog s l s' : vm_ok s -> goes hostmark (api_host hostmark prog) s l s' -> settled s -> settled s'.
Proof.
  intros V G. induction G as [s|s s1 l s' N Gp E G IH]; auto. intro S.
  pose proof (C18_step_safe hostmark prog s V N Gp) as Q. rewrite E in Q. apply (IH Q).
  exact (settled_step _ _ V S (c_iterate _ (l_api_host hostmark prog) hostmark _ _ _ E)).
Qed.

(** ** The chain of waiting contexts *)
Lemma chain_follow cs cs' i l : chain cs i l -> forall l', chain cs' i l' ->
  (forall j c c', In j l -> znth cs j = Some (Some c) -> znth cs' j = Some (Some c') -> c_parent c' = c_parent c) ->
  forall j, In j l -> exists c', znth cs' j = Some (Some c').
Proof.
  induction 1 as [c0 H1 H2|i c0 p l N H1 H2 C IH NI]; intros l' C' K j J.
  - destruct J as [<-|[]]. eapply chain_live; eauto.
  - destruct J as [<-|J]; [eapply chain_live; eauto|].
    inversion C' as [c1 A1 A2|? c1 q l1 N1 A1 A2 C1 NI1]; subst; [congruence|].
    rewrite (K i c0 c1 (or_introl eq_refl) H1 A1), H2 in A2. injection A2 as <-. apply (IH l1); auto.
    intros k c c' I. apply K. right. auto.
Qed.
Lemma chain_root cs i l : chain cs i l -> forall c, znth cs 0 = Some (Some c) -> c_parent c = None.
Proof. induction 1; intros; [congruence|auto]. Qed.

Lemma waiting_step s s' i c : vm_ok s -> vm_ok s' -> cstep s s' -> znth (v_ctxs s) i = Some (Some c) ->
  (c_parent c <> None \/ i = 0) -> (v_cur s = i -> c_parent c <> Some (v_cur s')) ->
  exists c', znth (v_ctxs s') i = Some (Some c') /\ c_parent c' = c_parent c.
Proof.
  intros V V' C Hc P NP.
  assert (forall c', znth (v_ctxs s') i = Some (Some c') -> c_parent c' = c_parent c) as Same.
  { intros c' Hc'. destruct (cstep_parent _ _ _ _ _ C Hc Hc') as [Q|[[Q1 Q2]|[Q1 Q2]]]; auto.
    - destruct (NP Q1 Q2).
    - destruct P as [P| ->]; [congruence|]. rewrite Q2. destruct V' as (b' & W'). destruct (w_chain _ _ _ W') as (l' & C' & _). eapply chain_root; eauto. }
  enough (exists c', znth (v_ctxs s') i = Some (Some c')) as (c' & Hc') by eauto.
  destruct V as (b & W). destruct (w_chain _ _ _ W) as (l & Ch & All). destruct V' as (b' & W'). destruct (w_chain _ _ _ W') as (l' & Ch' & All').
  assert (In i l) as I.
  { destruct P as [P| ->]; [eapply All; eauto|]. clear -Ch. induction Ch; [left; auto|right; auto]. }
  assert (forall j d d', In j l -> v_cur s <> j \/ c_parent d <> Some (v_cur s') -> znth (v_ctxs s) j = Some (Some d) -> znth (v_ctxs s') j = Some (Some d') -> c_parent d' = c_parent d) as Par.
  { intros j d d' J O Hd Hd'. destruct (cstep_parent _ _ _ _ _ C Hd Hd') as [Q|[[Q1 Q2]|[Q1 Q2]]]; auto; [intuition|].
    destruct (Z.eq_dec j 0) as [-> |Nj]; [rewrite Q2; eapply chain_root; eauto|].
    destruct (chain_parent _ _ _ Ch _ _ J Nj Hd) as (q & Pq & _). congruence. }
  assert (v_cur s' = v_cur s -> exists c', znth (v_ctxs s') i = Some (Some c')) as QQ.
  { intro Q. rewrite Q in *. refine (chain_follow _ _ _ _ Ch l' Ch' _ i I). intros j d d' J Hd Hd'. apply (Par j d d'); auto.
    right. exact (chain_no_child _ _ _ Ch _ _ J Hd). }
  destruct (Z.eq_dec (v_cur s') (v_cur s)) as [Q|Nq]; [auto|]. clear QQ.
  destruct C as [D1 D2 Fr D3|d Hd Pd D3 Fr D4|d Hd Pd D3 D4 D5 Fr D6]; [congruence| |].
  - inversion Ch as [c0 H1 H2|? c0 p l1 N H1 H2 C1 NI]; subst; [congruence|].
    assert (c0 = d) as -> by congruence. assert (p = v_cur s') as -> by congruence.
    destruct I as [I|I]; [subst i; exfalso; apply NP; congruence|].
    eapply (chain_follow _ _ _ _ C1); eauto. intros j e e' J He He'. apply (Par j e e'); [right; auto|left; intros <-; auto|auto|auto].
  - assert (exists l1, chain (v_ctxs s') (v_cur s) l1) as (l1 & C1).
    { destruct (D6 _ _ Hd) as (y & Hy & K). rewrite Z.eqb_refl in K. destruct K as [[K _]|K]; [|congruence].
      destruct (chain_live _ _ _ Ch') as (c' & Hc'). rewrite Hc' in Hy. injection Hy as <-. destruct K as [K1 K2].
      inversion Ch' as [c1 A1 A2 A3|? c1 q l2 N1 A1 A2 C1 NI1]; subst.
      - rewrite <- A3 in Hc'. congruence.
      - assert (c1 = c') as -> by congruence. assert (q = v_cur s) as -> by congruence. eauto. }
    eapply (chain_follow _ _ _ _ Ch); eauto. intros j e e' J He He'. destruct (Z.eq_dec (v_cur s) j) as [Qj|Qj]; [|apply (Par j e e'); auto].
    subst j. destruct (D6 _ _ He) as (y & Hy & K). rewrite He' in Hy. injection Hy as <-. rewrite Z.eqb_refl in K.
    destruct (Z.eqb_spec (v_cur s) (v_cur s')); [congruence|]. apply K.
Qed.

(** While [p] waits for [i]. *)
Lemma goes_waiting hostmark prog s l s' i p c d : vm_ok s -> goes hostmark (api_host hostmark prog) s l s' -> sleeps p l s' ->
  znth (v_ctxs s) i = Some (Some c) -> c_parent c = Some p -> znth (v_ctxs s) p = Some (Some d) ->
  exists c', znth (v_ctxs s') i = Some (Some c') /\ c_parent c' = Some p /\ znth (v_ctxs s') p = Some (Some d).
Proof.
  intros V G. revert c. induction G as [s|s s1 l s' N Gp E G IH]; intros c [F L] Hc P Hd; [eauto|].
  inversion F as [|? ? F1 F2]; subst.
  assert (v_cur s1 <> p) as N1. { destruct G; auto. inversion F2; auto. }
  pose proof (C18_step_safe hostmark prog s V N Gp) as V1. rewrite E in V1.
  pose proof (c_iterate _ (l_api_host hostmark prog) hostmark _ _ _ E) as C.
  destruct (waiting_step _ _ _ _ V V1 C Hc) as (c' & Hc' & P'); [left; congruence|intros _; congruence|].
  destruct (waiting_step _ _ _ _ V V1 C Hd) as (d' & Hd' & Pd').
  { destruct (Z.eq_dec p 0) as [-> |Np]; [auto|left]. destruct V as (b & W). destruct (w_chain _ _ _ W) as (l0 & Ch & All).
    assert (In i l0) as I by (eapply All; eauto; congruence).
    assert (i <> 0) as Ni by (intros ->; pose proof (chain_root _ _ _ Ch _ Hc); congruence).
    destruct (chain_parent _ _ _ Ch _ _ I Ni Hc) as (q & Pq & Iq). assert (q = p) as -> by congruence.
    destruct (chain_parent _ _ _ Ch _ _ Iq Np Hd) as (r & Pr & _). congruence. }
  { intros Q. congruence. }
  destruct (cstep_sleep _ _ p _ C F1 N1 Hd) as (y & Hy & K). rewrite Hd' in Hy. injection Hy as <-. destruct K as [K|K]; [|discriminate]. injection K as ->.
  apply (IH V1 c'); [split; auto|auto|congruence|auto].
Qed.

(** Only a context it resumed brings back a waiting context. *)
Lemma back_from s s' i p c d : vm_ok s -> vm_ok s' -> cstep s s' -> znth (v_ctxs s) i = Some (Some c) -> c_parent c = Some p ->
  znth (v_ctxs s) p = Some (Some d) -> v_cur s <> p -> v_cur s' = p -> v_cur s = i.
Proof.
  intros V V' C Hc P Hd N N'. destruct V as (b & W). destruct (w_chain _ _ _ W) as (l & Ch & All).
  assert (In i l) as I by (eapply All; eauto; congruence).
  assert (i <> 0) as Ni by (intros ->; pose proof (chain_root _ _ _ Ch _ Hc); congruence).
  destruct C as [D1 D2 Fr D3|e He Pe D3 Fr D4|e He Pe D3 D4 D5 Fr D6]; [congruence| |].
  - eapply (chain_child _ _ _ Ch (v_cur s) i); eauto; [eapply chain_head; eauto|congruence].
  - exfalso. rewrite N' in *. assert (e = d) as -> by congruence.
    destruct (Z.eq_dec p 0) as [-> |Np].
    + destruct (D6 _ _ He) as (y & Hy & K). rewrite Z.eqb_refl in K. destruct K as [[K _]|K]; [|congruence].
      destruct V' as (b' & W'). destruct (w_chain _ _ _ W') as (l' & Ch' & _). rewrite N' in Ch'. destruct (chain_live _ _ _ Ch') as (c' & Hc').
      rewrite Hc' in Hy. injection Hy as <-. destruct K as [K _]. pose proof (chain_root _ _ _ Ch' _ Hc'). congruence.
    + destruct (chain_parent _ _ _ Ch _ _ I Ni Hc) as (q & Pq & Iq). assert (q = p) as -> by congruence.
      destruct (chain_parent _ _ _ Ch _ _ Iq Np Hd) as (r & Pr & _). congruence.
Qed.

(** Resuming enters the coroutine or nothing. *)
Lemma resume_cur s u s' : op_resume s = Ok (u, s') -> v_cur s' = v_cur s \/
  forall c, znth (v_ctxs s') (v_cur s') = Some (Some c) -> c_parent c = Some (v_cur s).
Proof.
  intro E. unfold op_resume in E.
  assert (forall T (m : M T) (k : T -> M unit) t, mbind m k t = Ok (u, s') -> lcl true m -> v_cur t = v_cur s ->
    exists x t', k x t' = Ok (u, s') /\ v_cur t' = v_cur s) as St.
  { intros T m k t Em Lm Q. destruct (bind_inv _ _ _ _ _ Em) as (x & t' & E1 & E2). exists x, t'. split; auto.
    rewrite (lc_cur _ _ _ (Lm _ _ _ E1)). auto. }
  assert (forall (m : M unit) t, m t = Ok (u, s') -> lcl true m -> v_cur t = v_cur s -> v_cur s' = v_cur s) as Fin.
  { intros m t Em Lm Q. rewrite (lc_cur _ _ _ (Lm _ _ _ Em)). auto. }
  apply St in E; [|solve [loc]|auto]. destruct E as (v & t1 & E & Q1).
  apply St in E; [|solve [loc]|auto]. destruct E as (co & t2 & E & Q2).
  apply St in E; [|solve [loc]|auto]. destruct E as (ty & t3 & E & Q3).
  apply St in E; [|solve [loc]|auto]. destruct E as (oty & t4 & E & Q4).
  destruct (negb _); [left; eapply Fin; eauto; solve [loc]|].
  apply St in E; [|solve [loc]|auto]. destruct E as (d & t5 & E & Q5).
  destruct d as [ci|]; [|discriminate].
  destruct (bind_inv _ _ _ _ _ E) as (c & t6 & E1 & E2). apply get_ctx_inv in E1. destruct E1 as [-> Hc].
  destruct (_ =? _); [left; eapply Fin; eauto; solve [loc]|]. destruct (_ =? _); [left; eapply Fin; eauto; solve [loc]|].
  destruct (c_parent c) as [p|] eqn:P; [left; eapply Fin; eauto; solve [loc]|]. right.
  destruct (bind_inv _ _ _ _ _ E2) as (y & s2 & E3 & E4).
  destruct (push_context_inv _ _ _ _ E3) as (c' & Hc' & [[P' _]|[_ Es2]]); rewrite Hc in Hc'; injection Hc' as <-; [congruence|].
  pose proof (znth_some_range _ _ _ Hc) as R.
  assert (znth (v_ctxs s2) ci = Some (Some (set_c_parent (Some (v_cur s)) c))) as H2.
  { rewrite Es2. vs. rewrite Q5. apply znth_zupd_same; auto. }
  assert (v_cur s2 = ci) as C2 by (rewrite Es2; reflexivity).
  destruct (c_state c =? CO_CREATED).
  - rewrite (bind_run _ _ _ _ _ (get_ctx_ok _ _ _ H2)), (put_ctx_ok _ _ _ _ H2) in E4. injection E4 as _ <-. vs. rewrite C2.
    rewrite znth_zupd_same by apply (znth_some_range _ _ _ H2). intros c2 H. injection H as <-. reflexivity.
  - destruct (c_state c =? CO_RUNNING).
    + pose proof (l_push _ _ _ _ E4) as L. rewrite (lc_cur _ _ _ L), C2. intros c2 Hz.
      destruct (lc_back _ _ L _ _ Hz) as (c3 & H3 & K & _). rewrite H2 in H3. injection H3 as <-. rewrite K. reflexivity.
    + unfold ret in E4. injection E4 as _ <-. rewrite C2. intros c2 Hz. rewrite H2 in Hz. injection Hz as <-. reflexivity.
Qed.
Lemma create_cur host s u s' : (forall cb args, lcl true (host cb args)) -> op_coroutine_create host s = Ok (u, s') -> v_cur s' = v_cur s.
Proof.
  intros Hh E. unfold op_coroutine_create in E.
  assert (forall T (m : M T) (k : T -> M unit) t, mbind m k t = Ok (u, s') -> lcl true m -> v_cur t = v_cur s ->
    exists x t', k x t' = Ok (u, s') /\ v_cur t' = v_cur s) as St.
  { intros T m k t Em Lm Q. destruct (bind_inv _ _ _ _ _ Em) as (x & t' & E1 & E2). exists x, t'. split; auto.
    rewrite (lc_cur _ _ _ (Lm _ _ _ E1)). auto. }
  assert (forall (m : M unit) t, m t = Ok (u, s') -> lcl true m -> v_cur t = v_cur s -> v_cur s' = v_cur s) as Fin.
  { intros m t Em Lm Q. rewrite (lc_cur _ _ _ (Lm _ _ _ Em)). auto. }
  apply St in E; [|solve [loc]|auto]. destruct E as (v & t1 & E & Q1).
  apply St in E; [|solve [loc]|auto]. destruct E as (co & t2 & E & Q2).
  destruct (_ <? 0); [eapply Fin; eauto; solve [loc]|].
  apply St in E; [|solve [loc]|auto]. destruct E as (pc & t3 & E & Q3). cbv zeta in E.
  destruct (_ <? _); [eapply Fin; eauto; solve [loc]|].
  apply St in E; [|solve [loc]|auto]. destruct E as (args & t4 & E & Q4).
  apply St in E; [|solve [loc]|auto]. destruct E as (x5 & t5 & E & Q5).
  apply St in E; [|solve [loc]|auto]. destruct E as (x6 & t6 & E & Q6).
  destruct (bind_inv _ _ _ _ _ E) as (out & s1 & E1 & E2). pose proof (l_push_slot _ _ _ E1) as L.
  unfold mbind at 1, self at 1, gets at 1 in E2. cbv zeta in E2.
  assert (0 <= v_cur s1 < zlen (v_ctxs s1)) as Rc.
  { unfold push_slot in E1. destruct (bind_inv _ _ _ _ _ E1) as (c & t & E3 & _). unfold cur_ctx in E3. unfold mbind at 1, gets at 1 in E3.
    apply get_ctx_inv in E3. destruct E3 as [_ H]. rewrite (lc_cur _ _ _ L), (lc_len _ _ _ L). apply (znth_some_range _ _ _ H). }
  destruct (c_create_body host Hh (zlen (v_ctxs s1)) _ _ _ s1 u s' eq_refl Rc out E2) as [Cu _].
  rewrite Cu, (lc_cur _ _ _ L). auto.
Qed.
