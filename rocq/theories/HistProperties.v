(** * HistProperties: handles and cleanup callbacks over whole histories (C16, C30)

    [history hostmark s l s'] (HistSpec.v) says: the events [l], each a call of
    the modelled function, lead from [s] to [s']; between them nothing happens
    to the existence of objects, their handles or the cleanup log. *)
From Verif Require Import Base BaseFacts VmStep HostModel HostProofs HistProofs VmProperties TeardownModel GcSpec GcProofs GcProperties.
Ltac Zify.zify_post_hook ::= Z.div_mod_to_equations.

(** ** Every execution is such a history *)
Lemma runs_hist hostmark prog s s' : vm_ok s -> runs hostmark (api_host hostmark prog) s s' ->
  sane s' /\ exists l, history hostmark s l s'.
Proof.
  intros H R. induction R as [s|s s1 s2 R IH He Hg E].
  - split; [apply vm_ok_sane; auto|apply hist_refl].
  - destruct (IH H) as (S1 & l1 & H1).
    assert (forall cb args, hist hostmark (api_host hostmark prog cb args)) as HH by (intros; apply hist_run_host).
    destruct (hist_iterate hostmark _ HH _ _ _ S1 E) as (S2 & l2 & H2).
    split; auto. exists (l1 ++ l2). eapply history_app; eauto.
Qed.

(** Running any program: the states are connected by a history. *)
Theorem C16_C30_runs_are_histories hostmark prog s s' :
  vm_ok s -> runs hostmark (api_host hostmark prog) s s' -> exists l, history hostmark s l s'.
Proof. intros H R. apply (runs_hist _ _ _ _ H R). Qed.
Print Assumptions C16_C30_runs_are_histories.

(** And so is a host program calling the API between instructions. *)
Theorem C16_C30_host_calls_are_histories hostmark p s v s' :
  vm_ok s -> run_host hostmark p s = Ok (v, s') -> exists l, history hostmark s l s'.
Proof. intros H R. apply (hist_run_host hostmark p s v s' (vm_ok_sane _ H) R). Qed.

(** ** What each event does *)
Lemma create_effect s i s' : sane s -> create_object s = Ok (i, s') -> live s' i ->
  get_obj s i = None /\ v_cleanups s' = v_cleanups s /\
  (forall j, get_obj s' j = if j =? i then Some (new_obj i) else get_obj s j).
Proof.
  intros [T R L] E [o Ho]. unfold create_object in E. unfold mbind at 1, gets at 1 in E.
  destruct (tab_add (v_objs s) (new_obj 0)) as [[j t]|] eqn:A.
  2:{ destruct (bind_inv _ _ _ _ _ E) as (u & s1 & E1 & E2). unfold ret in E2. injection E2 as <- <-.
      pose proof (calm_error _ _ _ _ E1) as (Q & _). exfalso. unfold get_obj in Ho. rewrite Q in Ho.
      pose proof (tab_get_range _ _ _ Ho). pose proof (pow2_bounds _ (tw_cap _ T)). unfold INVALID, W32, W31 in *. unfold t_cap in *. lia. }
  destruct (tab_add_ok _ _ _ _ T A) as (T' & Fr & Ri & Ci & G).
  unfold mbind at 1, modify at 1 in E.
  assert (get_obj (set_objs t s) j = Some (new_obj 0)) as Gi by (unfold get_obj; vs; rewrite G, Z.eqb_refl; auto).
  rewrite (bind_run _ _ _ _ _ (wr_obj_ok _ _ _ (new_obj j) Gi)) in E.
  destruct (put_obj_wf (set_objs t s) j _ (new_obj j) T' Gi) as [W2 G2].
  unfold mbind, modify, ret in E. injection E as <- Es. rewrite <- Es.
  assert (forall s1 n, v_objs (if n =? 0 then s1 else set_newcount (n - 1) s1) = v_objs s1 /\
    v_cleanups (if n =? 0 then s1 else set_newcount (n - 1) s1) = v_cleanups s1) as V
    by (intros s1 n; destruct (n =? 0); split; reflexivity).
  destruct (V (put_obj j (new_obj j) (set_objs t s)) (v_newcount s)) as [V1 V2]. unfold get_obj. rewrite V1, V2. sp; auto.
  intro j'. specialize (G2 j'). unfold get_obj in G2. rewrite G2. vs. rewrite G. destruct (j' =? j); auto.
Qed.

Lemma acquire_effect s i o s' x : sane s -> get_obj s i = Some o -> o_handles o < INVALID -> acquire_handle (vobj i) s = Ok (x, s') ->
  v_cleanups s' = v_cleanups s /\
  (forall j, get_obj s' j = if j =? i then Some (set_o_handles (o_handles o + 1) o) else get_obj s j).
Proof.
  intros [T R L] Ho I E. pose proof (R _ _ Ho) as Ro. unfold acquire_handle in E. unfold mbind at 1, gets at 1 in E.
  rewrite (obj_of_vobj _ _ _ Ho) in E. rewrite (bind_run _ _ _ _ _ (rd_obj_ok _ _ _ Ho)) in E. cbv zeta in E.
  rewrite u32_id in E by (unfold is_u32, INVALID, W32 in *; lia).
  destruct (put_obj_wf s i o (set_o_handles (o_handles o + 1) o) T Ho) as [T' G].
  destruct (Z.ltb_spec 1 (o_handles o + 1)).
  - rewrite (wr_obj_ok _ _ _ _ Ho) in E. injection E as _ <-. auto.
  - destruct (Z.eqb_spec (o_handles o + 1) 0); [lia|]. destruct (existsb (Z.eqb i) (v_hlist s)); [discriminate|].
    rewrite (bind_run _ _ _ _ _ (wr_obj_ok _ _ _ _ Ho)) in E. unfold modify in E. injection E as _ <-. auto.
Qed.

Lemma release_effect s i o s' x : sane s -> get_obj s i = Some o -> o_handles o <> 0 -> release_handle (vobj i) s = Ok (x, s') ->
  v_cleanups s' = v_cleanups s /\
  (forall j, get_obj s' j = if j =? i then Some (set_o_handles (o_handles o - 1) o) else get_obj s j).
Proof.
  intros [T R L] Ho I E. pose proof (R _ _ Ho) as Ro. unfold release_handle in E. unfold mbind at 1, gets at 1 in E.
  rewrite (obj_of_vobj _ _ _ Ho) in E. rewrite (bind_run _ _ _ _ _ (rd_obj_ok _ _ _ Ho)) in E. cbv zeta in E.
  destruct (Z.eqb_spec (o_handles o) 0); [contradiction|]. unfold mbind at 1, ret at 1 in E.
  rewrite u32_id in E by (unfold is_u32, INVALID, W32 in *; lia).
  destruct (put_obj_wf s i o (set_o_handles (o_handles o - 1) o) T Ho) as [T' G].
  rewrite (bind_run _ _ _ _ _ (wr_obj_ok _ _ _ _ Ho)) in E.
  destruct (0 <? o_handles o - 1).
  - unfold ret in E. injection E as _ <-. auto.
  - destruct (existsb (Z.eqb i) (v_hlist s)); [|discriminate]. unfold modify in E. injection E as _ <-. auto.
Qed.

Lemma uneventful_sane s s' : sane s -> uneventful s s' -> sane s'.
Proof.
  intros [T R L] [U1 U2 U3 U4 U5 U6]. split; auto.
  - intros i o Ho. destruct (proj1 (U1 i) (ex_intro _ o Ho)) as [q Q]. pose proof (U2 i) as H. unfold handles_of in H.
    rewrite Ho, Q in H. rewrite H. eauto.
  - intro i. rewrite U6, U2. apply L.
Qed.

Lemma history_sane hostmark s l s' : sane s -> history hostmark s l s' -> sane s'.
Proof.
  intros S H. induction H; auto.
  - eapply uneventful_sane; eauto.
  - eapply (hist_create hostmark); eauto.
  - eapply (hist_acquire hostmark (vobj i)); eauto.
  - eapply (hist_release hostmark (vobj i)); eauto.
  - eapply hist_gc; eauto.
Qed.

Definition alive (s : vm) (i : Z) : Z := match get_obj s i with Some _ => 1 | None => 0 end.
Lemma alive_live s s' i : (live s i <-> live s' i) -> alive s i = alive s' i.
Proof.
  unfold live, alive. intros [A B]. destruct (get_obj s i), (get_obj s' i); auto.
  - destruct A as [q Q]; [eauto|discriminate].
  - destruct B as [q Q]; [eauto|discriminate].
Qed.

Lemma count1 (f : event -> bool) l e : zlen (filter f (l ++ [e])) = zlen (filter f l) + b2z (f e).
Proof. rewrite filter_app, zlen_app. cbn [filter]. destruct (f e); reflexivity. Qed.
Lemma all_freed_snoc l e : all_freed (l ++ [e]) = all_freed l ++ match e with Collected fr => fr | _ => [] end.
Proof. unfold all_freed. rewrite flat_map_app. cbn. rewrite app_nil_r. reflexivity. Qed.
Lemma freed_snoc i l e : n_freed i (l ++ [e]) = n_freed i l + match e with Collected fr => zlen (filter (fun x => fst x =? i) fr) | _ => 0 end.
Proof. unfold n_freed. rewrite all_freed_snoc, filter_app, zlen_app. destruct e; reflexivity. Qed.
Lemma owed_snoc i l e : owed_for i (l ++ [e]) = owed_for i l ++ match e with Collected fr => flat_map snd (filter (fun x => fst x =? i) fr) | _ => [] end.
Proof. unfold owed_for. rewrite all_freed_snoc, filter_app, flat_map_app. destruct e; reflexivity. Qed.

Lemma filter_one {T} (fr : list (Z * T)) i : NoDup (map fst fr) ->
  (exists c, In (i, c) fr /\ filter (fun x => fst x =? i) fr = [(i, c)]) \/
  ((forall c, ~ In (i, c) fr) /\ filter (fun x => fst x =? i) fr = []).
Proof.
  induction fr as [|[j c] fr IH]; intro ND; [right; split; auto|]. cbn [map fst] in ND.
  apply NoDup_cons_iff in ND. destruct ND as [NI ND]. destruct (IH ND) as [(d & D & F)|[N F]].
  - left. exists d. split; [right; auto|]. cbn [filter fst]. destruct (Z.eqb_spec j i) as [J|J]; [|auto].
    subst j. exfalso. apply NI. apply in_map_iff. exists (i, d). auto.
  - cbn [filter fst]. destruct (Z.eqb_spec j i) as [J|J].
    + subst j. left. exists c. rewrite F. split; [left|]; auto.
    + right. split; auto. intros d [D|D]; [congruence|]. eapply N; eauto.
Qed.

(** ** The three balances *)
Lemma history_balance hostmark s l s' : sane s -> history hostmark s l s' -> forall i,
  handles_of s' i = handles_of s i + n_acquired i l - n_released i l /\
  alive s' i = alive s i + n_created i l - n_freed i l /\
  calls_for s' i = calls_for s i ++ owed_for i l.
Proof.
  intros S H i. assert (sane s') as Dummy by (eapply history_sane; eauto). clear Dummy.
  induction H as [|l s1 s2 H IH U|l s1 k s2 H IH E Lv|l s1 k s2 H IH Lv Hh E|l s1 k s2 H IH Lv Hh E|l s1 fr s2 H IH E ND Fr].
  - unfold n_acquired, n_released, n_created, n_freed, owed_for. cbn. rewrite app_nil_r. sp; auto; lia.
  - destruct IH as (I1 & I2 & I3). destruct U as [U1 U2 U3 U4 U5 U6]. rewrite U2. rewrite (alive_live s2 s1 i (U1 i)).
    unfold calls_for at 1. rewrite U3. fold (calls_for s1 i). auto.
  - destruct IH as (I1 & I2 & I3). pose proof (history_sane _ _ _ _ S H) as S1.
    destruct (create_effect _ _ _ S1 E Lv) as (Fk & C & G). rewrite freed_snoc, owed_snoc. unfold n_acquired, n_released, n_created. rewrite !count1.
    fold (n_acquired i l) (n_released i l) (n_created i l). rewrite app_nil_r. sp.
    + unfold handles_of at 1. rewrite G. unfold handles_of in I1 at 1. destruct (Z.eqb_spec i k) as [J|J].
      * subst k. rewrite Fk in I1. cbn [b2z new_obj o_handles]. lia.
      * cbn [b2z]. lia.
    + unfold alive at 1. rewrite G. unfold alive in I2 at 1. rewrite (Z.eqb_sym k i). destruct (Z.eqb_spec i k) as [J|J].
      * subst k. rewrite Fk in I2. cbn [b2z]. lia.
      * cbn [b2z]. lia.
    + unfold calls_for at 1. rewrite C. auto.
  - destruct IH as (I1 & I2 & I3). pose proof (history_sane _ _ _ _ S H) as S1. destruct Lv as [o Ho].
    assert (o_handles o < INVALID) as Hh' by (unfold handles_of in Hh; rewrite Ho in Hh; auto).
    destruct (acquire_effect _ _ _ _ _ S1 Ho Hh' E) as (C & G).
    rewrite freed_snoc, owed_snoc. unfold n_acquired, n_released, n_created. rewrite !count1.
    fold (n_acquired i l) (n_released i l) (n_created i l). rewrite app_nil_r, (Z.eqb_sym k i). sp.
    + unfold handles_of at 1. rewrite G. unfold handles_of in I1 at 1. destruct (Z.eqb_spec i k) as [J|J].
      * subst k. rewrite Ho in I1. cbn [b2z set_o_handles o_handles]. lia.
      * cbn [b2z]. lia.
    + unfold alive at 1. rewrite G. unfold alive in I2 at 1. destruct (Z.eqb_spec i k) as [J|J].
      * subst k. rewrite Ho in I2. cbn [b2z]. lia.
      * cbn [b2z]. lia.
    + unfold calls_for at 1. rewrite C. auto.
  - destruct IH as (I1 & I2 & I3). pose proof (history_sane _ _ _ _ S H) as S1. destruct Lv as [o Ho].
    assert (o_handles o <> 0) as Hh' by (unfold handles_of in Hh; rewrite Ho in Hh; auto).
    destruct (release_effect _ _ _ _ _ S1 Ho Hh' E) as (C & G).
    rewrite freed_snoc, owed_snoc. unfold n_acquired, n_released, n_created. rewrite !count1.
    fold (n_acquired i l) (n_released i l) (n_created i l). rewrite app_nil_r, (Z.eqb_sym k i). sp.
    + unfold handles_of at 1. rewrite G. unfold handles_of in I1 at 1. destruct (Z.eqb_spec i k) as [J|J].
      * subst k. rewrite Ho in I1. cbn [b2z set_o_handles o_handles]. lia.
      * cbn [b2z]. lia.
    + unfold alive at 1. rewrite G. unfold alive in I2 at 1. destruct (Z.eqb_spec i k) as [J|J].
      * subst k. rewrite Ho in I2. cbn [b2z]. lia.
      * cbn [b2z]. lia.
    + unfold calls_for at 1. rewrite C. auto.
  - destruct IH as (I1 & I2 & I3). pose proof (history_sane _ _ _ _ S H) as S1.
    destruct (gc_raw hostmark _ _ _ S1 E) as (S2 & Ty & HH & LL & Fd & Nd).
    rewrite freed_snoc, owed_snoc. unfold n_acquired, n_released, n_created. rewrite !count1.
    fold (n_acquired i l) (n_released i l) (n_created i l). cbn [b2z]. sp.
    + rewrite HH. lia.
    + destruct (filter_one fr i ND) as [(c & Ic & ->)|[N ->]].
      * apply Fr in Ic. destruct Ic as (o & Ho & _ & Dead). unfold alive in I2 at 1. rewrite Ho in I2.
        unfold alive at 1. destruct (get_obj s2 i) eqn:G2; [exfalso; apply Dead; eexists; eauto|]. rewrite zlen_cons. cbn. lia.
      * rewrite (alive_live s2 s1 i); [change (zlen (@nil (Z * list (Z * Z * option Z)))) with 0; lia|]. split; [apply LL|].
        intros [o Ho]. destruct (Fd _ _ Ho) as [[[g G] _]|[Dead _]]; [eexists; eauto|].
        exfalso. apply (N (owed s1 i o)). apply Fr. eauto.
    + destruct (filter_one fr i ND) as [(c & Ic & ->)|[N ->]].
      * apply Fr in Ic. destruct Ic as (o & Ho & <- & Dead). cbn [flat_map snd]. rewrite app_nil_r.
        destruct (Fd _ _ Ho) as [[[g G] _]|[_ ->]]; [exfalso; apply Dead; eexists; eauto|]. rewrite I3, app_assoc. reflexivity.
      * cbn [flat_map]. rewrite app_nil_r. rewrite <- I3. destruct (get_obj s1 i) as [o|] eqn:Ho.
        -- destruct (Fd _ _ Ho) as [[_ Q]|[Dead _]]; [auto|]. exfalso. apply (N (owed s1 i o)). apply Fr. eauto.
        -- apply Nd. intros [q Q]. congruence.
Qed.

(** ** C16 *)
(** The number of handles on an object is the number acquired less the number
    released, over any history. *)
Theorem C16_count_balance hostmark s l s' i :
  vm_ok s -> history hostmark s l s' ->
  handles_of s' i = handles_of s i + n_acquired i l - n_released i l.
Proof. intros H Hi. apply (history_balance hostmark s l s' (vm_ok_sane _ H) Hi i). Qed.
Print Assumptions C16_count_balance.

(** The count the API reports is that number. *)
Theorem C16_reported_count s i : live s i ->
  get_handle_count (vobj i) s = Ok (handles_of s i, s).
Proof.
  intros [o Ho]. unfold get_handle_count. unfold mbind at 1, gets at 1. rewrite (obj_of_vobj _ _ _ Ho).
  rewrite (bind_run _ _ _ _ _ (rd_obj_ok _ _ _ Ho)). unfold ret, handles_of. rewrite Ho. reflexivity.
Qed.

(** An object is freed by a collection only when every handle acquired on it
    has been released. *)
Theorem C16_held_never_freed hostmark s l s1 s' i :
  vm_ok s -> history hostmark s l s1 -> garbage_collect hostmark s1 = Ok (tt, s') ->
  live s1 i -> ~ live s' i ->
  handles_of s i + n_acquired i l - n_released i l = 0.
Proof.
  intros H H1 E _ Dead. rewrite <- (C16_count_balance hostmark s l s1 i H H1).
  pose proof (history_sane _ _ _ _ (vm_ok_sane _ H) H1) as S1.
  destruct (gc_raw hostmark _ _ _ S1 E) as (_ & _ & HH & _).
  rewrite <- HH. unfold handles_of. destruct (get_obj s' i) eqn:G; [exfalso; apply Dead; eexists; eauto|reflexivity].
Qed.
Print Assumptions C16_held_never_freed.

(** [leads s i v]: a chain of references leads from object [i] to [v]. *)
Inductive leads (hostmark : Z -> Z -> option Z -> list value) (s : vm) (i : Z) : value -> Prop :=
| ld_start : leads hostmark s i (vobj i)
| ld_ref j o v : leads hostmark s i (vobj j) -> get_obj s j = Some o -> refs hostmark s o v -> leads hostmark s i v.

(** A held object and everything it leads to survive a collection with their
    contents. *)
Theorem C16_held_kept hostmark s i :
  vm_ok s -> v_gcpass s < INVALID -> handles_of s i > 0 ->
  exists s', garbage_collect hostmark s = Ok (tt, s') /\
    (forall j o, leads hostmark s i (vobj j) -> get_obj s j = Some o ->
       exists o', get_obj s' j = Some o' /\ o_buckets o' = o_buckets o /\ o_handles o' = o_handles o /\
                  o_ext o' = o_ext o /\ o_data o' = o_data o) /\
    (forall j e, leads hostmark s i (vstr j) -> get_str_entry s j = Some e ->
       exists e', get_str_entry s' j = Some e' /\ s_str e' = s_str e).
Proof.
  intros H G Hh. destruct (C28_reachable_survives hostmark s H G) as (s' & E & _ & K1 & K2). exists s'.
  assert (forall v, leads hostmark s i v -> reach hostmark s v) as R.
  { intros v L. induction L.
    - unfold handles_of in Hh. destruct (get_obj s i) as [o|] eqn:Ho; [|lia]. eapply rc_handle; [exact Ho|lia].
    - eapply rc_ref; eauto. }
  split; auto. split.
  - intros j o L Ho. destruct (K1 j o Ho (R _ L)) as (o' & A1 & A2 & A3 & A4 & A5 & A6 & A7). exists o'. sp; auto.
  - intros j e L He. apply (K2 j e He (R _ L)).
Qed.
Print Assumptions C16_held_kept.

(** With the count at zero and nothing else referring to it, an object goes. *)
Theorem C16_unheld_freed hostmark s i :
  vm_ok s -> v_gcpass s < INVALID -> ~ reach hostmark s (vobj i) ->
  exists s', garbage_collect hostmark s = Ok (tt, s') /\ ~ live s' i.
Proof.
  intros H G N. destruct (C29_unreachable_freed hostmark s H G) as (s' & E & _ & F & _). exists s'. split; auto.
  intros [o Ho]. rewrite (F i N) in Ho. discriminate.
Qed.

(** Releasing a handle nobody holds is reported as an error, but it does not
    leave the count alone: it wraps to 2^32-1. *)
Theorem C16_extra_release_refuted : exists s s' i,
  vm_ok s /\ live s i /\ handles_of s i = 0 /\
  release_handle (vobj i) s = Ok (tt, s') /\ has_errors s' = true /\ handles_of s' i = INVALID.
Proof.
  destruct (create_object vm_init) as [[i s]|] eqn:E; [|vm_compute in E; discriminate].
  exists s. assert (vm_ok s) as Hs.
  { destruct vm_init_ok as [b W]. exists b. destruct (create_object_ok vm_init (w_tab _ _ _ W) (wf_live _ _ _ W)) as (j & s1 & E1 & C).
    rewrite E in E1. injection E1 as <- <-. eapply wf_created; eauto. }
  vm_compute in E. injection E as <- <-. eexists. exists 0. split; [exact Hs|].
  split; [eexists; vm_compute; reflexivity|]. split; [vm_compute; reflexivity|].
  split; [vm_compute; reflexivity|]. split; vm_compute; reflexivity.
Qed.
Print Assumptions C16_extra_release_refuted.

(** ** C30 *)
(** Over any history, for each identifier, the cleanup calls made are exactly
    those owed to the objects freed, in that order: one for each freed object
    whose type has a callback, with that type and the object's data, and no
    other. *)
Theorem C30_calls_are_owed hostmark s l s' i :
  vm_ok s -> history hostmark s l s' -> calls_for s' i = calls_for s i ++ owed_for i l.
Proof. intros H Hi. apply (history_balance hostmark s l s' (vm_ok_sane _ H) Hi i). Qed.
Print Assumptions C30_calls_are_owed.

(** No object is freed twice: creations and frees of an identifier alternate. *)
Theorem C30_freed_once hostmark s l s' i :
  vm_ok s -> history hostmark s l s' ->
  alive s' i = alive s i + n_created i l - n_freed i l.
Proof. intros H Hi. apply (history_balance hostmark s l s' (vm_ok_sane _ H) Hi i). Qed.
Print Assumptions C30_freed_once.

(** *** Deleting the VM *)
Lemma tab_get_clear {T} (t : table T) i j : 0 <= i < t_cap t ->
  tab_get (mkT (zupd (t_slots t) i None) (t_holes t)) j = if j =? i then None else tab_get t j.
Proof.
  intro R. unfold tab_get, t_cap in *. cbn [t_slots]. rewrite zlen_zupd. destruct (Z.eqb_spec j i) as [J|J].
  - subst j. destruct (_ <=? i); auto. rewrite znth_zupd_same by lia. reflexivity.
  - rewrite znth_zupd_other by auto. reflexivity.
Qed.

Lemma clean_all_raw idx : NoDup idx -> forall s x s', (forall i, In i idx -> 0 <= i < t_cap (v_objs s)) ->
  clean_all_objects_loop idx s = Ok (x, s') ->
  (forall i, get_obj s' i = if inb i idx then None else get_obj s i) /\
  (forall i, calls_for s' i = calls_for s i ++ whenb (inb i idx) match get_obj s i with Some o => owed s i o | None => [] end).
Proof.
  induction idx as [|a idx IH]; intros ND s x s' R E; cbn [clean_all_objects_loop] in E.
  - unfold ret in E. injection E as _ <-. split; auto. intro i. cbn. rewrite app_nil_r. auto.
  - apply NoDup_cons_iff in ND. destruct ND as [NI ND].
    assert (inb a idx = false) as Na.
    { unfold inb. destruct (existsb (Z.eqb a) idx) eqn:X; auto. exfalso. apply existsb_exists in X. destruct X as (y & Y & Ey).
      apply Z.eqb_eq in Ey. subst y. auto. }
    destruct (bind_inv _ _ _ _ _ E) as (u & s1 & E1 & E2). clear E.
    assert (v_objs s1 = v_objs s /\ v_exttypes s1 = v_exttypes s /\
      forall j, calls_for s1 j = calls_for s j ++ whenb (j =? a) match get_obj s j with Some o => owed s j o | None => [] end) as (V1 & T1 & C1).
    { destruct (get_obj s a) as [o|] eqn:Ho.
      - destruct (cleanup_raw _ _ _ _ _ Ho E1) as (A1 & A2 & A3 & A4). sp; auto. intro j. rewrite A4.
        destruct (Z.eqb_spec j a); auto. subst j. rewrite Ho. reflexivity.
      - unfold cleanup_object in E1. unfold mbind at 1, gets at 1 in E1. rewrite Ho in E1. unfold ret in E1. injection E1 as _ <-.
        sp; auto. intro j. destruct (Z.eqb_spec j a); [subst j; rewrite Ho|]; cbn; rewrite app_nil_r; auto. }
    unfold mbind at 1, modify at 1 in E2.
    set (s2 := set_objs (mkT (zupd (t_slots (v_objs s1)) a None) (t_holes (v_objs s1))) s1) in *.
    assert (0 <= a < t_cap (v_objs s)) as Ra by (apply R; left; auto).
    assert (forall j, get_obj s2 j = if j =? a then None else get_obj s j) as G2.
    { intro j. unfold s2, get_obj. vs. rewrite V1. apply tab_get_clear. auto. }
    assert (forall i, In i idx -> 0 <= i < t_cap (v_objs s2)) as R2.
    { intros i J. unfold s2, t_cap. vs. cbn [t_slots]. rewrite zlen_zupd, V1. apply R. right. auto. }
    destruct (IH ND _ _ _ R2 E2) as (G3 & C3). split.
    + intro i. rewrite G3, G2. cbn [inb existsb]. fold (inb i idx). destruct (i =? a), (inb i idx); reflexivity.
    + intro i. rewrite C3, G2. change (calls_for s2 i) with (calls_for s1 i). rewrite C1. cbn [inb existsb]. fold (inb i idx).
      assert (forall o, owed s2 i o = owed s i o) as Ow by (intro o; unfold owed, has_callback, s2; vs; rewrite T1; reflexivity).
      destruct (Z.eqb_spec i a) as [J|J].
      * subst i. rewrite Na. cbn [whenb orb]. rewrite app_nil_r. reflexivity.
      * cbn [whenb orb]. rewrite app_nil_r. destruct (get_obj s i) as [o|]; [rewrite Ow|]; reflexivity.
Qed.

(** Deleting the VM leaves no object, and makes for every object still there
    exactly the call owed to it. *)
Theorem C30_destroy hostmark s s' :
  vm_ok s -> destroy hostmark s = Ok (tt, s') ->
  (forall i, ~ live s' i) /\
  (forall i o, get_obj s i = Some o -> calls_for s' i = calls_for s i ++ owed s i o) /\
  (forall i, ~ live s i -> calls_for s' i = calls_for s i).
Proof.
  intros H E. pose proof (vm_ok_sane _ H) as S. unfold destroy in E.
  destruct (bind_inv _ _ _ _ _ E) as (rc & s1 & E1 & E2). pose proof (calm_get_ctx _ _ _ _ E1) as Q1.
  destruct (bind_inv _ _ _ _ _ E2) as (u & s2 & E3 & E4). pose proof (calm_put_ctx _ _ _ _ _ E3) as Q2.
  destruct (bind_inv _ _ _ _ _ E4) as (u1 & s3 & E5 & E6).
  assert (same s2 s3) as Q3 by (unfold modify in E5; injection E5 as _ <-; repeat split).
  destruct (bind_inv _ _ _ _ _ E6) as (u2 & s4 & E7 & E8). clear E E2 E4 E6.
  pose proof (same_trans _ _ _ Q1 (same_trans _ _ _ Q2 Q3)) as Q. pose proof (same_sane _ _ Q S) as S3.
  destruct (gc_raw hostmark _ _ _ S3 E7) as (S4 & T4 & _ & LL & Fd & Nd).
  unfold clean_all_objects in E8. unfold mbind at 1, gets at 1 in E8.
  assert (forall i, In i (zseq 0 (Z.to_nat (t_cap (v_objs s4)))) -> 0 <= i < t_cap (v_objs s4)) as R.
  { intros i J. apply In_zseq in J. pose proof (zlen_nonneg (t_slots (v_objs s4))). unfold t_cap in *. lia. }
  destruct (clean_all_raw _ (NoDup_zseq _ _) _ _ _ R E8) as (G5 & C5).
  assert (forall i o, get_obj s4 i = Some o -> inb i (zseq 0 (Z.to_nat (t_cap (v_objs s4)))) = true) as In4.
  { intros i o Ho. unfold inb. apply existsb_exists. exists i. split; [|apply Z.eqb_refl]. apply In_zseq.
    unfold get_obj in Ho. pose proof (tab_get_range _ _ _ Ho). unfold t_cap in *. lia. }
  destruct Q as (Qo & _ & Qc & Qt & _).
  assert (forall i, get_obj s3 i = get_obj s i) as Gs by (intro i; unfold get_obj; rewrite Qo; reflexivity).
  assert (forall i, calls_for s3 i = calls_for s i) as Cs by (intro i; unfold calls_for; rewrite Qc; reflexivity).
  split; [|split].
  - intros i [o Ho]. rewrite G5 in Ho. destruct (inb _ _) eqn:B; [discriminate|]. rewrite (In4 _ _ Ho) in B. discriminate.
  - intros i o Ho. rewrite <- Gs in Ho. rewrite C5. assert (owed s3 i o = owed s i o) as O3 by (unfold owed, has_callback; rewrite Qt; reflexivity).
    destruct (Fd _ _ Ho) as [[[g G4] C4]|[Dead C4]].
    + rewrite (In4 _ _ G4), G4, C4, Cs. cbn [whenb]. unfold owed, has_callback. rewrite T4, Qt. reflexivity.
    + assert (get_obj s4 i = None) as -> by (destruct (get_obj s4 i) eqn:X; auto; exfalso; apply Dead; eexists; eauto).
      rewrite C4, Cs, O3. destruct (inb _ _); apply app_nil_r.
  - intros i N. assert (~ live s3 i) as N3 by (intros [o Ho]; apply N; rewrite Gs in Ho; eexists; eauto).
    rewrite C5, (Nd _ N3), Cs. destruct (get_obj s4 i) as [o|] eqn:Ho; [exfalso; apply N3, LL; eexists; eauto|].
    destruct (inb _ _); apply app_nil_r.
Qed.
Print Assumptions C30_destroy.

(** The whole life of a VM: from its start through any run to its deletion,
    each object that had a callback when it went got exactly one call. *)
Theorem C30_whole_life hostmark prog code s s' :
  pow2 (zlen code) -> runs hostmark (api_host hostmark prog) (load_code code vm_init) s ->
  destroy hostmark s = Ok (tt, s') ->
  exists l, history hostmark (load_code code vm_init) l s /\ (forall i, ~ live s' i) /\
    forall i, alive s i = n_created i l - n_freed i l /\
      calls_for s' i = owed_for i l ++ match get_obj s i with Some o => owed s i o | None => [] end.
Proof.
  intros P R D. assert (vm_ok (load_code code vm_init)) as Hi.
  { eapply (C18_any_program hostmark prog code vm_init _ vm_init_ok P). constructor. }
  pose proof (C18_run_safe hostmark prog _ _ Hi R) as [Hs _].
  destruct (C16_C30_runs_are_histories _ _ _ _ Hi R) as [l Hl]. exists l. split; auto.
  destruct (C30_destroy _ _ _ Hs D) as (D1 & D2 & D3). split; auto. intro i.
  split.
  - rewrite (C30_freed_once _ _ _ _ i Hi Hl). change (alive (load_code code vm_init) i) with (alive vm_init i).
    assert (alive vm_init i = 0) as ->; [|lia]. unfold alive, get_obj. change (v_objs vm_init) with (@tab_init nkobj).
    rewrite tab_init_get. reflexivity.
  - assert (calls_for s i = owed_for i l) as Q.
    { rewrite (C30_calls_are_owed _ _ _ _ i Hi Hl). reflexivity. }
    destruct (get_obj s i) as [o|] eqn:Ho.
    + rewrite (D2 i o Ho), Q. reflexivity.
    + rewrite D3, Q, app_nil_r; auto. intros [q Hq]. congruence.
Qed.
Print Assumptions C30_whole_life.

(** Deletion outside of coroutines runs to its end. *)
Lemma clean_all_runs idx : NoDup idx -> forall s,
  v_cur s = 0 -> live_ctx s 0 -> v_corotype s <> INVALID ->
  (forall i, In i idx -> 0 <= i < t_cap (v_objs s)) ->
  (forall i o, In i idx -> get_obj s i = Some o -> o_ext o = v_corotype s ->
     exists c cx, o_data o = Some c /\ c <> 0 /\ znth (v_ctxs s) c = Some (Some cx) /\ c_obj cx = vobj i) ->
  exists s', clean_all_objects_loop idx s = Ok (tt, s').
Proof.
  induction idx as [|a idx IH]; intros ND s Cu L Nc R Own; cbn [clean_all_objects_loop]; [eexists; reflexivity|].
  apply NoDup_cons_iff in ND. destruct ND as [NI ND].
  assert (exists s1, cleanup_object a s = Ok (tt, s1) /\ v_cur s1 = 0 /\ live_ctx s1 0 /\ v_corotype s1 = v_corotype s /\ v_objs s1 = v_objs s /\
    forall i o, In i idx -> get_obj s i = Some o -> o_ext o = v_corotype s ->
     exists c cx, o_data o = Some c /\ c <> 0 /\ znth (v_ctxs s1) c = Some (Some cx) /\ c_obj cx = vobj i) as (s1 & E1 & Cu1 & L1 & Ct1 & V1 & Own1).
  { unfold cleanup_object. unfold mbind at 1, gets at 1.
    assert (forall i o, In i idx -> get_obj s i = Some o -> o_ext o = v_corotype s ->
     exists c cx, o_data o = Some c /\ c <> 0 /\ znth (v_ctxs s) c = Some (Some cx) /\ c_obj cx = vobj i) as Own'
      by (intros i o J; apply Own; right; auto).
    destruct (get_obj s a) as [o|] eqn:Ho; [|exists s; sp; auto; reflexivity].
    destruct (Z.eqb_spec (o_ext o) INVALID); [exists s; sp; auto; reflexivity|].
    destruct (znth (v_exttypes s) (o_ext o)) as [et|].
    2:{ destruct (add_error_ok s (bs "External type value out of range.")) as [e Er]; [rewrite Cu; auto|]. rewrite Er.
        eexists. split; [reflexivity|]. sp; auto. }
    destruct (et_cleanup et); [|exists s; sp; auto; reflexivity].
    unfold mbind, modify. destruct (Z.eqb_spec (o_ext o) (v_corotype s)) as [Ec|Nec].
    2:{ eexists. split; [reflexivity|]. sp; auto. }
    destruct (Own a o (or_introl eq_refl) Ho Ec) as (c & cx & D & C0 & Hc & Hcx). rewrite D. unfold free_ctx. vs. rewrite Hc.
    eexists. split; [reflexivity|]. sp; auto.
    + destruct L as [c0 Hc0]. exists c0. vs. rewrite znth_zupd_other; auto.
    + intros i q J Hq Hx. destruct (Own' i q J Hq Hx) as (c' & cx' & D' & C0' & Hc' & Hcx'). exists c', cx'. sp; auto.
      vs. rewrite znth_zupd_other; auto. intro Ecc. subst c'. assert (cx = cx') by congruence. subst cx'.
      rewrite Hcx in Hcx'. injection Hcx' as ->. contradiction. }
  rewrite (bind_run _ _ _ _ _ E1). unfold mbind at 1, modify at 1.
  apply IH; auto.
  - vs. congruence.
  - intros i J. unfold t_cap. vs. cbn [t_slots]. rewrite zlen_zupd, V1. apply R. right. auto.
  - intros i o J Ho Hx. vsin Hx. apply Own1; [auto| |congruence].
    unfold get_obj in Ho |- *. vsin Ho. rewrite V1 in Ho. rewrite tab_get_clear in Ho by (apply R; left; auto).
    destruct (i =? a); [discriminate|auto].
Qed.

Lemma clear_kwf k : kwf k -> kwf (stack_clear false k).
Proof.
  intros [A B C D]. unfold stack_clear. split; cbn; auto; try lia.
  rewrite zlen_repeat. pose proof (pow2_bounds _ C). lia.
Qed.

Theorem C30_destroy_total hostmark s :
  vm_ok s -> v_gcpass s < INVALID -> v_cur s = 0 -> exists s', destroy hostmark s = Ok (tt, s').
Proof.
  intros [b W] G Cu. unfold destroy. destruct (wf_live _ _ _ W) as [c Hc]. rewrite Cu in Hc.
  rewrite (bind_run _ _ _ _ _ (get_ctx_ok _ _ _ Hc)).
  pose proof (w_stk _ _ _ W _ _ Hc) as K.
  assert (put_ctx 0 (set_c_stack (stack_clear false (c_stack c)) c) s = Ok (tt, with_stack (stack_clear false (c_stack c)) s)) as P.
  { unfold put_ctx, with_stack, upd_cur. rewrite Cu, Hc. reflexivity. }
  rewrite (bind_run _ _ _ _ _ P).
  pose proof (wf_with_stack _ _ _ _ W (clear_kwf _ K)) as W1. set (s1 := with_stack _ s) in *.
  unfold mbind at 1, modify at 1. destruct (w_static _ _ _ W1) as [Sl Sp].
  pose proof (zlen_nonneg (v_static s1)) as Nn.
  match goal with |- context [set_static ?st s1] => assert (wf b 0 (set_static st s1)) as W2 end.
  { apply wf_static_set; auto. rewrite zlen_app, zlen_repeat. rewrite skipn_all2; [|rewrite <- Sl; unfold zlen; lia].
    rewrite zlen_nil. lia. }
  set (s2 := set_static _ s1) in *.
  assert (v_cur s1 = 0 /\ v_gcpass s1 = v_gcpass s) as [Cu1 Gp1].
  { unfold s1, with_stack, upd_cur. rewrite Cu, Hc. auto. }
  destruct (garbage_collect_ok hostmark b s2 W2) as (s3 & E3 & W3 & Cl); [unfold s2; vs; lia|].
  rewrite (bind_run _ _ _ _ _ E3). assert (v_cur s3 = 0) as Cu3.
  { destruct (cl_frame _ _ _ Cl) as (es & p & t & u & h & cs & ca & F). rewrite F. vs. unfold s2. vs. auto. }
  unfold clean_all_objects. unfold mbind at 1, gets at 1. apply clean_all_runs; auto.
  - apply NoDup_zseq.
  - rewrite <- Cu3. apply (wf_live _ _ _ W3).
  - apply (w_corotype _ _ _ W3).
  - intros i J. apply In_zseq in J. pose proof (zlen_nonneg (t_slots (v_objs s3))). unfold t_cap in *. lia.
  - intros i o _ Ho Hx. destruct (w_co2 _ _ _ W3 i o Ho Hx) as (j & cx & A1 & A2 & _ & A3 & A4). eauto 10.
Qed.
Print Assumptions C30_destroy_total.

(** *** Example *)
(** A VM with a host type that has a cleanup callback. *)
Definition file_vm : vm := set_exttypes (v_exttypes vm_init ++ [mkET (bs "file") false true false]) vm_init.
Lemma file_vm_ok : vm_ok file_vm. Proof. apply vm_ok_types, vm_init_ok. Qed.
(** The host makes two files, holds on to the first, collects, and lets go. *)
Definition file_prog : hostprog :=
  HObject (fun a => HSetType a 1 (HSetData a (Some 77) (HAcquire a
    (HObject (fun b => HSetType b 1 (HSetData b (Some 78)
      (HCollect (HRelease a (HReturn a))))))))).
Example C16_C30_example : exists s l s',
  run_host nomark file_prog file_vm = Ok (vobj 0, s) /\ vm_ok s /\ history nomark file_vm l s /\
  alive s 0 = 1 /\ alive s 1 = 0 /\ handles_of s 0 = 0 /\ calls_for s 0 = [] /\ calls_for s 1 = [(1, 1, Some 78)] /\
  destroy nomark s = Ok (tt, s') /\ calls_for s' 0 = [(1, 0, Some 77)] /\ calls_for s' 1 = [(1, 1, Some 78)].
Proof.
  destruct (run_host nomark file_prog file_vm) as [[v s]|] eqn:E; [|vm_compute in E; discriminate].
  destruct (C16_C30_host_calls_are_histories _ _ _ _ _ file_vm_ok E) as [l Hl]. exists s, l.
  assert (vm_ok s) as Hs.
  { pose proof (run_host_safe nomark file_prog file_vm (clean_exact _ file_vm_ok eq_refl)) as K. rewrite E in K. apply vm_ok_iff. exact K. }
  destruct (destroy nomark s) as [[[] s']|] eqn:D; [|vm_compute in E; injection E as <- <-; vm_compute in D; discriminate].
  exists s'. split; [vm_compute in E; injection E as <- <-; reflexivity|]. split; auto. split; auto.
  clear Hl Hs. vm_compute in E. injection E as <- <-. vm_compute in D. injection D as <-. sp; vm_compute; reflexivity.
Qed.
(* a run of bytecode is also a history with events *)
Example C30_run_example : exists s s', runs nomark (api_host nomark ex_prog) (load_code ex_code vm_init) s /\
  alive s 0 = 1 /\ destroy nomark s = Ok (tt, s').
Proof.
  destruct (run_n nomark (api_host nomark ex_prog) 2 (load_code ex_code vm_init)) as [s|] eqn:E; [|vm_compute in E; discriminate].
  pose proof (run_n_runs _ _ _ _ _ E) as R. vm_compute in E. injection E as <-. eexists _, _. split; [exact R|].
  split; vm_compute; reflexivity.
Qed.
