(** * ShrinkProperties: C31 *)
From Verif Require Import Base BaseFacts TableModel TableProofs State StackModel StackProofs StrModel StrProofs ValueSpec ObjsModel ObjsSpec ObjsProofs ObjsProperties
  MonadFacts VmModel HostModel VmSpec VmInv VmStep HostProofs VmProperties GcProperties CoroProofs CoroProperties ShrinkModel ShrinkSpec ShrinkProofs.

(** A value that can be looked up: an ordinary one, whose object exists if it
    is a reference to one. *)
Definition denotes (s : vm) (v : value) : Prop :=
  ordinary s v /\ (v_type v = T_OBJ -> exists o, get_obj s (v_data v) = Some o).

Section Lookup.
Variables s t : vm.
Variables ro rs : Z -> Z.
Hypothesis Ws : vm_ok s.
Hypothesis Wt : vm_ok t.
Hypothesis R : renumbered s t ro rs.

Lemma ren_type v : v_type (ren ro rs v) = v_type v.
Proof. unfold ren. destruct (Z.eqb_spec (v_type v) T_OBJ); [auto|]. destruct (Z.eqb_spec (v_type v) T_STRING); auto. Qed.
Lemma ren_str_live v x : v_type v = T_STRING -> get_str s (v_data v) = Some x -> get_str t (v_data (ren ro rs v)) = Some x.
Proof.
  intros T G. unfold ren. rewrite T. change (T_STRING =? T_OBJ) with false. change (T_STRING =? T_STRING) with true. cbv iota. cbn [v_data].
  unfold get_str in *. destruct (get_str_entry s (v_data v)) as [e|] eqn:Ge; [|discriminate].
  destruct (rn_str _ _ _ _ R _ _ Ge) as (f & Gf & Tf & _). rewrite Gf, Tf. exact G.
Qed.
Lemma ren_ordinary v : denotes s v -> ordinary t (ren ro rs v).
Proof.
  intros [(Rg & O) L]. destruct Wt as [bt Wt']. assert (Tt : t_cap (v_objs t) < W32) by (assert (Q := pow2_bounds _ (tw_cap _ (w_tab _ _ _ Wt'))); unfold W32; unfold W31 in Q; lia).
  assert (Ts : t_cap (v_strs t) < W32) by (assert (Q := pow2_bounds _ (tw_cap _ (sw_tab _ _ (w_str _ _ _ Wt')))); unfold W32; unfold W31 in Q; lia).
  unfold ordinary. rewrite ren_type. destruct O as [T|[(T & N)|[(T & x & G)|[T|[T|T]]]]].
  - split; [|auto]. unfold ren. rewrite T. exact Rg.
  - split; [|right; left; split; [auto|]]; unfold ren; rewrite T; auto.
  - split; [|right; right; left; split; [auto|exists x; now apply ren_str_live]].
    assert (G' := ren_str_live v x T G). unfold get_str in G'. destruct (get_str_entry t _) as [f|] eqn:Gf; [|discriminate].
    apply tab_get_some in Gf. unfold t_cap in Ts. apply znth_some_range in Gf. lia.
  - split; [|auto]. unfold ren. rewrite T. exact Rg.
  - split; [|auto 10]. destruct (L T) as [o G]. destruct (rn_obj _ _ _ _ R _ _ G) as (p & Gp & _). unfold ren. rewrite T. change (T_OBJ =? T_OBJ) with true. cbv iota. cbn [v_data].
    apply tab_get_some in Gp. unfold t_cap in Tt. apply znth_some_range in Gp. lia.
  - split; [|auto 10]. unfold ren. rewrite T. exact Rg.
Qed.
Lemma ren_key_eq a b : denotes s a -> denotes s b -> key_eq (ren ro rs a) (ren ro rs b) = key_eq a b.
Proof.
  intros [(Ra & Oa) La] [(Rb & Ob) Lb]. unfold key_eq. rewrite !ren_type. destruct (Z.eqb_spec (v_type a) (v_type b)) as [E|]; [|reflexivity].
  destruct (Z.eqb_spec (v_type a) T_NIL); [reflexivity|]. cbn [andb]. rewrite <- E in *. destruct (Z.eq_dec (v_type a) T_OBJ) as [Ta|No].
  - unfold ren. rewrite <- E, Ta. change (T_OBJ =? T_OBJ) with true. change (T_OBJ =? T_FLOAT) with false. cbv iota. cbn [v_data].
    destruct (La Ta) as [o Go]. destruct (Lb Ta) as [p Gp]. destruct (Z.eqb_spec (v_data a) (v_data b)) as [->|N]; [apply Z.eqb_refl|].
    destruct (Z.eqb_spec (ro (v_data a)) (ro (v_data b))) as [Q|]; [|reflexivity]. destruct N. apply (rn_obj_inj _ _ _ _ R _ _ _ _ Go Gp Q).
  - destruct (Z.eq_dec (v_type a) T_STRING) as [Ta|Ns].
    + assert (exists e, get_str_entry s (v_data a) = Some e) as [e Ge].
      { destruct Oa as [T|[(T & _)|[(_ & x & G)|[T|[T|T]]]]]; try (rewrite Ta in T; discriminate). unfold get_str in G. destruct (get_str_entry s (v_data a)); [eauto|discriminate]. }
      assert (exists f, get_str_entry s (v_data b) = Some f) as [f Gf].
      { destruct Ob as [T|[(T & _)|[(_ & x & G)|[T|[T|T]]]]]; try (rewrite Ta in T; discriminate). unfold get_str in G. destruct (get_str_entry s (v_data b)); [eauto|discriminate]. }
      unfold ren. rewrite <- E, Ta. change (T_STRING =? T_OBJ) with false. change (T_STRING =? T_STRING) with true. change (T_STRING =? T_FLOAT) with false. cbv iota. cbn [v_data].
      destruct (Z.eqb_spec (v_data a) (v_data b)) as [->|N]; [apply Z.eqb_refl|].
      destruct (Z.eqb_spec (rs (v_data a)) (rs (v_data b))) as [Q|]; [|reflexivity]. destruct N. apply (rn_str_inj _ _ _ _ R _ _ _ _ Ge Gf Q).
    + unfold ren. rewrite <- E. destruct (Z.eqb_spec (v_type a) T_OBJ); [contradiction|]. destruct (Z.eqb_spec (v_type a) T_STRING); [contradiction|]. reflexivity.
Qed.
Lemma ren_bucket v : denotes s v -> (v_type v = T_OBJ -> ro (v_data v) mod 16 = v_data v mod 16) -> key_bucket t (ren ro rs v) = key_bucket s v.
Proof.
  intros [(Rg & O) L] B. destruct Ws as [b1 W1]. destruct Wt as [b2 W2]. unfold key_bucket, value_hash. rewrite ren_type.
  destruct O as [T|[(T & _)|[(T & x & G)|[T|[T|T]]]]]; rewrite T.
  - change ((T_INT =? T_INT) || _ || _ || _) with true. cbv iota. unfold ren. now rewrite T.
  - change ((T_FLOAT =? T_INT) || _ || _ || _) with true. cbv iota. unfold ren. now rewrite T.
  - change ((T_STRING =? T_INT) || _ || _ || _) with false. change (T_STRING =? T_STRING) with true. cbv iota.
    assert (G' := ren_str_live v x T G). unfold get_str in G, G'. destruct (get_str_entry s (v_data v)) as [e|] eqn:Ge; [|discriminate].
    destruct (get_str_entry t (v_data (ren ro rs v))) as [f|] eqn:Gf; [|discriminate].
    destruct (sw_ent _ _ (w_str _ _ _ W1) _ _ Ge) as (_ & He & _). destruct (sw_ent _ _ (w_str _ _ _ W2) _ _ Gf) as (_ & Hf & _). congruence.
  - change ((T_FUNC =? T_INT) || _ || _ || _) with true. cbv iota. unfold ren. now rewrite T.
  - change ((T_OBJ =? T_INT) || _ || _ || _) with true. cbv iota. unfold ren. rewrite T. change (T_OBJ =? T_OBJ) with true. cbv iota. cbn [v_data].
    specialize (B T). change (OBJ_BUCKETS - 1) with (Z.ones 4). rewrite !Z.land_ones by lia. exact B.
  - change ((T_NIL =? T_INT) || _ || _ || _) with false. change (T_NIL =? T_STRING) with false. cbv iota. reflexivity.
Qed.

Lemma ren_look key c : denotes s key -> Forall (fun kv => denotes s (fst kv)) c ->
  alook (ren ro rs key) (map (ren_field ro rs) c) = match alook key c with Some v => Some (ren ro rs v) | None => None end.
Proof.
  intros D F. induction F as [|[k v] r Dk F IH]; [reflexivity|]. cbn [map alook ren_field fst snd] in *. rewrite (ren_key_eq _ _ D Dk).
  destruct (key_eq key k); [reflexivity|exact IH].
Qed.

Lemma read_renumbered i o key : get_obj s i = Some o -> Forall (fun kv => denotes s (fst kv)) (concat (o_buckets o)) ->
  denotes s key -> (v_type key = T_OBJ -> ro (v_data key) mod 16 = v_data key mod 16) ->
  exists v, read_field i key s = Ok (v, s) /\ read_field (ro i) (ren ro rs key) t = Ok (ren ro rs v, t).
Proof.
  intros G F Dk B. destruct Ws as [b1 W1]. destruct Wt as [b2 W2]. destruct (rn_obj _ _ _ _ R _ _ G) as (p & Gp & Bp & _).
  assert (Kb := key_bucket_range s key). assert (L := ow_len _ _ _ _ (w_obj _ _ _ W1 _ _ G)).
  assert (Zb : znth (o_buckets o) (key_bucket s key) = Some (bucket_of o (key_bucket s key))).
  { unfold bucket_of. destruct (znth (o_buckets o) (key_bucket s key)) eqn:Z; [reflexivity|]. apply znth_none_range in Z. lia. }
  assert (Fb : Forall (fun kv => denotes s (fst kv)) (bucket_of o (key_bucket s key))).
  { rewrite Forall_forall in *. intros x I. apply F. apply in_concat. eexists. split; [apply In_znth; eexists; exact Zb|exact I]. }
  assert (Bt := ren_bucket key Dk B).
  assert (Zp : znth (o_buckets p) (key_bucket t (ren ro rs key)) = Some (map (ren_field ro rs) (bucket_of o (key_bucket s key)))).
  { rewrite Bt, Bp, znth_map, Zb. reflexivity. }
  eexists. split.
  - apply (read_raw s i o key (w_str _ _ _ W1) G (proj1 Dk) Zb). eapply Forall_impl; [|exact Fb]. intros kv Q. exact (proj1 Q).
  - assert (Bk : bucket_of p (key_bucket t (ren ro rs key)) = map (ren_field ro rs) (bucket_of o (key_bucket s key))) by (unfold bucket_of at 1; now rewrite Zp).
    rewrite (read_raw t (ro i) p (ren ro rs key) (w_str _ _ _ W2) Gp).
    + rewrite Bk, ren_look by assumption. destruct (alook key _); reflexivity.
    + now apply ren_ordinary.
    + rewrite Bk. exact Zp.
    + rewrite Bk. unfold keys_ok. apply Forall_map. eapply Forall_impl; [|exact Fb]. intros kv Q. cbn [fst ren_field]. now apply ren_ordinary.
Qed.
End Lookup.

(** ** C31

    Giving memory back never goes wrong and leaves a machine that is the old one
    with its objects and strings renumbered: every object keeps its fields,
    every string its text; the global variables and the stack of the running
    context refer to the same things as before; what the host holds handles to
    keeps its identifier.  Any field of any object reads the same as before,
    unless the key is an object that has moved to another bucket.  The stacks of
    the other contexts are left as they were: they are right too if they hold
    nothing that refers to an object or a string.  The tables do not grow.

    Missing from the full property: object keys that change bucket, and stacks
    of other contexts that hold references.  Both are refuted below. *)
Theorem C31_shrink_partial s : vm_ok s ->
  exists t ro rs, shrink s = Ok (tt, t) /\ vm_ok t /\ renumbered s t ro rs /\ others_same s t /\
    ((forall i c, i <> v_cur s -> znth (v_ctxs s) i = Some (Some c) -> Forall no_reference (contents (c_stack c))) ->
     others_renumbered s t ro rs) /\
    (forall i o key, get_obj s i = Some o -> Forall (fun kv => denotes s (fst kv)) (concat (o_buckets o)) -> denotes s key ->
       (v_type key = T_OBJ -> ro (v_data key) mod 16 = v_data key mod 16) ->
       exists v, read_field i key s = Ok (v, s) /\ read_field (ro i) (ren ro rs key) t = Ok (ren ro rs v, t)) /\
    t_cap (v_objs t) <= t_cap (v_objs s) /\ t_cap (v_strs t) <= t_cap (v_strs s).
Proof.
  intros Ok0. assert (Ok1 := Ok0). destruct Ok1 as [b W]. destruct (shrink_ok s b W) as (t & ro & rs & E & R & O & Wt & C1 & C2).
  assert (Okt : vm_ok t) by (exists b; exact Wt). exists t, ro, rs. split; [exact E|]. split; [exact Okt|]. split; [exact R|]. split; [exact O|].
  split; [|split; [|auto]].
  - intros N i c Z. destruct (Z.eq_dec i (v_cur s)) as [->|Ni]; [apply (rn_current _ _ _ _ R c Z)|].
    destruct (O i c Ni Z) as (d & Zd & Cd & Q). exists d. split; [exact Zd|]. split; [|exact Q]. rewrite Cd. specialize (N i c Ni Z). clear -N.
    induction N as [|v r [N1 N2] F IH]; [reflexivity|]. cbn [map]. rewrite <- IH. f_equal. unfold ren.
    destruct (Z.eqb_spec (v_type v) T_OBJ); [contradiction|]. destruct (Z.eqb_spec (v_type v) T_STRING); [contradiction|]. reflexivity.
  - intros i o key G F D B. now apply (read_renumbered s t ro rs Ok0 Okt R i o key).
Qed.
Print Assumptions C31_shrink_partial.

(** ** Machines

    The host makes three objects, keeps the last two alive through a handle and
    a field, and collects: the first slot is free. *)
Definition keyed_prog : hostprog :=
  HObject (fun g => HObject (fun a => HAcquire a (HString (bs "ab") (fun x => HObject (fun k =>
  HWrite a k (vint 7) (HWrite a (vint 1) k (HWrite k x a (HCollect (HReturn k))))))))).
Definition keyed_run : M unit := v <- run_host nomark keyed_prog ;; push v.
Definition keyed : vm := match keyed_run vm_init with Ok (_, s) => s | Ub _ => vm_init end.
Lemma host_push_ok p s s' : vm_ok s -> has_errors s = false -> (v <- run_host nomark p ;; push v) s = Ok (tt, s') -> vm_ok s'.
Proof.
  intros Ok0 E R.
  assert (hoare (A true 0 [] []) (v <- run_host nomark p ;; push v) (fun _ s => vm_ok s)) as H.
  { eapply h_bind; [apply run_host_safe|]. intro v. intros s1 [b' Hs].
    pose proof (h_push b' 0 [] [] v s1 Hs) as P. destruct (push v s1) as [[x s2]|w]; auto. exists b'. apply P. }
  assert (A true 0 [] [] s) as I by (apply clean_exact; assumption).
  specialize (H _ I). rewrite R in H. exact H.
Qed.
Lemma keyed_ok : vm_ok keyed.
Proof. apply (host_push_ok keyed_prog vm_init); [apply vm_init_ok|reflexivity|vm_compute; reflexivity]. Qed.
Definition keyed_after : vm := match shrink keyed with Ok (_, t) => t | Ub _ => keyed end.

(** What [C31_shrink_partial] says of it, and that something does move. *)
Definition ends {A} (m : res (A * vm)) : option A := match m with Ok (a, _) => Some a | Ub _ => None end.
Example C31_example : vm_ok keyed /\ shrink keyed = Ok (tt, keyed_after) /\
  get_obj keyed 0 = None /\ (exists o, get_obj keyed 2 = Some o) /\ (exists o, get_obj keyed_after 0 = Some o) /\ get_obj keyed_after 2 = None /\
  (exists c d, znth (v_ctxs keyed) (v_cur keyed) = Some (Some c) /\ contents (c_stack c) = [vobj 2] /\
     znth (v_ctxs keyed_after) (v_cur keyed) = Some (Some d) /\ contents (c_stack d) = [vobj 0]) /\
  ends (read_field 1 (vint 1) keyed) = Some (vobj 2) /\ ends (read_field 1 (vint 1) keyed_after) = Some (vobj 0) /\
  ends (read_field 2 (vstr 0) keyed) = Some (vobj 1) /\ ends (read_field 0 (vstr 0) keyed_after) = Some (vobj 1).
Proof.
  split; [exact keyed_ok|]. split; [vm_compute; reflexivity|]. split; [vm_compute; reflexivity|].
  split; [eexists; vm_compute; reflexivity|]. split; [eexists; vm_compute; reflexivity|]. split; [vm_compute; reflexivity|].
  split; [eexists; eexists; split; [vm_compute; reflexivity|split; [vm_compute; reflexivity|split; vm_compute; reflexivity]]|].
  split; [vm_compute; reflexivity|]. split; [vm_compute; reflexivity|]. split; vm_compute; reflexivity.
Qed.

Lemma ok_same {X Y} (m : res (X * Y)) a t u : m = Ok (a, t) -> m = Ok (a, u) -> t = u.
Proof. congruence. Qed.
Definition only_in (l : list Z) (t : vm) : bool :=
  forallb (fun j => existsb (Z.eqb j) l || match get_obj t j with None => true | Some _ => false end) (zseq 0 (length (t_slots (v_objs t)))).
Lemma only_in_ok l t : only_in l t = true -> forall j p, get_obj t j = Some p -> In j l.
Proof.
  intros B j p G. unfold only_in in B. rewrite forallb_forall in B.
  assert (Rg := znth_some_range _ _ _ (proj1 (tab_get_some _ _ _) G)). specialize (B j). rewrite G in B.
  assert (I : In j (zseq 0 (length (t_slots (v_objs t))))) by (apply In_zseq; unfold zlen in Rg; lia). specialize (B I).
  rewrite Bool.orb_false_r in B. apply existsb_exists in B. destruct B as (k & Ik & E). apply Z.eqb_eq in E. now subst.
Qed.

(** A field whose key is an object that moves cannot be found again: the key is
    rewritten but stays in the chain of the bucket of its old identifier. *)
Theorem C31_object_key_refuted : exists s t ro rs i key,
  vm_ok s /\ shrink s = Ok (tt, t) /\ renumbered s t ro rs /\ denotes s key /\ (exists o, get_obj s i = Some o) /\
  ends (read_field i key s) = Some (vint 7) /\ ends (read_field (ro i) (ren ro rs key) t) = Some vnil.
Proof.
  destruct (C31_shrink_partial keyed keyed_ok) as (t & ro & rs & E & _ & R & _).
  assert (Et : shrink keyed = Ok (tt, keyed_after)) by (vm_compute; reflexivity). pose proof (ok_same _ _ _ _ E Et) as Q. subst t. clear Et.
  exists keyed, keyed_after, ro, rs, 1, (vobj 2). split; [exact keyed_ok|]. split; [exact E|]. split; [exact R|].
  assert (exists o, get_obj keyed 1 = Some o /\ o_handles o = 1) as (o1 & G1 & H1) by (eexists; split; vm_compute; reflexivity).
  assert (exists o, get_obj keyed 2 = Some o) as (o2 & G2) by (eexists; vm_compute; reflexivity).
  split; [split; [split; [cbn; unfold W32; lia|cbn; auto 10]|intros _; exists o2; exact G2]|]. split; [exists o1; exact G1|].
  assert (F1 : ro 1 = 1). { apply (rn_fixed _ _ _ _ R 1 o1 G1). left. rewrite H1. discriminate. }
  assert (F2 : ro 2 = 0).
  { destruct (rn_obj _ _ _ _ R _ _ G2) as (p & Gp & _). 
    assert (B : only_in [0; 1] keyed_after = true) by (vm_compute; reflexivity).
    destruct (only_in_ok _ _ B _ _ Gp) as [Q|[Q|[]]]; [symmetry; exact Q|]. exfalso. rewrite <- F1 in Q.
    assert (Bad := rn_obj_inj _ _ _ _ R 1 2 o1 o2 G1 G2 Q). discriminate Bad. }
  rewrite F1. replace (ren ro rs (vobj 2)) with (vobj 0) by (unfold ren; cbn; now rewrite F2).
  split; vm_compute; reflexivity.
Qed.
Print Assumptions C31_object_key_refuted.

(** The host makes three objects and leaves the first two to the collector.
    The third is passed to a coroutine that is created but has not run yet. *)
Definition parked_prog : hostprog :=
  HObject (fun g => HObject (fun h => HObject (fun a => HAcquire a (HCollect (HRelease a (HReturn a)))))).
Definition parked_code : list Z := [7;1;38;20;0;0;0;0].
Definition parked_start : vm :=
  load_code parked_code (set_funcs [mkF 1 4 INVALID] vm_init).
Definition parked_with : vm :=
  match (v <- run_host nomark (HReturn (vfunc 0)) ;; push v) parked_start with Ok (_, s) => s | Ub _ => vm_init end.
Definition parked_args : vm :=
  match (v <- run_host nomark parked_prog ;; push v) parked_with with Ok (_, s) => s | Ub _ => vm_init end.
Definition parked : vm :=
  match run_n nomark (api_host nomark ex_prog) 2 parked_args with Some s => s | None => vm_init end.
Lemma parked_ok : vm_ok parked.
Proof.
  assert (P : vm_ok parked_args).
  { apply (host_push_ok parked_prog parked_with); [|vm_compute; reflexivity|vm_compute; reflexivity].
    apply (host_push_ok (HReturn (vfunc 0)) parked_start); [|vm_compute; reflexivity|vm_compute; reflexivity].
    destruct vm_init_ok as (b & W). exists b. destruct W. split; auto. cbn. split; [lia|]. exists 3. split; [lia|reflexivity]. }
  destruct (run_goes nomark (api_host nomark ex_prog) 2 parked_args parked) as (l & G); [vm_compute; reflexivity|].
  eapply goes_ok; [exact P|exact G].
Qed.
Definition parked_after : vm := match shrink parked with Ok (_, t) => t | Ub _ => parked end.

(** A coroutine that is not running keeps the old identifiers on its stack:
    what was a reference to a live object is afterwards one to nothing. *)
Theorem C31_coroutine_stack_refuted : exists s t i c d x o,
  vm_ok s /\ shrink s = Ok (tt, t) /\
  znth (v_ctxs s) i = Some (Some c) /\ In (vobj x) (contents (c_stack c)) /\ get_obj s x = Some o /\
  znth (v_ctxs t) i = Some (Some d) /\ contents (c_stack d) = contents (c_stack c) /\ get_obj t x = None.
Proof.
  exists parked, parked_after, 1. eexists. eexists. exists 2. eexists. split; [exact parked_ok|]. split; [vm_compute; reflexivity|].
  split; [vm_compute; reflexivity|]. split; [vm_compute; auto|]. split; [vm_compute; reflexivity|]. split; [vm_compute; reflexivity|].
  split; vm_compute; reflexivity.
Qed.
Print Assumptions C31_coroutine_stack_refuted.
