(** * RoundProperties: what was saved is what is loaded (C43, C45) *)
From Verif Require Import Base BaseFacts TableModel TableProofs State MonadFacts StackModel StackProofs
  StrModel StrProofs ValueModel ValueSpec ObjsModel ObjsSpec ObjsProofs ObjsProperties VmModel VmSpec VmInv VmStep VmProperties
  RegModel RegSpec RegProofs RegProperties TeardownModel SaveModel SaveSpec SaveProofs SaveProperties SaveRound.

Ltac Zify.zify_post_hook ::= Z.div_mod_to_equations.

(** ** What is written are bytes *)

Lemma app_bytes a b : any_bytes a -> any_bytes b -> any_bytes (a ++ b).
Proof. intros. apply Forall_app. auto. Qed.
Lemma context_bytes co c : any_bytes (save_context co c).
Proof.
  unfold save_context, save_stack. repeat apply app_bytes; try apply word_bytes.
  - apply concat_bytes. intros. apply save_value_bytes.
  - destruct co; [apply word_bytes|constructor].
Qed.
Lemma chain_bytes s : forall f i b, save_chain f s i = Ok b -> any_bytes b.
Proof.
  induction f as [|f IH]; intros i b E; [discriminate|]. cbn [save_chain] in E. destruct (znth (v_ctxs s) i) as [[c|]|]; try discriminate.
  destruct (c_parent c) as [p|].
  - destruct (save_chain f s p) as [b'|] eqn:E'; [|discriminate]. cbn [bind] in E. injection E as <-. change (any_bytes (save_value (c_obj c) ++ b')). apply app_bytes; [apply save_value_bytes|eauto].
  - injection E as <-. change (any_bytes (save_value (c_obj c))). apply save_value_bytes.
Qed.
Ltac bts := repeat match goal with
  | |- any_bytes (_ ++ _) => apply app_bytes
  | |- any_bytes (word _) => apply word_bytes
  | |- any_bytes (save_value _) => apply save_value_bytes
  | |- any_bytes (save_string _) => apply save_string_bytes
  | |- any_bytes (concat _) => apply concat_bytes; intros
  end.

Lemma save_bytes s host_save host_load sub_save sub_load b : saveable s -> host_faithful s host_save host_load -> subs_faithful sub_save sub_load ->
  save host_save sub_save s = Ok b -> any_bytes b.
Proof.
  intros Sv Hf Hs E. assert (W := sv_words _ Sv). assert (Wf := sv_wf _ Sv). unfold save in E.
  destruct (znth (v_ctxs s) 0) as [[root|]|]; try discriminate. rewrite (save_externals_ok s Wf) in E. cbn [bind] in E.
  destruct (save_chain _ s (v_cur s)) as [ba|] eqn:Ea; [|discriminate]. cbn [bind] in E.
  match type of E with Ok ?x = Ok b => assert (Q : x = b) by congruence end. rewrite <- Q. clear Q E.
  apply app_bytes. { now apply (Forall_forall _ MAGIC); intros x I; cbn in I; repeat destruct I as [<-|I]; try lia. }
  apply app_bytes; [apply word_bytes|].
  apply app_bytes. { unfold save_instructions. bts. }
  apply app_bytes. { destruct (mw_errs _ W) as [F _]. rewrite Forall_forall in F. unfold save_errors. bts. now apply F. }
  apply app_bytes. { unfold save_statics. bts. }
  apply app_bytes. { apply context_bytes. }
  apply app_bytes. { now apply strings_bytes. }
  apply app_bytes. { unfold save_gc. bts. }
  apply app_bytes. { destruct (mw_extfuncs _ W) as [_ F]. rewrite Forall_forall in F. unfold save_functions. bts. now apply F. }
  apply app_bytes. { unfold save_objects. change (over 0 (t_slots (v_objs s)) save_object_entry) with (over 0 (t_slots (v_objs s)) (fun i x => match x with None => []
      | Some o => (fun i o => word (o_idx o) ++ save_object o) i o end)). rewrite over_entries. unfold save_object. bts. }
  apply app_bytes. { destruct (mw_globals _ W) as [_ F]. rewrite Forall_forall in F. unfold save_globals. bts. now apply F. }
  apply app_bytes. { destruct (mw_types _ W) as [F _]. rewrite Forall_forall in F. unfold save_types. bts. now apply F. }
  apply app_bytes. { destruct (mw_subs _ W) as [_ F]. rewrite Forall_forall in F. unfold save_subsystems. bts.
    now apply F. destruct (sub_ser x); [apply Hs|constructor]. }
  apply app_bytes.
  { apply concat_bytes. intros i _. unfold enc_external, save_external. destruct (get_obj s i) as [o|] eqn:G; [|constructor].
    destruct (Z.eqb_spec (o_ext o) INVALID); [constructor|]. destruct (znth (v_exttypes s) (o_ext o)) as [et|]; [|constructor].
    destruct (et_ser et); cbn [negb]; [|constructor]. destruct (Z.eqb_spec (o_ext o) (v_corotype s)).
    + unfold save_coroutine. destruct (o_data o); [|constructor]. destruct (znth _ _) as [[|]|]; try apply context_bytes; apply Forall_nil.
    + now apply (Hf i o). }
  apply app_bytes. { destruct (mw_files _ W) as [F _]. rewrite Forall_forall in F. unfold save_files. bts. now apply F. }
  apply app_bytes. { unfold save_markers, save_marker. bts. }
  eapply chain_bytes; exact Ea.
Qed.

(** ** C43: saving and loading back *)

Lemma round_trip s t host_save host_load sub_save sub_load :
  saveable s -> prepared t -> twin s t -> host_faithful s host_save host_load -> subs_faithful sub_save sub_load ->
  exists b t', save host_save sub_save s = Ok b /\
    (forall rest, load host_load sub_load (b ++ rest) t = Ok (LDone tt rest t')) /\
    same_machine s t' /\ vm_ok t' /\ host_ids (zlen (v_extfuncs s)) s t' /\ zlen (v_extfuncs t') = zlen (v_extfuncs s).
Proof.
  intros Sv P T Hf Hs. destruct (prepared_fresh t P) as ([F1 F2 F3 F4 [r F5] F6] & U & S16).
  assert (Wf := sv_wf _ Sv). assert (Et := tn_types _ _ T). assert (Ec := tn_co _ _ T).
  assert (Zc : znth (v_exttypes s) (v_corotype s) = Some (mkET (bs "coroutine") true true true)) by (rewrite <- Et, <- Ec, F4, F5; reflexivity).
  destruct (rr_whole s Sv host_save host_load sub_save sub_load Hf Hs (v_maxstack t) (tn_stack _ _ T) (tn_names _ _ T)
    ltac:(rewrite <- Et; exact U) _ Zc eq_refl) as (b & E & R).
  destruct (R t) as ([] & t' & L & Fin).
  { split; [split; [exact Et|split; [exact Ec|split; [reflexivity|split; [apply (tn_fields _ _ T)|apply (tn_subs _ _ T)]]]]|].
    split; [exact F1|]. split; [apply (tn_funcs _ _ T)|]. split; [apply (tn_errs _ _ T)|].
    unfold at'. rewrite F2. eexists. split; [reflexivity|]. repeat split. }
  exists b, t'. split; [exact E|]. split; [exact L|].
  assert (Sm : same_machine s t') by (eapply finished_same; eauto). split; [exact Sm|].
  split; [|destruct Fin as (ob & _ & _ & ((_ & _ & _ & _ & _ & _ & _ & _ & _ & _ & En & Ei) & _) & _); split; [exact Ei|];
           apply (f_equal zlen) in En; unfold zlen in *; now rewrite !map_length in En].
  assert (B := save_bytes _ _ _ _ _ _ Sv Hf Hs E). assert (L0 := L []). rewrite app_nil_r in L0.
  apply (C44_loaded_wf_partial host_load sub_load t b [] t' P B L0).
  assert (Ld := load_loaded _ _ _ _ _ _ P B L0).
  destruct Fin as (ob & _ & _ & (Hm & _ & Cap & _) & _). destruct Hm as (_ & _ & _ & _ & _ & _ & Ss & _).
  assert (Gs := sm_strs _ _ Sm). destruct (sm_gc _ _ Sm) as (Gp & _). split.
  - unfold t_cap. rewrite Ss. assert (Q := pow2_bounds _ (tw_cap _ (sw_tab _ _ (w_str _ _ _ Wf)))). unfold t_cap in Q. lia.
  - rewrite Cap. assert (Q := pow2_bounds _ (tw_cap _ (w_tab _ _ _ Wf))). lia.
  - intros i j x. unfold get_str. rewrite !Gs. destruct (get_str_entry s i) as [e|] eqn:E1; [|discriminate].
    destruct (get_str_entry s j) as [f|] eqn:E2; [|discriminate]. intros Q1 Q2. injection Q1 as Q1. injection Q2 as Q2.
    apply (sw_uniq _ _ (w_str _ _ _ Wf) i j e f E1 E2). congruence.
  - intros i e G. rewrite Gs in G. rewrite Gp. apply (w_sgc _ _ _ Wf i e G).
  - intros i o G. assert (Q := sm_objs _ _ Sm i). rewrite G in Q. destruct (get_obj s i) as [o0|] eqn:G0; [|destruct Q].
    rewrite (so_gc _ _ _ _ Q), Gp. apply (w_obj _ _ _ Wf i o0 G0).
  - intros i c Z.
    assert (K : exists c0, (exists j, znth (v_ctxs s) j = Some (Some c0)) /\ same_ctx s t' c0 c).
    { destruct (Z.eq_dec i 0) as [->|N].
      - destruct (sm_root _ _ Sm) as (c0 & d & Z0 & Zd & Sc). rewrite Z in Zd. injection Zd as <-. eauto.
      - destruct Ld as (_ & G & _). destruct (cg_co1 _ G i c N Z) as (id & o & Oc & Go & Eo & Do).
        assert (Q := sm_objs _ _ Sm id). rewrite Go in Q. destruct (get_obj s id) as [o0|] eqn:G0; [|destruct Q].
        destruct (so_co _ _ _ _ Q) as (a & k & c0 & d & D1 & D2 & D3 & D4 & D5).
        + rewrite <- (so_ext _ _ _ _ Q), Eo. destruct Hm as (? & ?) || idtac.
          destruct (load_loaded _ _ _ _ _ _ P B L0) as ((((Fx & _) & _) & _) & _). destruct Fx as (_ & Q2 & _). rewrite Q2, <- Ec. now symmetry.
        + rewrite Do in D2. injection D2 as <-. rewrite Z in D4. injection D4 as <-. eauto. }
    destruct K as (c0 & [j Zj] & Sc). rewrite (sc_size _ _ _ _ Sc), (sc_cap _ _ _ _ Sc). apply (kw_size _ (w_stk _ _ _ Wf j c0 Zj)).
Qed.

(** What a machine wrote can be read, whatever follows it, into any machine
    prepared like it; all of it is read, the machine read back is the same as
    the one saved, and it is well formed.

    Partial: the machine read back holds the same things, but that it goes on
    exactly as the original would is false -- see C43_next_object_refuted. *)
Theorem C43_round_trip_partial s t host_save host_load sub_save sub_load :
  saveable s -> prepared t -> twin s t -> host_faithful s host_save host_load -> subs_faithful sub_save sub_load ->
  exists b t', save host_save sub_save s = Ok b /\
    (forall rest, load host_load sub_load (b ++ rest) t = Ok (LDone tt rest t')) /\
    same_machine s t' /\ vm_ok t'.
Proof.
  intros. destruct (round_trip s t host_save host_load sub_save sub_load) as (b & t' & Q); auto. exists b, t'. tauto.
Qed.
Print Assumptions C43_round_trip_partial.

(** ** C45: host functions *)

(** A host function has an identifier, [i], in the machine saved.  If it was
    the last one registered it has the same one in the machine read back. *)
Theorem C45_last_partial s t host_save host_load sub_save sub_load b rest t' n x :
  saveable s -> prepared t -> twin s t -> host_faithful s host_save host_load -> subs_faithful sub_save sub_load ->
  save host_save sub_save s = Ok b -> load host_load sub_load (b ++ rest) t = Ok (LDone tt rest t') ->
  znth (v_extfuncs s) n = Some x -> x_func x <> INVALID -> n = zlen (v_extfuncs s) - 1 ->
  get_or_create_internal n s = Ok (x_func x, s) /\ get_or_create_internal n t' = Ok (x_func x, t').
Proof.
  intros Sv P T Hf Hs E L Z N Last. destruct (round_trip s t host_save host_load sub_save sub_load Sv P T Hf Hs) as (b' & u & E' & L' & _ & _ & Ids & Len).
  rewrite E in E'. injection E' as <-. rewrite L' in L. injection L as ->.
  assert (R := znth_some_range _ _ _ Z). destruct (znth_in_range (v_extfuncs t') n) as [y Zy]; [lia|].
  assert (Q := Ids n x y ltac:(lia) Z Zy). destruct (Z.eqb_spec n (zlen (v_extfuncs s) - 1)); [|lia].
  unfold get_or_create_internal, mbind, gets, lift, rd, ret. destruct (Z.leb_spec (zlen (v_extfuncs s)) n); [lia|].
  destruct (Z.leb_spec (zlen (v_extfuncs t')) n); [lia|]. rewrite Z, Zy, Q. destruct (Z.eqb_spec (x_func x) INVALID); [contradiction|auto].
Qed.
Print Assumptions C45_last_partial.

(** Any other one -- of every machine with two or more -- gets a new identifier
    when the host asks for it again, different from the one stored in the
    program's variables, so that the two no longer compare equal. *)
Theorem C45_others_refuted s t host_save host_load sub_save sub_load b rest t' n x :
  saveable s -> prepared t -> twin s t -> host_faithful s host_save host_load -> subs_faithful sub_save sub_load ->
  save host_save sub_save s = Ok b -> load host_load sub_load (b ++ rest) t = Ok (LDone tt rest t') ->
  znth (v_extfuncs s) n = Some x -> 0 <= x_func x < zlen (v_funcs s) -> n < zlen (v_extfuncs s) - 1 ->
  get_or_create_internal n s = Ok (x_func x, s) /\
  exists j u, get_or_create_internal n t' = Ok (j, u) /\ j <> x_func x.
Proof.
  intros Sv P T Hf Hs E L Z Rx Early. destruct (round_trip s t host_save host_load sub_save sub_load Sv P T Hf Hs) as (b' & u & E' & L' & Sm & _ & Ids & Len).
  rewrite E in E'. injection E' as <-. rewrite L' in L. injection L as ->.
  assert (R := znth_some_range _ _ _ Z). destruct (znth_in_range (v_extfuncs t') n) as [y Zy]; [lia|].
  assert (Q := Ids n x y ltac:(lia) Z Zy). destruct (Z.eqb_spec n (zlen (v_extfuncs s) - 1)); [lia|].
  destruct (mw_funcs _ (sv_words _ Sv)) as [Bf _]. split.
  - unfold get_or_create_internal, mbind, gets, lift, rd, ret. destruct (Z.leb_spec (zlen (v_extfuncs s)) n); [lia|].
    rewrite Z. destruct (Z.eqb_spec (x_func x) INVALID); [unfold INVALID in *; lia|reflexivity].
  - unfold get_or_create_internal. unfold mbind at 1, gets at 1. destruct (Z.leb_spec (zlen (v_extfuncs t')) n); [lia|].
    unfold mbind at 1, lift at 1, rd. rewrite Zy, Q, Z.eqb_refl.
    assert (Ef := sm_funcs _ _ Sm). assert (R0 := zlen_nonneg (v_funcs s)).
    exists (zlen (v_funcs s)). eexists. split; [|lia].
    assert (Ec : create_function t' = Ok (zlen (v_funcs s), set_funcs (v_funcs s ++ [mkF 0 0 INVALID]) t')).
    { unfold create_function, mbind, gets, modify, ret. rewrite Ef. replace (u32 (zlen (v_funcs s) + 1) =? 0) with false; [reflexivity|].
      symmetry. apply Z.eqb_neq. unfold u32, W32, INVALID in *. lia. }
    rewrite (bind_run _ _ _ _ _ Ec). unfold mbind at 1, gets at 1. vs. unfold mbind at 1, lift at 1.
    rewrite BaseFacts.wr_ok by (rewrite zlen_app; change (zlen [mkF 0 0 INVALID]) with 1; lia).
    unfold mbind at 1, modify at 1, mbind at 1, lift at 1. rewrite BaseFacts.wr_ok by lia. reflexivity.
Qed.
Print Assumptions C45_others_refuted.

(** ** What a program reads is the same *)

Lemma alook_app key : forall a b, alook key (a ++ b) = match alook key a with Some v => Some v | None => alook key b end.
Proof. induction a as [|[k v] r IH]; intros b; cbn [app alook]; [reflexivity|]. destruct (key_eq key k); auto. Qed.
Lemma alook_rev s key : ordinary s key -> forall c, keys_ok s c -> kdistinct c -> alook key (rev c) = alook key c.
Proof.
  intros O. induction c as [|[k v] r IH]; intros K D; [reflexivity|]. inversion K as [|? ? Kk Kr]; subst. destruct D as [D Dr].
  cbn [rev alook]. rewrite alook_app, IH by auto. cbn [alook]. destruct (key_eq key k) eqn:E.
  - rewrite (alook_subst s key k O Kk E r Kr), D. reflexivity.
  - destruct (alook key r); reflexivity.
Qed.
Lemma pairs_distinct : forall c : list (value * value),
  (forall p q k l, p <> q -> znth c p = Some k -> znth c q = Some l -> key_eq (fst k) (fst l) = false) -> kdistinct c.
Proof.
  induction c as [|[k v] r IH]; intros H; cbn [kdistinct]; [exact I|]. split.
  - apply alook_none_forall. apply Forall_forall. intros x Ix. apply In_znth in Ix. destruct Ix as [p Zp].
    assert (R := znth_some_range _ _ _ Zp). apply (H 0 (p + 1) (k, v) x); [lia|apply znth_cons_0|].
    rewrite znth_cons_S by lia. now replace (p + 1 - 1) with p by lia.
  - apply IH. intros p q x y N Zp Zq. assert (R := znth_some_range _ _ _ Zp). assert (R' := znth_some_range _ _ _ Zq).
    apply (H (p + 1) (q + 1)); [lia| |]; rewrite znth_cons_S by lia.
    + now replace (p + 1 - 1) with p by lia.
    + now replace (q + 1 - 1) with q by lia.
Qed.
Lemma same_strs_ordinary s t v : (forall i, get_str_entry t i = get_str_entry s i) -> ordinary s v -> ordinary t v.
Proof. intros E [A B]. split; [exact A|]. unfold get_str in *. rewrite E. exact B. Qed.
Lemma same_strs_bucket s t k : (forall i, get_str_entry t i = get_str_entry s i) -> key_bucket t k = key_bucket s k.
Proof. intros E. unfold key_bucket, value_hash. now rewrite E. Qed.

(** Every field, of every object, under every ordinary key. *)
Theorem C43_fields s t i o key : saveable s -> same_machine s t -> vm_ok t -> get_obj s i = Some o -> ordinary s key ->
  exists v, read_field i key s = Ok (v, s) /\ read_field i key t = Ok (v, t).
Proof.
  intros Sv Sm [b Wt] G O. assert (Ws := sv_wf _ Sv). assert (Es := sm_strs _ _ Sm).
  assert (Q := sm_objs _ _ Sm i). rewrite G in Q. destruct (get_obj t i) as [p|] eqn:Gt; [|destruct Q].
  assert (Len := ow_len _ _ _ _ (w_obj _ _ _ Ws i o G)). assert (R := key_bucket_range s key).
  destruct (znth (o_buckets o) (key_bucket s key)) as [c|] eqn:Zc; [|apply znth_none_range in Zc; lia].
  destruct (sv_keys _ Sv i o _ c G Zc) as [Kc Dc]. apply pairs_distinct in Dc.
  assert (Ko : keys_ok s c) by (eapply Forall_impl; [|exact Kc]; cbn; tauto).
  assert (B1 : bucket_of o (key_bucket s key) = c) by (unfold bucket_of; now rewrite Zc).
  assert (B2 : bucket_of p (key_bucket s key) = rev c).
  { unfold bucket_of. rewrite (so_fields _ _ _ _ Q), znth_map, Zc. reflexivity. }
  eexists. split.
  - apply (read_raw s i o key); auto; [apply (w_str _ _ _ Ws)|now rewrite B1|now rewrite B1].
  - assert (Et := same_strs_bucket s t key Es).
    rewrite (read_raw t i p key (w_str _ _ _ Wt) Gt (same_strs_ordinary s t key Es O)).
    + rewrite Et, B1, B2, (alook_rev s key O c Ko Dc). reflexivity.
    + rewrite Et, B2, (so_fields _ _ _ _ Q), znth_map, Zc. reflexivity.
    + rewrite Et, B2. apply Forall_rev. eapply Forall_impl; [|exact Ko]. intros. now apply (same_strs_ordinary s t).
Qed.
Print Assumptions C43_fields.

(** ** Concrete cases *)

(** Checking [machine_words] and the rest of [saveable] of a given machine. *)
Definition u32_b (z : Z) : bool := (0 <=? z) && (z <? W32).
Definition raw_b (v : value) : bool := u32_b (v_type v) && u32_b (v_data v).
Definition text_b (t : bytes) : bool := forallb (fun c => (0 <? c) && (c <? 256)) t && (zlen t <? INVALID - 33).
Definition words_b (s : vm) : bool :=
  forallb u32_b (v_code s) && (zlen (v_code s) <? INVALID / 4) &&
  forallb raw_b (v_static s) && (zlen (v_static s) <? INVALID / 8) &&
  forallb text_b (v_errs s) && (zlen (v_errs s) <? W32) &&
  forallb (fun x => match x with Some c => u32_b (c_ip c) && u32_b (c_state c) && forallb raw_b (k_vals (c_stack c)) &&
                      (k_cap (c_stack c) <? INVALID / 8) | None => true end) (v_ctxs s) &&
  (t_cap (v_strs s) <? INVALID / 8) &&
  forallb (fun x => match x with Some e => zlen (s_str e) <? INVALID - 33 | None => true end) (t_slots (v_strs s)) &&
  u32_b (v_gcpass s) && u32_b (v_gcint s) && u32_b (v_gccount s) && u32_b (v_newint s) && u32_b (v_newcount s) &&
  (zlen (v_extfuncs s) <? INVALID / 4) && forallb (fun x => u32_b (x_func x) && text_b (x_name x)) (v_extfuncs s) &&
  (zlen (v_funcs s) <? INVALID / 12) &&
  forallb (fun f => u32_b (f_argc f) && u32_b (f_first f) &&
             ((f_ext f =? INVALID) || ((0 <=? f_ext f) && (f_ext f <? zlen (v_extfuncs s))))) (v_funcs s) &&
  (t_cap (v_objs s) <? INVALID / 8) &&
  forallb (fun x => match x with Some o => u32_b (o_ext o) && ((o_ext o =? INVALID) || (o_ext o <? zlen (v_exttypes s))) &&
             forallb (fun kv => raw_b (fst kv) && raw_b (snd kv)) (concat (o_buckets o)) | None => true end) (t_slots (v_objs s)) &&
  (zlen (v_globals s) <? INVALID / 16) && forallb (fun g => u32_b (fst g) && text_b (snd g)) (v_globals s) &&
  forallb (fun t => text_b (et_name t)) (v_exttypes s) && (4 * zlen (v_exttypes s) + longest (v_exttypes s) + 8 <? INVALID) &&
  (zlen (concat (v_subsys s)) <? W32) && forallb (fun x => text_b (sub_name x)) (concat (v_subsys s)) &&
  forallb text_b (v_files s) && (zlen (v_files s) <? INVALID / 8) &&
  (zlen (v_markers s) <? INVALID / 16) &&
  forallb (fun m => u32_b (mk_instr m) && u32_b (mk_file m) && u32_b (mk_line m) && u32_b (mk_actual m)) (v_markers s).
Definition ordinary_b (s : vm) (v : value) : bool :=
  u32_b (v_data v) && ((v_type v =? T_INT) || (v_type v =? T_NIL) || (v_type v =? T_OBJ) || (v_type v =? T_FUNC) ||
   ((v_type v =? T_STRING) && match get_str s (v_data v) with Some _ => true | None => false end)).
Definition distinct_b (c : list (value * value)) : bool :=
  let l := zseq 0 (length c) in
  forallb (fun p => forallb (fun q => (p =? q) || match znth c p, znth c q with
    | Some k, Some l => negb (key_eq (fst k) (fst l)) | _, _ => true end) l) l.
Definition keys_b (s : vm) : bool :=
  forallb (fun x => match x with None => true | Some o =>
    forallb (fun b => match znth (o_buckets o) b with None => true | Some c =>
      forallb (fun kv => ordinary_b s (fst kv) && (key_bucket s (fst kv) =? b)) c && distinct_b c end)
      (zseq 0 (length (o_buckets o))) end) (t_slots (v_objs s)).
Definition running_b (s : vm) : bool :=
  forallb (fun x => match x with Some c => c_state c =? CO_RUNNING | None => true end) (v_ctxs s).

Lemma forallb_Forall {A} (p : A -> bool) (P : A -> Prop) l : (forall x, p x = true -> P x) -> forallb p l = true -> Forall P l.
Proof. intros H. rewrite forallb_forall. intros K. apply Forall_forall. auto. Qed.
Lemma u32_b_ok z : u32_b z = true -> is_u32 z. Proof. unfold u32_b, is_u32. lia. Qed.
Lemma raw_b_ok v : raw_b v = true -> raw_value v.
Proof. unfold raw_b, raw_value. rewrite andb_true_iff. intros [A B]. split; now apply u32_b_ok. Qed.
Lemma text_b_ok t : text_b t = true -> short_text t.
Proof.
  unfold text_b, short_text. rewrite andb_true_iff. intros [A B]. split; [|lia].
  revert A. apply forallb_Forall. intros x. lia.
Qed.
Lemma slots_b {A} (p : A -> bool) l i x : forallb (fun x => match x with Some x => p x | None => true end) l = true ->
  znth l i = Some (Some x) -> p x = true.
Proof. intros H Z. rewrite forallb_forall in H. apply (H (Some x)). apply In_znth; eauto. Qed.
Lemma words_check s : words_b s = true -> machine_words s.
Proof.
  unfold words_b. rewrite !andb_true_iff. intros H.
  repeat match goal with H : _ /\ _ |- _ => destruct H end.
  repeat match goal with H : u32_b _ = true |- _ => apply u32_b_ok in H end.
  split; try (split; [|lia]); try tauto; try (split; [lia|]).
  all: try (eapply forallb_Forall; [|eassumption]; intros x; cbv beta; rewrite ?andb_true_iff;
            intuition (auto using u32_b_ok, raw_b_ok, text_b_ok; lia)).
  - intros i c Z. match goal with H : forallb _ (v_ctxs s) = true |- _ => apply (slots_b (fun c => u32_b (c_ip c) && u32_b (c_state c) &&
      forallb raw_b (k_vals (c_stack c)) && (k_cap (c_stack c) <? INVALID / 8)) _ _ _ H) in Z end.
    rewrite !andb_true_iff in Z. destruct Z as (((Z1 & Z2) & Z3) & Z4). split; [now apply u32_b_ok|]. split; [now apply u32_b_ok|].
    split; [|lia]. revert Z3. apply forallb_Forall. exact raw_b_ok.
  - intros i e G. unfold get_str_entry in G. apply tab_get_some in G.
    match goal with H : forallb _ (t_slots (v_strs s)) = true |- _ => apply (slots_b (fun e => zlen (s_str e) <? INVALID - 33) _ _ _ H) in G end. lia.
  - intros i o G. unfold get_obj in G. apply tab_get_some in G.
    match goal with H : forallb _ (t_slots (v_objs s)) = true |- _ => apply (slots_b (fun o => u32_b (o_ext o) &&
      ((o_ext o =? INVALID) || (o_ext o <? zlen (v_exttypes s))) && forallb (fun kv => raw_b (fst kv) && raw_b (snd kv)) (concat (o_buckets o))) _ _ _ H) in G end.
    rewrite !andb_true_iff, orb_true_iff in G. destruct G as ((G1 & G2) & G3). split; [now apply u32_b_ok|]. split; [lia|].
    revert G3. apply forallb_Forall. intros x. rewrite andb_true_iff. intros [A B]. split; now apply raw_b_ok.
Qed.
Lemma ordinary_check s v : ordinary_b s v = true -> ordinary s v.
Proof.
  unfold ordinary_b. rewrite andb_true_iff, !orb_true_iff, andb_true_iff, !Z.eqb_eq. intros [A B].
  split; [apply u32_b_ok in A; exact A|]. destruct B as [[[[B | B] | B] | B] | [B C]]; auto 10.
  right; right; left. split; [exact B|]. destruct (get_str s (v_data v)); [eauto|discriminate].
Qed.
Lemma keys_check s : keys_b s = true -> forall i o b c, get_obj s i = Some o -> znth (o_buckets o) b = Some c ->
  Forall (fun kv => ordinary s (fst kv) /\ key_bucket s (fst kv) = b) c /\
  forall p q k l, p <> q -> znth c p = Some k -> znth c q = Some l -> key_eq (fst k) (fst l) = false.
Proof.
  unfold keys_b. intros H i o b c G Z. unfold get_obj in G. apply tab_get_some in G.
  apply (slots_b (fun o => forallb (fun b => match znth (o_buckets o) b with None => true | Some c =>
      forallb (fun kv => ordinary_b s (fst kv) && (key_bucket s (fst kv) =? b)) c && distinct_b c end)
      (zseq 0 (length (o_buckets o)))) _ _ _ H) in G.
  rewrite forallb_forall in G. assert (R := znth_some_range _ _ _ Z). unfold zlen in R.
  specialize (G b ltac:(apply In_zseq; lia)). rewrite Z in G. apply andb_true_iff in G. destruct G as [G1 G2]. split.
  - revert G1. apply forallb_Forall. intros x. rewrite andb_true_iff, Z.eqb_eq. intros [A B]. split; [now apply ordinary_check|exact B].
  - intros p q k l N Zp Zq. unfold distinct_b in G2. rewrite forallb_forall in G2.
    assert (Rp := znth_some_range _ _ _ Zp). assert (Rq := znth_some_range _ _ _ Zq). unfold zlen in Rp, Rq.
    specialize (G2 p ltac:(apply In_zseq; lia)). rewrite forallb_forall in G2. specialize (G2 q ltac:(apply In_zseq; lia)).
    rewrite Zp, Zq in G2. destruct (Z.eqb_spec p q); [lia|]. cbn [orb] in G2. now apply negb_true_iff in G2.
Qed.
Lemma saveable_check s : wf true 0 s -> words_b s = true -> keys_b s = true -> running_b s = true -> v_funcs s <> [] -> saveable s.
Proof.
  intros W A B C D. split; auto.
  - now apply words_check.
  - now apply keys_check.
  - intros l _ i c _ Z. apply (slots_b (fun c => c_state c =? CO_RUNNING) _ _ _ C) in Z. lia.
Qed.
Lemma ok_exact s : vm_ok s -> has_errors s = false -> wf true 0 s.
Proof. intros [b W] H. destruct b; [exact W|]. rewrite (w_err _ _ _ W eq_refl) in H. discriminate. Qed.

(** A machine with an object of two fields in the same bucket, on which the
    host holds a handle, a coroutine resumed by the main program, and room for
    two more objects. *)
Definition saved_two : vm :=
  set_objs (mkT [Some (mkO 0 0 2 (zupd (repeat [] 16) 3 [(mkV T_INT 3, mkV T_STRING 0); (mkV T_INT 19, mkV T_INT 8)]) 1 INVALID None);
                 None; Some (mkO 2 0 0 (repeat [] 16) 0 0 (Some 1)); None] [])
  (set_ctxs (v_ctxs vm_init ++ [Some (mkC (mkK [mkV T_INT 5; vzero] 1 2 1) 4 (Some 0) (vobj 2) CO_RUNNING)]) saved_one).
Definition file_two : bytes := match save no_save no_sub saved_two with Ok b => b | Ub _ => [] end.
Definition machine_two : vm :=
  match load no_load no_subload file_two host_made with Ok (LDone _ _ s) => s | _ => vm_init end.
Lemma machine_two_loads : load no_load no_subload file_two host_made = Ok (LDone tt [] machine_two).
Proof. vm_compute. reflexivity. Qed.
Lemma machine_two_ok : vm_ok machine_two.
Proof.
  eapply (C44_loaded_wf_partial no_load no_subload host_made file_two);
    [exact host_made_prepared| |exact machine_two_loads|apply sane_check; vm_compute; reflexivity].
  apply bytes_ok. vm_compute. reflexivity.
Qed.

Definition twin_b (s t : vm) : bool :=
  forallb (fun x => match znth (v_subsys t) (sub_bucket (sub_name x)) with
    | Some l => match find_sub l (sub_name x) with Some y => eqb (sub_ser y) (sub_ser x) | None => false end
    | None => false end) (concat (v_subsys s)) &&
  forallb (fun x => match x with Some c => k_cap (c_stack c) <=? v_maxstack t | None => true end) (v_ctxs s) &&
  forallb (fun x => match x with Some o => o_size o <=? v_maxfields t | None => true end) (t_slots (v_objs s)).
Lemma twin_check s t : v_exttypes t = v_exttypes s -> v_corotype t = v_corotype s -> map x_name (v_extfuncs t) = map x_name (v_extfuncs s) ->
  NoDup (map x_name (v_extfuncs s)) -> v_errs t = [] -> twin_b s t = true -> twin s t.
Proof.
  intros A B C D E. unfold twin_b. rewrite !andb_true_iff. intros ((F & G) & H). split; auto.
  - intros x I. rewrite forallb_forall in F. specialize (F x I). destruct (znth _ _) as [l|]; [|discriminate].
    destruct (find_sub _ _) as [y|] eqn:Ey; [|discriminate]. apply eqb_prop in F. eauto.
  - intros i c Z. apply (slots_b (fun c => k_cap (c_stack c) <=? v_maxstack t) _ _ _ G) in Z. lia.
  - intros i o Z. unfold get_obj in Z. apply tab_get_some in Z. apply (slots_b (fun o => o_size o <=? v_maxfields t) _ _ _ H) in Z. lia.
Qed.
(** No object of a type the host writes itself. *)
Definition plain_b (s : vm) : bool :=
  forallb (fun x => match x with Some o => (o_ext o =? INVALID) || (o_ext o =? v_corotype s) | None => true end) (t_slots (v_objs s)).
Lemma plain_faithful s hs hl : plain_b s = true -> host_faithful s hs hl.
Proof.
  intros H i o G N1 N2. exfalso. unfold get_obj in G. apply tab_get_some in G.
  apply (slots_b (fun o => (o_ext o =? INVALID) || (o_ext o =? v_corotype s)) _ _ _ H) in G. lia.
Qed.
Lemma no_sub_faithful : subs_faithful no_sub no_subload.
Proof. intros n. split; [constructor|reflexivity]. Qed.

(** The same machine with its free slots to be used in the other order, as
    they may well be after a collection. *)
Definition saved_holes : vm := set_objs (mkT (t_slots (v_objs machine_two)) [1; 3]) machine_two.
Lemma holes_wf s h : tab_wf (mkT (t_slots (v_objs s)) h) -> wf true 0 s -> wf true 0 (set_objs (mkT (t_slots (v_objs s)) h) s).
Proof.
  intros T W. destruct W. split; auto.
Qed.
Definition full {A} (x : option A) : bool := match x with Some _ => true | None => false end.
Lemma full_holes {A} (l : list (option A)) h k : NoDup h -> (forall i, In i h <-> znth k i = Some false) -> map full l = k -> pow2 (zlen l) ->
  tab_wf (mkT l h).
Proof.
  intros N H <- P. split; [exact N| |exact P]. intros i. cbn [t_holes t_slots]. rewrite H, znth_map.
  destruct (znth l i) as [[x|]|]; cbn; split; congruence.
Qed.
Lemma holes_13 i : In i [1; 3] <-> znth [true; false; true; false] i = Some false.
Proof.
  split.
  - intros [<- | [<- | []]]; reflexivity.
  - intros Z. assert (R := znth_some_range _ _ _ Z). change (zlen [true; false; true; false]) with 4 in R.
    assert (K : i = 0 \/ i = 1 \/ i = 2 \/ i = 3) by lia. destruct K as [-> | [-> | [-> | ->]]]; cbn in Z |- *; try discriminate; auto.
Qed.
Lemma saved_holes_saveable : saveable saved_holes.
Proof.
  apply saveable_check; try (vm_compute; reflexivity).
  - unfold saved_holes. apply holes_wf; [|apply ok_exact; [exact machine_two_ok|vm_compute; reflexivity]].
    apply (full_holes _ _ [true; false; true; false]); [|exact holes_13|vm_compute; reflexivity|].
    + repeat constructor; cbn; lia.
    + exists 2. split; [lia|]. vm_compute. reflexivity.
  - assert (Q : match v_funcs saved_holes with [] => false | _ => true end = true) by (vm_compute; reflexivity).
    intros H. rewrite H in Q. discriminate Q.
Qed.
Lemma saved_holes_twin : twin saved_holes host_made.
Proof.
  apply twin_check; try (vm_compute; reflexivity).
  assert (Q : map x_name (v_extfuncs saved_holes) = [bs "f"]) by (vm_compute; reflexivity). rewrite Q. repeat constructor. cbn. tauto.
Qed.

(** The theorem's hypotheses met: a machine with objects, strings, a handle and
    a running coroutine. *)
Example C43_example : exists b t', save no_save no_sub saved_holes = Ok b /\ load no_load no_subload b host_made = Ok (LDone tt [] t') /\
  same_machine saved_holes t' /\ vm_ok t' /\ 280 < zlen b.
Proof.
  destruct (C43_round_trip_partial saved_holes host_made no_save no_load no_sub no_subload saved_holes_saveable host_made_prepared
    saved_holes_twin) as (b & t' & E & L & S & O); [apply plain_faithful; vm_compute; reflexivity|exact no_sub_faithful|].
  exists b, t'. split; [exact E|]. split; [rewrite <- (app_nil_r b) at 1; apply L|]. split; [exact S|]. split; [exact O|].
  assert (Q : match save no_save no_sub saved_holes with Ok b => 280 <? zlen b | _ => false end = true) by (vm_compute; reflexivity).
  rewrite E in Q. lia.
Qed.

(** ** Not exactly as the original would have gone on *)

(** The next object created gets a different identifier (and so a different
    text, [<object:3>] instead of [<object:1>]) in the machine read back. *)
Theorem C43_next_object_refuted : exists s t b t' i j u u',
  saveable s /\ prepared t /\ twin s t /\ save no_save no_sub s = Ok b /\ load no_load no_subload b t = Ok (LDone tt [] t') /\
  create_object s = Ok (i, u) /\ create_object t' = Ok (j, u') /\ i <> j /\
  value_text u (vobj i) <> value_text u' (vobj j).
Proof.
  destruct C43_example as (b & t' & E & L & _).
  assert (Q : match save no_save no_sub saved_holes with Ok b => match load no_load no_subload b host_made with
      | Ok (LDone _ _ t') => match create_object saved_holes, create_object t' with
         | Ok (i, u), Ok (j, u') => negb (i =? j) && negb (bytes_eqb (value_text u (vobj i)) (value_text u' (vobj j)))
         | _, _ => false end
      | _ => false end | _ => false end = true) by (vm_compute; reflexivity).
  rewrite E, L in Q. destruct (create_object saved_holes) as [[i u]|] eqn:C1; [|discriminate Q].
  destruct (create_object t') as [[j u']|] eqn:C2; [|discriminate Q]. apply andb_true_iff in Q. destruct Q as [Q1 Q2].
  exists saved_holes, host_made, b, t', i, j, u, u'. repeat (split; [first [exact saved_holes_saveable|exact host_made_prepared|exact saved_holes_twin|assumption]|]).
  split; [lia|]. intros H. rewrite H in Q2. apply negb_true_iff in Q2. rewrite bytes_eqb_refl in Q2. discriminate Q2.
Qed.
Print Assumptions C43_next_object_refuted.

(** A machine with no script functions -- such as one that has just been made --
    cannot be loaded back at all: loading it fails. *)
Theorem C43_no_functions_refuted : exists b rest t', wf true 0 vm_init /\ machine_words vm_init /\ prepared vm_init /\ twin vm_init vm_init /\
  save no_save no_sub vm_init = Ok b /\ load no_load no_subload b vm_init = Ok (LFail rest t').
Proof.
  destruct (save no_save no_sub vm_init) as [b|] eqn:E; 
    [|exfalso; assert (Q : match save no_save no_sub vm_init with Ok _ => true | _ => false end = true) by (vm_compute; reflexivity); rewrite E in Q; discriminate Q].
  destruct (load no_load no_subload b vm_init) as [[? ? t'|rest t'|]|] eqn:L.
  - assert (Q : match save no_save no_sub vm_init with Ok b => match load no_load no_subload b vm_init with Ok (LFail _ _) => true | _ => false end | _ => false end = true)
      by (vm_compute; reflexivity). rewrite E, L in Q. discriminate Q.
  - exists b, rest, t'. split; [apply ok_exact; [exact vm_init_ok|vm_compute; reflexivity]|]. split; [apply words_check; vm_compute; reflexivity|].
    split; [exact vm_init_prepared|]. split; [|auto]. apply twin_check; try (vm_compute; reflexivity). vm_compute. constructor.
  - assert (Q : match save no_save no_sub vm_init with Ok b => match load no_load no_subload b vm_init with Ok (LFail _ _) => true | _ => false end | _ => false end = true)
      by (vm_compute; reflexivity). rewrite E, L in Q. discriminate Q.
  - assert (Q : match save no_save no_sub vm_init with Ok b => match load no_load no_subload b vm_init with Ok (LFail _ _) => true | _ => false end | _ => false end = true)
      by (vm_compute; reflexivity). rewrite E, L in Q. discriminate Q.
Qed.
Print Assumptions C43_no_functions_refuted.

(** *** A machine with two host functions and an object of a host type *)

Definition box_save : Z -> Z -> option Z -> bytes := fun _ _ d => match d with Some z => word z | None => word 0 end.
Definition box_load : Z -> Z -> bytes -> option Z * nat := fun _ _ b =>
  match b with b0 :: b1 :: b2 :: b3 :: _ => (Some (b0 + 256 * b1 + 65536 * b2 + 16777216 * b3), 4%nat) | _ => (None, O) end.
Definition next {A} (m : M A) (s : vm) : vm := match m s with Ok (_, s') => s' | Ub _ => s end.
Lemma next_function n cb s0 s : registrations s0 s -> registrations s0 (next (register_external_function n cb) s).
Proof.
  intros R. unfold next. destruct (register_external_function n cb s) as [[i s']|] eqn:E; [|exact R].
  induction R as [s|s s1 s2 H R IH]; [|econstructor; eauto]. econstructor; [eapply R_function; exact E|constructor].
Qed.
Lemma next_type n a b c s0 s : registrations s0 s -> registrations s0 (next (register_external_type n a b c) s).
Proof.
  intros R. unfold next. destruct (register_external_type n a b c s) as [[i s']|] eqn:E; [|exact R].
  induction R as [s|s s1 s2 H R IH]; [|econstructor; eauto]. econstructor; [eapply R_type; exact E|constructor].
Qed.
Definition host_two : vm :=
  next (register_external_function (bs "g") (Some 8)) (next (register_external_function (bs "f") (Some 7))
  (next (register_external_type (bs "box") true true true) vm_init)).
Lemma host_two_prepared : prepared host_two.
Proof.
  exists host_two, (v_maxstack vm_init), (v_maxfields vm_init), (v_left vm_init). split.
  - apply next_function, next_function, next_type. constructor.
  - split; [split; vm_compute; congruence|]. vm_compute. reflexivity.
Qed.
(** What is saved, but for the identifiers of the host functions. *)
Definition saved_three0 : vm :=
  set_strs (v_strs saved_one) (set_objs (mkT [Some (mkO 0 0 0 (repeat [] 16) 1 1 (Some 77)); None] [])
  (set_funcs [mkF 2 5 INVALID; mkF INVALID 0 0; mkF INVALID 0 1] host_two)).
Definition file_three : bytes := match save box_save no_sub saved_three0 with Ok b => b | Ub _ => [] end.
Definition machine_three : vm :=
  match load box_load no_subload file_three host_two with Ok (LDone _ _ s) => s | _ => vm_init end.
Lemma machine_three_loads : load box_load no_subload file_three host_two = Ok (LDone tt [] machine_three).
Proof. vm_compute. reflexivity. Qed.
Lemma machine_three_ok : vm_ok machine_three.
Proof.
  eapply (C44_loaded_wf_partial box_load no_subload host_two file_three);
    [exact host_two_prepared| |exact machine_three_loads|apply sane_check; vm_compute; reflexivity].
  apply bytes_ok. vm_compute. reflexivity.
Qed.
Definition saved_three : vm :=
  set_extfuncs [mkXF (bs "f") (Some 7) 1 INVALID []; mkXF (bs "g") (Some 8) 2 INVALID []] machine_three.
Lemma extfuncs_wf s l : (forall j x, znth l j = Some x -> x_argc x <> INVALID -> zlen (x_types x) = x_argc x) -> wf true 0 s ->
  wf true 0 (set_extfuncs l s).
Proof. intros H W. destruct W. split; auto. Qed.
Lemma saved_three_saveable : saveable saved_three.
Proof.
  apply saveable_check; try (vm_compute; reflexivity).
  - unfold saved_three. apply extfuncs_wf; [|apply ok_exact; [exact machine_three_ok|vm_compute; reflexivity]].
    intros j x Z. assert (I : In x [mkXF (bs "f") (Some 7) 1 INVALID []; mkXF (bs "g") (Some 8) 2 INVALID []]) by (apply In_znth; eauto).
    destruct I as [<- | [<- | []]]; cbn; congruence.
  - assert (Q : match v_funcs saved_three with [] => false | _ => true end = true) by (vm_compute; reflexivity).
    intros H. rewrite H in Q. discriminate Q.
Qed.
Lemma saved_three_twin : twin saved_three host_two.
Proof.
  apply twin_check; try (vm_compute; reflexivity).
  assert (Q : map x_name (v_extfuncs saved_three) = [bs "f"; bs "g"]) by (vm_compute; reflexivity). rewrite Q.
  constructor; [intros [E | []]; discriminate E|]. repeat constructor. cbn. tauto.
Qed.
Lemma box_faithful s : forallb (fun x => match x with Some o => match o_data o with Some d => d =? 77 | None => false end | None => true end)
    (t_slots (v_objs s)) = true -> host_faithful s box_save box_load.
Proof.
  intros Q i o G _ _. unfold get_obj in G. apply tab_get_some in G.
  apply (slots_b (fun o => match o_data o with Some d => d =? 77 | None => false end) _ _ _ Q) in G.
  destruct (o_data o) as [d|]; [|discriminate G]. apply Z.eqb_eq in G. subst d. split; [apply word_bytes|]. reflexivity.
Qed.
Lemma saved_three_faithful : host_faithful saved_three box_save box_load.
Proof. apply box_faithful. vm_compute. reflexivity. Qed.
(** The host's data is there again; [g] keeps its identifier, [f] does not. *)
Example C45_example : exists b t' o, save box_save no_sub saved_three = Ok b /\ load box_load no_subload b host_two = Ok (LDone tt [] t') /\
  get_obj t' 0 = Some o /\ o_data o = Some 77 /\
  get_or_create_internal 1 t' = Ok (2, t') /\ exists j u, get_or_create_internal 0 t' = Ok (j, u) /\ j <> 1.
Proof.
  destruct (C43_round_trip_partial saved_three host_two box_save box_load no_sub no_subload saved_three_saveable host_two_prepared
    saved_three_twin saved_three_faithful no_sub_faithful) as (b & t' & E & L & Sm & O).
  assert (Zf : znth (v_extfuncs saved_three) 0 = Some (mkXF (bs "f") (Some 7) 1 INVALID [])) by reflexivity.
  assert (Zg : znth (v_extfuncs saved_three) 1 = Some (mkXF (bs "g") (Some 8) 2 INVALID [])) by reflexivity.
  assert (Len : zlen (v_extfuncs saved_three) = 2) by reflexivity.
  assert (Lf : zlen (v_funcs saved_three) = 3) by (vm_compute; reflexivity).
  destruct (C45_last_partial _ _ _ _ _ _ b [] t' 1 _ saved_three_saveable host_two_prepared saved_three_twin saved_three_faithful no_sub_faithful
    E (L []) Zg) as [_ K1]; [discriminate|rewrite Len; reflexivity|].
  destruct (C45_others_refuted _ _ _ _ _ _ b [] t' 0 _ saved_three_saveable host_two_prepared saved_three_twin saved_three_faithful no_sub_faithful
    E (L []) Zf) as [_ K2]; [rewrite Lf; cbn; lia|rewrite Len; lia|].
  assert (Q : match get_obj saved_three 0 with Some o => (o_ext o =? 1) && match o_data o with Some d => d =? 77 | None => false end | None => false end = true)
    by (vm_compute; reflexivity).
  assert (So := sm_objs _ _ Sm 0). destruct (get_obj saved_three 0) as [o|]; [|discriminate Q].
  destruct (get_obj t' 0) as [p|] eqn:Gp; [|destruct So]. exists b, t', p. split; [exact E|].
  split; [rewrite <- (app_nil_r b) at 1; apply L|]. split; [exact Gp|]. split; [|split; [exact K1|exact K2]].
  apply andb_true_iff in Q. destruct Q as [Q1 Q2]. apply Z.eqb_eq in Q1. destruct (o_data o) as [d|] eqn:Ed; [|discriminate Q2]. apply Z.eqb_eq in Q2.
  subst d. rewrite (so_host _ _ _ _ So (mkET (bs "box") true true true)); [exact Ed| | | |reflexivity].
  - rewrite Q1. replace (v_corotype saved_three) with 0 by (vm_compute; reflexivity). lia.
  - rewrite Q1. discriminate.
  - rewrite Q1. vm_compute. reflexivity.
Qed.
