(** * SaveProperties: saving and loading (C43, C44, C45) *)
From Verif Require Import Base BaseFacts TableModel TableProofs State MonadFacts StackModel StackProofs
  StrModel StrProofs ObjsModel ObjsProofs VmModel VmSpec VmInv VmProperties RegModel RegSpec RegProofs RegProperties
  TeardownModel SaveModel SaveSpec SaveProofs.

Ltac Zify.zify_post_hook ::= Z.div_mod_to_equations.

(** ** C44: loading arbitrary bytes *)

(** Whatever the bytes, and whatever the host's own readers do with them,
    loading into a machine the host has just made runs to its end: it returns
    true, returns false, or gives up for want of memory, and touches nothing
    outside its tables. *)
Theorem C44_load_safe host_load sub_load s b : prepared s -> any_bytes b ->
  exists o, load host_load sub_load b s = Ok o.
Proof.
  intros P B. destruct (prepared_fresh s P) as ([F1 F2 F3 F4 [r F5] F6] & U & S16).
  assert (Z0 : znth (v_exttypes s) 0 = Some (mkET (bs "coroutine") true true true)) by (rewrite F5; reflexivity).
  assert (G := g_load (v_exttypes s) _ Z0 eq_refl U host_load sub_load b s B).
  destruct (load host_load sub_load b s) as [o|]; [eauto|]. exfalso. apply G.
  split; [repeat split; auto|]. split; [exact F6|]. split; [exact F3|]. split; [exact F1|].
  rewrite F2. eexists. split; [reflexivity|]. split; [reflexivity|]. split; [reflexivity|]. apply stack_init_wf.
Qed.
Print Assumptions C44_load_safe.

Lemma load_loaded host_load sub_load s b r s' : prepared s -> any_bytes b ->
  load host_load sub_load b s = Ok (LDone tt r s') -> loaded (v_exttypes s) s'.
Proof.
  intros P B E. destruct (prepared_fresh s P) as ([F1 F2 F3 F4 [l F5] F6] & U & S16).
  assert (Z0 : znth (v_exttypes s) 0 = Some (mkET (bs "coroutine") true true true)) by (rewrite F5; reflexivity).
  assert (G := g_load (v_exttypes s) _ Z0 eq_refl U host_load sub_load b s B). rewrite E in G. apply G.
  split; [repeat split; auto|]. split; [exact F6|]. split; [exact F3|]. split; [exact F1|].
  rewrite F2. eexists. split; [reflexivity|]. split; [reflexivity|]. split; [reflexivity|]. apply stack_init_wf.
Qed.

(** If loading returns true the machine is well formed -- every theorem about
    machines with [vm_ok] applies to it -- as far as the loader checks: the
    statement leaves out the six things of [sane], none of which it looks at. *)
Theorem C44_loaded_wf_partial host_load sub_load s b r s' : prepared s -> any_bytes b ->
  load host_load sub_load b s = Ok (LDone tt r s') -> sane s' -> vm_ok s'.
Proof.
  intros P B E Sn. assert (K := load_loaded _ _ _ _ _ _ P B E).
  destruct (prepared_fresh s P) as ([F1 F2 F3 F4 [l F5] F6] & U & S16).
  eapply (loaded_wf (v_exttypes s) (mkET (bs "coroutine") true true true)); auto. rewrite F5. reflexivity.
Qed.
Print Assumptions C44_loaded_wf_partial.

(** Without an error recorded, what is on every stack fits on it: the last
    condition of [sane] holds by itself. *)
Theorem C44_stacks_fit host_load sub_load s b r s' : prepared s -> any_bytes b ->
  load host_load sub_load b s = Ok (LDone tt r s') -> has_errors s' = false ->
  forall i c, znth (v_ctxs s') i = Some (Some c) -> 0 <= k_size (c_stack c) <= k_cap (c_stack c).
Proof.
  intros P B E Er i c Z. destruct (load_loaded _ _ _ _ _ _ P B E) as (_ & G & _).
  apply (kw_size _ (cg_fit _ G Er i c Z)).
Qed.
Print Assumptions C44_stacks_fit.

(** *** Files the loader should have rejected *)

Definition no_load : Z -> Z -> bytes -> option Z * nat := fun _ _ _ => (None, O).
Definition no_save : Z -> Z -> option Z -> bytes := fun _ _ _ => [].
Definition no_sub : bytes -> bytes := fun _ => [].
Definition no_subload : bytes -> bytes -> nat := fun _ _ => O.

(** A file: machine [s] with [x] in place of its external objects. *)
Definition file_with (s : vm) (x : bytes) : bytes :=
  match znth (v_ctxs s) 0 with
  | Some (Some root) =>
    MAGIC ++ word VERSION ++ save_instructions s ++ save_errors s ++ save_statics s ++
    save_context false root ++ save_strings s ++ save_gc s ++ save_functions s ++
    save_objects s ++ save_globals s ++ save_types s ++ save_subsystems no_sub s ++
    x ++ save_files s ++ save_markers s ++ save_value vnil
  | _ => []
  end.

Lemma vm_init_prepared : prepared vm_init.
Proof.
  exists vm_init, (v_maxstack vm_init), (v_maxfields vm_init), (v_left vm_init).
  split; [constructor|]. split; [split; vm_compute; congruence|reflexivity].
Qed.
Lemma bytes_ok b : forallb (fun c => (0 <=? c) && (c <? 256)) b = true -> any_bytes b.
Proof. intro H. apply Forall_forall. intros c I. rewrite forallb_forall in H. specialize (H c I). lia. Qed.

(** A coroutine the host holds a handle to, whose stack is said to hold 20
    values but has room for 16. *)
Definition overfull : bytes :=
  file_with (set_objs (mkT [Some (mkO 0 0 0 (repeat [] 16) 1 0 (Some 1))] [])
              (set_funcs [mkF 0 0 INVALID] vm_init)) (word 0 ++ word 20 ++ word 16).

(** Loading it returns true (with an error recorded); getting rid of the
    machine afterwards reads past the end of the stack. *)
Theorem C44_destroy_refuted : exists b s', any_bytes b /\
  load no_load no_subload b vm_init = Ok (LDone tt [] s') /\ destroy nomark s' = Ub UbOob.
Proof.
  exists overfull. eexists. split; [apply bytes_ok; vm_compute; reflexivity|].
  split; [vm_compute; reflexivity|]. vm_compute. reflexivity.
Qed.
Print Assumptions C44_destroy_refuted.

(** Two coroutines running, the inner one marked by a collection that has not
    happened yet. *)
Definition premarked : vm :=
  set_cur 2 (set_objs (mkT [Some (mkO 0 0 0 (repeat [] 16) 0 0 (Some 1)); Some (mkO 1 1 0 (repeat [] 16) 0 0 (Some 2))] [])
    (set_ctxs (v_ctxs vm_init ++
      [Some (mkC stack_init 0 (Some 0) (vobj 0) CO_RUNNING); Some (mkC stack_init 0 (Some 1) (vobj 1) CO_RUNNING)])
      (set_funcs [mkF 0 0 INVALID] vm_init))).

(** Loading it returns true without any error; the first collection frees the
    outer coroutine although it is running, the second uses it. *)
Theorem C44_collect_refuted : exists b s' s2, any_bytes b /\
  load no_load no_subload b vm_init = Ok (LDone tt [] s') /\ has_errors s' = false /\
  garbage_collect nomark s' = Ok (tt, s2) /\ garbage_collect nomark s2 = Ub UbNull.
Proof.
  exists (match save no_save no_sub premarked with Ok b => b | Ub _ => [] end). eexists _, _.
  split; [apply bytes_ok; vm_compute; reflexivity|].
  split; [vm_compute; reflexivity|]. split; [reflexivity|]. split; [vm_compute; reflexivity|]. vm_compute. reflexivity.
Qed.
Print Assumptions C44_collect_refuted.

(** *** The hypotheses are met *)

(** A host type, a host function and a subsystem registered; a file with a
    string, a plain object with a field, and a coroutine in the middle of
    running. *)
Definition host_made : vm :=
  match register_external_type (bs "box") true true true vm_init with
  | Ok (_, s1) =>
    match register_external_function (bs "f") (Some 7) s1 with
    | Ok (_, s2) => match init_subsystem (bs "sub") 1 true true s2 with Ok (_, s3) => s3 | _ => s2 end
    | _ => s1
    end
  | _ => vm_init
  end.
Lemma host_made_prepared : prepared host_made.
Proof.
  exists host_made, (v_maxstack vm_init), (v_maxfields vm_init), (v_left vm_init). split.
  - unfold host_made.
    destruct (register_external_type (bs "box") true true true vm_init) as [[i s1]|] eqn:E1; [|vm_compute in E1; discriminate].
    destruct (register_external_function (bs "f") (Some 7) s1) as [[j s2]|] eqn:E2;
      [|vm_compute in E1; injection E1 as <- <-; vm_compute in E2; discriminate].
    destruct (init_subsystem (bs "sub") 1 true true s2) as [[k s3]|] eqn:E3.
    + econstructor; [eapply R_type; exact E1|]. econstructor; [eapply R_function; exact E2|].
      econstructor; [eapply R_subsystem; exact E3|]. constructor.
    + econstructor; [eapply R_type; exact E1|]. econstructor; [eapply R_function; exact E2|]. constructor.
  - split; [split; vm_compute; congruence|]. vm_compute. reflexivity.
Qed.
Definition saved_one : vm :=
  set_strs (mkT [Some (mkS 0 0 true (str_hash (bs "hi")) (bs "hi"))] [])
  (set_objs (mkT [Some (mkO 0 0 1 (zupd (repeat [] 16) 3 [(mkV T_INT 3, mkV T_STRING 0)]) 1 INVALID None);
                  Some (mkO 1 0 0 (repeat [] 16) 0 0 (Some 1))] [])
  (set_ctxs (v_ctxs vm_init ++ [Some (mkC (mkK [mkV T_INT 5; vzero] 1 2 1) 4 (Some 0) (vobj 1) CO_RUNNING)])
  (set_cur 1 (set_funcs [mkF 2 5 INVALID] host_made)))).
Definition file_one : bytes := match save no_save no_sub saved_one with Ok b => b | Ub _ => [] end.
Definition loaded_one : vm :=
  match load no_load no_subload file_one host_made with Ok (LDone _ _ s) => s | _ => vm_init end.

Example C44_example : load no_load no_subload file_one host_made = Ok (LDone tt [] loaded_one) /\
  zlen file_one = 280 /\ v_cur loaded_one = 1 /\ has_errors loaded_one = false.
Proof. vm_compute. auto. Qed.

(** Checking [sane] of a given machine. *)
Definition sane_b (s : vm) : bool :=
  (0 <? t_cap (v_strs s)) && (0 <? t_cap (v_objs s)) &&
  forallb (fun x => match x with Some e => s_gc e <=? v_gcpass s | None => true end) (t_slots (v_strs s)) &&
  forallb (fun x => match x with Some o => o_gc o <=? v_gcpass s | None => true end) (t_slots (v_objs s)) &&
  forallb (fun x => match x with Some c => k_size (c_stack c) <=? k_cap (c_stack c) | None => true end) (v_ctxs s) &&
  (occupied (t_slots (v_strs s)) <=? 1).
Lemma occupied_one {A} (l : list (option A)) : occupied l <= 1 -> forall i j x y,
  znth l i = Some (Some x) -> znth l j = Some (Some y) -> i = j.
Proof.
  unfold occupied. induction l as [|a r IH]; intros H i j x y Zi Zj; assert (Ri := znth_some_range _ _ _ Zi);
    assert (Rj := znth_some_range _ _ _ Zj); [change (zlen (@nil (option A))) with 0 in Ri; lia|].
  assert (E : forall i x, znth r i = Some (Some x) -> In (Some x) (filter (fun x => match x with Some _ => true | None => false end) r)).
  { intros k z Z. apply filter_In. split; [|reflexivity]. apply In_znth; eauto. }
  assert (Q : forall z, In z (filter (fun x : option A => match x with Some _ => true | None => false end) r) ->
    1 <= zlen (filter (fun x : option A => match x with Some _ => true | None => false end) r)).
  { intros z I. destruct (filter _ r); [destruct I|]. rewrite zlen_cons. assert (K := zlen_nonneg l). lia. }
  destruct (Z.eq_dec i 0) as [->|Ni], (Z.eq_dec j 0) as [->|Nj]; auto.
  - exfalso. rewrite znth_cons_0 in Zi. injection Zi as ->. rewrite znth_cons_S in Zj by lia. apply E, Q in Zj.
    cbn [filter] in H. rewrite zlen_cons in H. lia.
  - exfalso. rewrite znth_cons_0 in Zj. injection Zj as ->. rewrite znth_cons_S in Zi by lia. apply E, Q in Zi.
    cbn [filter] in H. rewrite zlen_cons in H. lia.
  - rewrite znth_cons_S in Zi, Zj by lia. assert (i - 1 = j - 1); [|lia]. eapply IH; eauto.
    cbn [filter] in H. destruct a; [rewrite zlen_cons in H; lia|exact H].
Qed.
Lemma sane_check s : sane_b s = true -> sane s.
Proof.
  unfold sane_b. rewrite !andb_true_iff. intros (((((A & B) & C) & D) & E) & F).
  assert (K : forall X (l : list (option X)) p i x, forallb (fun x => match x with Some x => p x | None => true end) l = true ->
    znth l i = Some (Some x) -> p x = true).
  { intros X l p i x H Z. rewrite forallb_forall in H. apply (H (Some x)). apply In_znth; eauto. }
  split; try lia.
  - intros i j t. unfold get_str. destruct (get_str_entry s i) eqn:X; [|discriminate].
    destruct (get_str_entry s j) eqn:Y; [|discriminate]. intros _ _. unfold get_str_entry in X, Y.
    apply tab_get_some in X, Y. eapply occupied_one; eauto. lia.
  - intros i e G. unfold get_str_entry in G. apply tab_get_some in G. apply (K _ _ (fun e => s_gc e <=? v_gcpass s)) in G; auto. lia.
  - intros i o G. unfold get_obj in G. apply tab_get_some in G. apply (K _ _ (fun o => o_gc o <=? v_gcpass s)) in G; auto. lia.
  - intros i c G. apply (K _ _ (fun c => k_size (c_stack c) <=? k_cap (c_stack c))) in G; auto. lia.
Qed.

Example C44_example_sane : sane loaded_one.
Proof. apply sane_check. vm_compute. reflexivity. Qed.
Example C44_example_ok : vm_ok loaded_one.
Proof.
  eapply (C44_loaded_wf_partial no_load no_subload host_made file_one);
    [exact host_made_prepared| |exact (proj1 C44_example)|exact C44_example_sane].
  apply bytes_ok. vm_compute. reflexivity.
Qed.
