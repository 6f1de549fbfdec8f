(** * GcProperties: the garbage collector (C28, C29) *)
From Verif Require Import Base BaseFacts.
From Verif Require Import VmSpec GcSpec VmStep HostProofs VmProperties.

(** ** C28 *)

(** One collection, in any well-formed VM (so, by C18, after any history):
    whatever is reachable keeps its identifier and its contents. *)
Theorem C28_reachable_survives hostmark s :
  vm_ok s -> v_gcpass s < INVALID ->
  exists s', garbage_collect hostmark s = Ok (tt, s') /\ vm_ok s' /\
    (forall i o, get_obj s i = Some o -> reach hostmark s (vobj i) ->
       exists o', get_obj s' i = Some o' /\ o_idx o' = o_idx o /\ o_buckets o' = o_buckets o /\ o_size o' = o_size o /\
         o_handles o' = o_handles o /\ o_ext o' = o_ext o /\ o_data o' = o_data o) /\
    (forall i e, get_str_entry s i = Some e -> reach hostmark s (vstr i) ->
       exists e', get_str_entry s' i = Some e' /\ s_str e' = s_str e).
Proof.
  intros [b W] R. destruct (garbage_collect_ok hostmark b s W R) as (s' & E & W' & C). exists s'.
  split; auto. split; [exists b; auto|]. split.
  - intros i o Ho Hr. destruct (cl_obj_keep _ _ _ C i o Ho Hr) as [g G]. exists (set_o_gc g o). sp; auto.
  - intros i e He Hr. destruct (cl_str_keep _ _ _ C i e He (or_introl Hr)) as [g G]. exists (set_s_gc g e). sp; auto.
Qed.

(** Being reachable includes the stacks of all coroutines that are waiting for
    the one they resumed: everything on the stack of an active context is
    reachable, and its context is kept as it is. *)
Theorem C28_active_stacks hostmark s l j c v :
  vm_ok s -> chain (v_ctxs s) (v_cur s) l -> In j l -> znth (v_ctxs s) j = Some (Some c) ->
  on_stack (c_stack c) v -> reach hostmark s v.
Proof.
  intros [b W] C J Hj Hv. destruct (Z.eq_dec j 0) as [Z0|N].
  - subst j. eapply rc_stack; eauto.
  - assert (reach hostmark s (c_obj c)) as Hr.
    { eapply (chain_reach hostmark b s W); eauto. intros c' Hc'. apply rc_cur. auto. }
    destruct (w_co1 _ _ _ W j c N N Hj) as (id & o & A1 & A2 & A3 & A4). rewrite A1 in Hr.
    eapply rc_ref; eauto. eapply rf_stack; eauto.
Qed.

Theorem C28_active_contexts_kept hostmark s s' l j c :
  vm_ok s -> v_gcpass s < INVALID -> chain (v_ctxs s) (v_cur s) l -> In j l ->
  znth (v_ctxs s) j = Some (Some c) -> garbage_collect hostmark s = Ok (tt, s') ->
  znth (v_ctxs s') j = Some (Some c) /\ v_cur s' = v_cur s.
Proof.
  intros [b W] R C J Hj E. destruct (garbage_collect_ok hostmark b s W R) as (s1 & E1 & W' & Cl).
  assert (s1 = s') by congruence. subst s1. split.
  - destruct (cl_ctx _ _ _ Cl j) as [K|(K & i & o & A1 & A2 & A3 & A4)]; [congruence|]. exfalso. apply A2.
    destruct (w_co2 _ _ _ W i o A1 A3) as (j' & c' & B1 & B2 & _ & B3 & B4).
    assert (j' = j) by congruence. subst j'. assert (c' = c) by congruence. subst c'. rewrite <- B4.
    eapply (chain_reach hostmark b s W); eauto. intros c' Hc'. apply rc_cur. auto.
  - destruct (cl_frame _ _ _ Cl) as (es & p & t & u & h & cs & ca & F). rewrite F. reflexivity.
Qed.

(** Global variables, the root stack and handles are roots. *)
Theorem C28_globals hostmark s v : In v (v_static s) -> reach hostmark s v.
Proof. apply rc_static. Qed.

(** The side condition on the collection counter is needed: after 2^32-1
    collections the counter wraps to 0, the stamp of objects that never saw a
    collection, and the collector takes a new object for already marked and
    frees the older objects it refers to. *)
Definition wrap_prog : M unit :=
  b <- create_object ;;
  acquire_handle (vobj b) ;;;
  garbage_collect nomark ;;;
  release_handle (vobj b) ;;;
  a <- create_object ;;
  host_write (vobj a) (vint 1) (vobj b) ;;;
  push (vobj a).
Definition wrap_vm : vm :=
  match wrap_prog vm_init with Ok (_, s) => set_gcpass INVALID s | Ub _ => vm_init end.

Definition wrap_host : hostprog :=
  HObject (fun b => HAcquire b (HCollect (HRelease b (HObject (fun a => HWrite a (vint 1) b (HReturn a)))))).
Lemma wrap_vm_host : match (v <- run_host nomark wrap_host ;; push v) vm_init with
  Ok (_, s) => wrap_vm = set_gcpass INVALID s | Ub _ => False end.
Proof. vm_compute. reflexivity. Qed.

Lemma wrap_vm_ok : vm_ok wrap_vm.
Proof.
  assert (hoare (A true 0 [] []) (v <- run_host nomark wrap_host ;; push v) (fun _ s => vm_ok s)) as H.
  { eapply h_bind; [apply run_host_safe|]. intro v. intros s [b' Hs].
    pose proof (h_push b' 0 [] [] v s Hs) as P. destruct (push v s) as [[x s']|w]; auto. exists b'. apply P. }
  assert (A true 0 [] [] vm_init) as I.
  { apply clean_exact; [apply vm_init_ok|reflexivity]. }
  specialize (H _ I). pose proof wrap_vm_host as E.
  destruct ((v <- run_host nomark wrap_host ;; push v) vm_init) as [[x s]|u]; [|destruct E]. rewrite E.
  destruct H as [b W]. exists b. apply wf_gcpass; auto. destruct (w_pass _ _ _ W). lia.
Qed.

Theorem C28_pass_wrap_refuted : exists s s' o,
  vm_ok s /\ v_gcpass s = INVALID /\ get_obj s 0 = Some o /\ reach nomark s (vobj 0) /\
  garbage_collect nomark s = Ok (tt, s') /\ get_obj s' 0 = None.
Proof.
  destruct (garbage_collect nomark wrap_vm) as [[[] s']|u] eqn:E; [|vm_compute in E; discriminate].
  exists wrap_vm, s'. destruct (get_obj wrap_vm 0) as [o|] eqn:Ho; [|vm_compute in Ho; discriminate].
  exists o. split; [apply wrap_vm_ok|]. split; [reflexivity|]. split; auto. split.
  - destruct (get_obj wrap_vm 1) as [o1|] eqn:Ho1; [|vm_compute in Ho1; discriminate].
    eapply rc_ref with (i := 1) (o := o1); auto.
    + destruct (znth (v_ctxs wrap_vm) 0) as [[c|]|] eqn:Hc; [|vm_compute in Hc; discriminate..].
      eapply rc_stack; [exact Hc|]. exists 0. vm_compute in Hc. injection Hc as <-. split; [|reflexivity].
      vm_compute. split; congruence.
    + vm_compute in Ho1. injection Ho1 as <-. apply rf_val with (k := vint 1). vm_compute. tauto.
  - split; auto. vm_compute in E. injection E as <-. reflexivity.
Qed.

(** ** C29 *)

(** What is not reachable is gone, apart from string literals of the program;
    nothing appears. *)
Theorem C29_unreachable_freed hostmark s :
  vm_ok s -> v_gcpass s < INVALID ->
  exists s', garbage_collect hostmark s = Ok (tt, s') /\ vm_ok s' /\
    (forall i, ~ reach hostmark s (vobj i) -> get_obj s' i = None) /\
    (forall i, ~ reach hostmark s (vstr i) ->
       (forall e, get_str_entry s i = Some e -> s_keep e = false) -> get_str_entry s' i = None) /\
    (forall i o', get_obj s' i = Some o' -> exists o, get_obj s i = Some o) /\
    (forall i e', get_str_entry s' i = Some e' -> exists e, get_str_entry s i = Some e).
Proof.
  intros [b W] R. destruct (garbage_collect_ok hostmark b s W R) as (s' & E & W' & C). exists s'.
  split; auto. split; [exists b; auto|]. sp.
  - intros i N. destruct (get_obj s i) eqn:Ho; [eapply cl_obj_free; eauto|eapply cl_obj_none; eauto].
  - intros i N K. destruct (get_str_entry s i) eqn:He; [eapply cl_str_free; eauto|eapply cl_str_none; eauto].
  - intros i o' Ho. destruct (get_obj s i) eqn:E'; eauto. rewrite (cl_obj_none _ _ _ C i E') in Ho. discriminate.
  - intros i o' Ho. destruct (get_str_entry s i) eqn:E'; eauto. rewrite (cl_str_none _ _ _ C i E') in Ho. discriminate.
Qed.

(** Nothing else changes: stacks of the surviving contexts, the running
    context, static space, code, function and type tables, handles, limits and
    counters are as before; errors are only appended. *)
Theorem C29_nothing_else hostmark s s' :
  vm_ok s -> v_gcpass s < INVALID -> garbage_collect hostmark s = Ok (tt, s') ->
  (exists es, v_errs s' = v_errs s ++ es) /\
  (forall j, znth (v_ctxs s') j = znth (v_ctxs s) j \/
     znth (v_ctxs s') j = Some None /\
     exists i o, get_obj s i = Some o /\ ~ reach hostmark s (vobj i) /\ o_ext o = v_corotype s /\ o_data o = Some j) /\
  s' = set_errs (v_errs s') (set_gcpass (v_gcpass s') (set_strs (v_strs s') (set_byhash (v_byhash s')
         (set_objs (v_objs s') (set_ctxs (v_ctxs s') (set_cleanups (v_cleanups s') s)))))).
Proof.
  intros [b W] R E. destruct (garbage_collect_ok hostmark b s W R) as (s1 & E1 & W' & C).
  assert (s1 = s') by congruence. subst s1. destruct (cl_frame _ _ _ C) as (es & p & t & u & h & cs & ca & F). sp.
  - exists es. rewrite F. reflexivity.
  - apply (cl_ctx _ _ _ C).
  - rewrite F. reflexivity.
Qed.

(** Identifiers of freed objects come back: creating objects eventually hands
    out any identifier that is not in use. *)
Fixpoint create_many (n : nat) : M (list Z) :=
  match n with
  | O => ret []
  | S k => i <- create_object ;; l <- create_many k ;; ret (i :: l)
  end.

Lemma create_one s i t : tab_wf (v_objs s) -> tab_add (v_objs s) (new_obj 0) = Some (i, t) ->
  exists s', create_object s = Ok (i, s') /\ tab_wf (v_objs s') /\ t_holes (v_objs s') = t_holes t /\
    t_cap (v_objs s') = t_cap t /\ (forall j, get_obj s' j = if j =? i then Some (new_obj i) else get_obj s j).
Proof.
  intros W A. unfold create_object. unfold mbind at 1, gets at 1. rewrite A.
  destruct (tab_add_ok _ _ _ _ W A) as (W' & Fr & Ri & Ci & G).
  unfold mbind at 1, modify at 1. cbv beta iota.
  assert (get_obj (set_objs t s) i = Some (new_obj 0)) as Gi by (unfold get_obj; vs; rewrite G, Z.eqb_refl; auto).
  rewrite (bind_run _ _ _ _ _ (wr_obj_ok _ _ _ (new_obj i) Gi)).
  destruct (put_obj_wf (set_objs t s) i _ (new_obj i) W' Gi) as [W2 G2].
  unfold mbind, modify, ret. cbv beta iota. eexists. split; [reflexivity|].
  assert (forall s1, v_objs (if v_newcount s1 =? 0 then s1 else set_newcount (v_newcount s1 - 1) s1) = v_objs s1) as V
    by (intro s1; destruct (v_newcount s1 =? 0); reflexivity).
  unfold get_obj. rewrite V. sp; auto.
  - unfold put_obj, t_cap. vs. cbn [t_slots]. rewrite zlen_zupd. reflexivity.
  - intro j. specialize (G2 j). unfold get_obj in G2. rewrite G2. vs. rewrite G. destruct (j =? i); auto.
Qed.

Theorem C29_identifier_reusable s i :
  vm_ok s -> 0 <= i < W31 -> get_obj s i = None ->
  exists n l s', create_many n s = Ok (l, s') /\ In i l.
Proof.
  intros [b Wf] R. generalize (w_tab _ _ _ Wf). clear b Wf.
  remember (Z.to_nat (2 * (W31 - t_cap (v_objs s)) + zlen (t_holes (v_objs s)))) as m eqn:Em.
  assert (2 * (W31 - t_cap (v_objs s)) + zlen (t_holes (v_objs s)) <= Z.of_nat m) as Lm by lia. clear Em. revert s Lm.
  induction m as [m IH] using lt_wf_ind. intros s Lm W N.
  destruct (pow2_bounds _ (tw_cap _ W)) as [L U].
  destruct (tab_add (v_objs s) (new_obj 0)) as [[j t]|] eqn:A.
  2:{ destruct (tab_add_fails _ _ W A) as [_ F]. destruct (F i R) as [y Y]. unfold get_obj in N. congruence. }
  destruct (create_one s j t W A) as (s1 & E & W1 & H1 & C1 & G1).
  destruct (Z.eq_dec j i) as [J|J].
  - subst j. exists 1%nat, [i], s1. cbn [create_many]. rewrite (bind_run _ _ _ _ _ E). split; [reflexivity|left; auto].
  - destruct (IH (Z.to_nat (2 * (W31 - t_cap (v_objs s1)) + zlen (t_holes (v_objs s1))))) with (s := s1) as (n & l & s2 & E2 & I2); auto.
    + rewrite C1, H1. pose proof (zlen_nonneg (t_holes t)). pose proof (zlen_nonneg (t_holes (v_objs s))).
      destruct (t_holes (v_objs s)) as [|h r] eqn:Hh.
      * destruct (tab_add_grow _ _ _ _ W Hh A) as (Ej & LT & Sl & Ho).
        assert (t_cap t = 2 * t_cap (v_objs s)) as Ct.
        { unfold t_cap at 1. rewrite Sl, zlen_app, zlen_cons, zlen_repeat. unfold t_cap in *. lia. }
        rewrite Ho, Ct. unfold zlen in Lm |- *. rewrite zseq_length. cbn [length] in Lm. unfold W31 in *. lia.
      * unfold tab_add in A. rewrite Hh in A. injection A as <- <-. unfold t_cap. cbn [t_slots t_holes]. rewrite zlen_zupd.
        rewrite zlen_cons in Lm. unfold t_cap in *. cbn [t_holes] in *. pose proof (zlen_nonneg r). lia.
    + rewrite C1, H1. pose proof (zlen_nonneg (t_holes t)). destruct (tab_add_ok _ _ _ _ W A) as (W' & _).
      destruct (pow2_bounds _ (tw_cap _ W')). lia.
    + rewrite G1. destruct (Z.eqb_spec i j); congruence.
    + exists (S n), (j :: l), s2. cbn [create_many]. rewrite (bind_run _ _ _ _ _ E), (bind_run _ _ _ _ _ E2). split; [reflexivity|right; auto].
Qed.

Print Assumptions C28_reachable_survives.
Print Assumptions C28_active_stacks.
Print Assumptions C28_active_contexts_kept.
Print Assumptions C28_pass_wrap_refuted.
Print Assumptions C29_unreachable_freed.
Print Assumptions C29_nothing_else.
Print Assumptions C29_identifier_reusable.

(** Non-vacuity: two objects referring to each other, one of them on the
    stack, and a third, unreachable one; plus an unreachable cycle. *)
Definition ex_heap : M unit :=
  a <- create_object ;; b <- create_object ;; c <- create_object ;; d <- create_object ;;
  host_write (vobj a) (vint 1) (vobj b) ;;;
  host_write (vobj b) (vint 1) (vobj a) ;;;
  host_write (vobj c) (vint 1) (vobj d) ;;;
  host_write (vobj d) (vint 1) (vobj c) ;;;
  push (vobj a).
Example C28_C29_example :
  match ex_heap vm_init with
  | Ok (_, s) =>
    match garbage_collect nomark s with
    | Ok (_, s') => map (fun i => match get_obj s' i with Some _ => true | None => false end) [0; 1; 2; 3] = [true; true; false; false]
    | Ub _ => False
    end
  | Ub _ => False
  end.
Proof. vm_compute. reflexivity. Qed.
