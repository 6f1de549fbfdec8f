(** * VmSpec: well-formed virtual machines

    What "the VM is well-formed" means for the safety theorem C18 and the
    collector theorems C28, C29. *)
From Verif Require Import Base BaseFacts State StackModel GcModel VmModel.
From Verif Require Import TableProofs StrProofs StackProofs.

(** [chain cs i l]: [l] lists the active contexts, from context [i] through
    the parent links down to the root context 0, without repetition. *)
Inductive chain (cs : list (option ctx)) : Z -> list Z -> Prop :=
| ch_root c : znth cs 0 = Some (Some c) -> c_parent c = None -> chain cs 0 [0]
| ch_cons i c p l : i <> 0 -> znth cs i = Some (Some c) -> c_parent c = Some p ->
    chain cs p l -> ~ In i l -> chain cs i (i :: l).

(** One object, at table index [i].  [b] says whether the element count is
    known to be exact. *)
Record owf (b : bool) (pass : Z) (i : Z) (o : nkobj) : Prop := {
  ow_idx : o_idx o = i;
  ow_len : zlen (o_buckets o) = OBJ_BUCKETS;
  ow_size : b = true -> o_size o = zlen (concat (o_buckets o));
  ow_max : 0 <= o_size o < W32;
  ow_gc : 0 <= o_gc o <= pass;
  ow_hnd : 0 <= o_handles o < W32
}.

(** [wf b x s].  Either the element counts of all objects are exact
    ([b = true]) or an error has been recorded ([b = false]); [x] is the number
    of a context still under construction (0: none). *)
Record wf (b : bool) (x : Z) (s : vm) : Prop := {
  w_err : b = false -> has_errors s = true;
  (* strings and objects *)
  w_str : str_wf (v_strs s) (v_byhash s);
  w_sgc : forall i e, get_str_entry s i = Some e -> 0 <= s_gc e <= v_gcpass s;
  w_tab : tab_wf (v_objs s);
  w_obj : forall i o, get_obj s i = Some o -> owf b (v_gcpass s) i o;
  (* execution contexts: active ones form a chain to the root *)
  w_chain : exists l, chain (v_ctxs s) (v_cur s) l /\
              forall i c, znth (v_ctxs s) i = Some (Some c) -> c_parent c <> None -> In i l;
  w_stk : forall i c, znth (v_ctxs s) i = Some (Some c) -> kwf (c_stack c);
  w_root : forall c, znth (v_ctxs s) 0 = Some (Some c) -> c_obj c = vnil;
  (* every coroutine context belongs to a coroutine object and conversely *)
  w_co1 : forall i c, i <> 0 -> i <> x -> znth (v_ctxs s) i = Some (Some c) ->
            exists id o, c_obj c = vobj id /\ get_obj s id = Some o /\
                         o_ext o = v_corotype s /\ o_data o = Some i;
  w_co2 : forall id o, get_obj s id = Some o -> o_ext o = v_corotype s ->
            exists i c, o_data o = Some i /\ i <> 0 /\ i <> x /\
                        znth (v_ctxs s) i = Some (Some c) /\ c_obj c = vobj id;
  (* static space and code: as long as their masks say *)
  w_static : zlen (v_static s) = v_smask s + 1 /\ pow2 (zlen (v_static s));
  w_code : zlen (v_code s) = v_cmask s + 1 /\ pow2 (zlen (v_code s));
  (* the handle list holds exactly the objects with handles, once each *)
  w_hnodup : NoDup (v_hlist s);
  w_hlist : forall i, In i (v_hlist s) <-> exists o, get_obj s i = Some o /\ o_handles o <> 0;
  (* registries *)
  w_corotype : v_corotype s <> INVALID /\
               exists et, znth (v_exttypes s) (v_corotype s) = Some et /\ et_cleanup et = true /\ et_mark et = true;
  w_extfuncs : forall j xf, znth (v_extfuncs s) j = Some xf -> x_argc xf <> INVALID -> zlen (x_types xf) = x_argc xf;
  w_pass : 0 <= v_gcpass s <= INVALID
}.

(** Well-formed, element counts exact unless an error is recorded. *)
Definition vm_ok (s : vm) : Prop := exists b, wf b 0 s.
