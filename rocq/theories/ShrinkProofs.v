(** * ShrinkProofs: moving objects and strings to other slots *)
From Verif Require Import Base BaseFacts TableModel TableProofs State MonadFacts StackModel StackProofs StrModel StrProofs
  ObjsModel ObjsProofs VmModel VmSpec VmInv ShrinkModel ShrinkSpec.

Ltac Zify.zify_post_hook ::= Z.div_mod_to_equations.

Definition mv (a b x : Z) : Z := if x =? a then b else x.

Lemma ren_id v : ren (fun x => x) (fun x => x) v = v.
Proof.
  unfold ren. destruct v as [t d]. cbn [v_type v_data]. destruct (Z.eqb_spec t T_OBJ) as [->|]; [reflexivity|].
  destruct (Z.eqb_spec t T_STRING) as [->|]; reflexivity.
Qed.
Lemma ren_then_obj a b ro rs v : ren_obj a b (ren ro rs v) = ren (fun x => mv a b (ro x)) rs v.
Proof.
  unfold ren_obj, ren, mv. destruct (Z.eqb_spec (v_type v) T_OBJ) as [E|E].
  - cbn [v_type v_data]. rewrite Z.eqb_refl. cbn [andb]. destruct (Z.eqb_spec (ro (v_data v)) a); reflexivity.
  - destruct (Z.eqb_spec (v_type v) T_STRING) as [E2|E2].
    + cbn [v_type v_data]. reflexivity.
    + replace (v_type v =? T_OBJ) with false by lia. reflexivity.
Qed.
Lemma ren_then_str a b ro rs v : ren_str a b (ren ro rs v) = ren ro (fun x => mv a b (rs x)) v.
Proof.
  unfold ren_str, ren, mv. destruct (Z.eqb_spec (v_type v) T_OBJ) as [E|E].
  - cbn [v_type v_data]. reflexivity.
  - destruct (Z.eqb_spec (v_type v) T_STRING) as [E2|E2].
    + cbn [v_type v_data]. rewrite Z.eqb_refl. cbn [andb]. destruct (Z.eqb_spec (rs (v_data v)) a); reflexivity.
    + replace (v_type v =? T_STRING) with false by lia. reflexivity.
Qed.

(** An object after renumbering. *)
Definition put_at (ro rs : Z -> Z) (i : Z) (o : nkobj) : nkobj :=
  mkO (ro i) (o_gc o) (o_size o) (map (map (ren_field ro rs)) (o_buckets o)) (o_handles o) (o_ext o) (o_data o).
(** A stack after renumbering. *)
Definition put_stack (ro rs : Z -> Z) (k : stack) (vals : list value) : Prop :=
  zlen vals = zlen (k_vals k) /\ firstn (Z.to_nat (k_size k)) vals = map (ren ro rs) (firstn (Z.to_nat (k_size k)) (k_vals k)).

(** Only tables, static space and contexts differ. *)
Definition frame (s t : vm) : Prop :=
  t = set_strs (v_strs t) (set_byhash (v_byhash t) (set_objs (v_objs t) (set_static (v_static t) (set_ctxs (v_ctxs t) s)))).
Lemma f_objs s t x : frame s t -> frame s (set_objs x t).
Proof. unfold frame. intros H. rewrite H. reflexivity. Qed.
Lemma f_strs s t x : frame s t -> frame s (set_strs x t).
Proof. unfold frame. intros H. rewrite H. reflexivity. Qed.
Lemma f_byhash s t x : frame s t -> frame s (set_byhash x t).
Proof. unfold frame. intros H. rewrite H. reflexivity. Qed.
Lemma f_static s t x : frame s t -> frame s (set_static x t).
Proof. unfold frame. intros H. rewrite H. reflexivity. Qed.
Lemma f_ctxs s t x : frame s t -> frame s (set_ctxs x t).
Proof. unfold frame. intros H. rewrite H. reflexivity. Qed.

(** Half way through. *)
Record mid (s t : vm) (ro rs : Z -> Z) : Prop := {
  md_frame : frame s t;
  md_olen : t_cap (v_objs t) = t_cap (v_objs s);
  md_slen : t_cap (v_strs t) = t_cap (v_strs s);
  md_obj : forall i o, get_obj s i = Some o -> get_obj t (ro i) = Some (put_at ro rs i o);
  md_obj_only : forall j p, get_obj t j = Some p -> exists i o, get_obj s i = Some o /\ ro i = j;
  md_obj_inj : forall i j o p, get_obj s i = Some o -> get_obj s j = Some p -> ro i = ro j -> i = j;
  md_fixed : forall i o, get_obj s i = Some o -> o_handles o <> 0 \/ o_ext o = v_corotype s -> ro i = i;
  md_str : forall i e, get_str_entry s i = Some e -> get_str_entry t (rs i) = Some (set_s_idx (rs i) e);
  md_str_only : forall j f, get_str_entry t j = Some f -> exists i e, get_str_entry s i = Some e /\ rs i = j;
  md_str_inj : forall i j e f, get_str_entry s i = Some e -> get_str_entry s j = Some f -> rs i = rs j -> i = j;
  md_literal : forall i e, get_str_entry s i = Some e -> s_keep e = true -> rs i = i;
  md_byhash : v_byhash t = map (map rs) (v_byhash s);
  md_static : v_static t = map (ren ro rs) (v_static s);
  md_ctx : exists c vals, znth (v_ctxs s) (v_cur s) = Some (Some c) /\ put_stack ro rs (c_stack c) vals /\
             v_ctxs t = zupd (v_ctxs s) (v_cur s) (Some (set_c_stack (mkK vals (k_size (c_stack c)) (k_cap (c_stack c)) (k_mask (c_stack c))) c))
}.

Lemma zupd_zupd {A} (l : list A) i x y : zupd (zupd l i x) i y = zupd l i y.
Proof.
  apply list_ext_znth. intros j. rewrite !znth_zupd. rewrite zlen_zupd. destruct ((i =? j) && (0 <=? i) && (i <? zlen l)); reflexivity.
Qed.
Lemma zupd_self {A} (l : list A) i x : znth l i = Some x -> zupd l i x = l.
Proof.
  intros Z. assert (R := znth_some_range _ _ _ Z). apply list_ext_znth. intros j. rewrite znth_zupd.
  destruct (Z.eqb_spec i j) as [->|]; [|reflexivity]. replace (0 <=? j) with true by lia. replace (j <? zlen l) with true by lia. now rewrite Z.
Qed.
Lemma get_znth s i o : get_obj s i = Some o <-> znth (t_slots (v_objs s)) i = Some (Some o).
Proof. unfold get_obj. rewrite tab_get_znth. destruct (znth _ i) as [[x|]|]; split; congruence. Qed.
Lemma gets_znth s i e : get_str_entry s i = Some e <-> znth (t_slots (v_strs s)) i = Some (Some e).
Proof. unfold get_str_entry. rewrite tab_get_znth. destruct (znth _ i) as [[x|]|]; split; congruence. Qed.

Lemma rewrite_first_ok f n l : 0 <= n <= zlen l ->
  exists l', rewrite_first f n l = Ok l' /\ zlen l' = zlen l /\ firstn (Z.to_nat n) l' = map f (firstn (Z.to_nat n) l).
Proof.
  intros R. unfold rewrite_first. destruct (Z.ltb_spec (zlen l) n); [lia|]. eexists. split; [reflexivity|].
  assert (L : length (map f (firstn (Z.to_nat n) l)) = Z.to_nat n) by (rewrite map_length, firstn_length; unfold zlen in R; lia). split.
  - unfold zlen. rewrite app_length, L, skipn_length. unfold zlen in R. lia.
  - rewrite firstn_app, L, Nat.sub_diag. cbn [firstn]. rewrite app_nil_r. rewrite <- L at 1. apply firstn_all.
Qed.
Lemma rewrite_all f l : rewrite_first f (zlen l) l = Ok (map f l).
Proof.
  unfold rewrite_first. rewrite Z.ltb_irrefl. unfold zlen. rewrite Nat2Z.id, firstn_all, skipn_all. now rewrite app_nil_r.
Qed.

(** ** One move *)

Section Move.
Variable s : vm.
Variable bb : bool.
Hypothesis W : wf bb 0 s.

Lemma mid_start : mid s s (fun x => x) (fun x => x).
Proof.
  destruct (w_chain _ _ _ W) as (l & C & _). destruct (chain_live _ _ _ C) as [c Zc].
  split; auto; try (intros; eauto; fail).
  - unfold frame. destruct s; reflexivity.
  - intros i o G. rewrite G. f_equal. unfold put_at. destruct (w_obj _ _ _ W i o G) as [<- _ _ _ _ _]. destruct o as [oi og os ob oh oe od].
    cbn [o_idx o_gc o_size o_buckets o_handles o_ext o_data]. f_equal. symmetry. rewrite <- (map_id ob) at 2. apply map_ext. intros c0.
    rewrite <- (map_id c0) at 2. apply map_ext. intros [k v]. unfold ren_field. cbn [fst snd]. now rewrite !ren_id.
  - intros i e G. rewrite G. f_equal. destruct (sw_ent _ _ (w_str _ _ _ W) i e G) as [<- _]. now destruct e.
  - symmetry. rewrite <- (map_id (v_byhash s)) at 2. apply map_ext. intros. apply map_id.
  - symmetry. rewrite <- (map_id (v_static s)) at 2. apply map_ext. intros. apply ren_id.
  - exists c, (k_vals (c_stack c)). split; [exact Zc|]. split.
    + split; [reflexivity|]. rewrite <- (map_id (firstn _ _)) at 1. apply map_ext. intros. now rewrite ren_id.
    + symmetry. replace (set_c_stack _ c) with c by (destruct c as [[] ? ? ? ?]; reflexivity). now apply zupd_self.
Qed.

(** Rewriting the stack and the static space. *)
Lemma rewrite_stack_ok f t c vals k : znth (v_ctxs t) (v_cur t) = Some (Some c) -> c_stack c = mkK vals (k_size k) (k_cap k) (k_mask k) ->
  0 <= k_size k <= zlen vals ->
  exists vals', rewrite_stack f t = Ok (tt, set_ctxs (zupd (v_ctxs t) (v_cur t) (Some (set_c_stack (mkK vals' (k_size k) (k_cap k) (k_mask k)) c))) t) /\
    zlen vals' = zlen vals /\ firstn (Z.to_nat (k_size k)) vals' = map f (firstn (Z.to_nat (k_size k)) vals).
Proof.
  intros Z E R. destruct (rewrite_first_ok f (k_size k) vals R) as (vals' & F & L & P). exists vals'. split; [|auto].
  unfold rewrite_stack, cur_ctx, mod_cur, mbind, gets, get_ctx, put_ctx, lift. rewrite Z, E. cbn [k_size k_vals k_cap k_mask]. rewrite F, Z, Z.
  reflexivity.
Qed.
Lemma rewrite_static_ok f t : zlen (v_static t) = v_smask t + 1 -> rewrite_static f t = Ok (tt, set_static (map f (v_static t)) t).
Proof. intros E. unfold rewrite_static, mbind, gets, lift, modify. rewrite <- E, rewrite_all. reflexivity. Qed.

Lemma frame_simple t : frame s t ->
  v_cur t = v_cur s /\ v_smask t = v_smask s /\ v_corotype t = v_corotype s /\ v_errs t = v_errs s /\ v_gcpass t = v_gcpass s /\ v_hlist t = v_hlist s.
Proof. unfold frame. intros ->. repeat split. Qed.

Lemma move_object_ok t ro rs a b o : mid s t ro rs -> znth (t_slots (v_objs t)) b = Some None -> znth (t_slots (v_objs t)) a = Some (Some o) ->
  movable_object t o = true -> exists t', move_object a b t = Ok (tt, t') /\ mid s t' (fun x => mv a b (ro x)) rs.
Proof.
  intros D Zb Za Mv. assert (Nab : a <> b) by (intros ->; congruence).
  destruct (frame_simple t (md_frame _ _ _ _ D)) as (Fc & Fs & Ft & _).
  destruct (md_ctx _ _ _ _ D) as (c & vals & Zc & (Lv & Pv) & Ec).
  assert (Kc := w_stk _ _ _ W _ _ Zc). assert (Rc := znth_some_range _ _ _ Zc).
  destruct (md_obj_only _ _ _ _ D a o ltac:(now apply get_znth)) as (i0 & o0 & G0 & R0).
  assert (E0 : o = put_at ro rs i0 o0). { assert (Q := md_obj _ _ _ _ D i0 o0 G0). rewrite R0 in Q. apply get_znth in Q. congruence. }
  assert (Mv0 : o_handles o0 = 0 /\ o_ext o0 <> v_corotype s).
  { unfold movable_object in Mv. rewrite E0, Ft in Mv. unfold put_at in Mv. cbn [o_handles o_ext] in Mv. lia. }
  set (sl := zupd (zupd (t_slots (v_objs t)) b (Some (set_o_idx b o))) a None).
  set (t1 := set_objs (mkT sl (t_holes (v_objs t))) t).
  assert (Z1 : znth (v_ctxs t1) (v_cur t1) = Some (Some (set_c_stack (mkK vals (k_size (c_stack c)) (k_cap (c_stack c)) (k_mask (c_stack c))) c))).
  { unfold t1. vs. rewrite Fc, Ec. rewrite znth_zupd_same; [reflexivity|]. exact Rc. }
  destruct (rewrite_stack_ok (ren_obj a b) t1 _ vals (c_stack c) Z1 eq_refl) as (vals' & E1 & L1 & P1).
  { rewrite Lv, (kw_len _ Kc). apply (kw_size _ Kc). }
  set (t2 := set_ctxs (zupd (v_ctxs t1) (v_cur t1) (Some (set_c_stack (mkK vals' (k_size (c_stack c)) (k_cap (c_stack c)) (k_mask (c_stack c)))
       (set_c_stack (mkK vals (k_size (c_stack c)) (k_cap (c_stack c)) (k_mask (c_stack c))) c)))) t1).
  assert (E2 : rewrite_static (ren_obj a b) t2 = Ok (tt, set_static (map (ren_obj a b) (v_static t2)) t2)).
  { apply rewrite_static_ok. unfold t2, t1. vs. rewrite (md_static _ _ _ _ D), Fs. unfold zlen. rewrite map_length. apply (w_static _ _ _ W). }
  eexists. split.
  { unfold move_object. unfold mbind at 1, gets at 1. rewrite Zb, Za. fold sl.
    unfold mbind at 1, modify at 1. fold t1. rewrite (bind_run _ _ _ _ _ E1). fold t2. rewrite (bind_run _ _ _ _ _ E2).
    unfold rewrite_objects, modify. reflexivity. }
  vs. unfold t2, t1. vs.
  assert (Lb := znth_some_range _ _ _ Zb). assert (La := znth_some_range _ _ _ Za).
  assert (Slot : forall j, znth sl j = if j =? a then Some None else if j =? b then Some (Some (set_o_idx b o)) else znth (t_slots (v_objs t)) j).
  { intros j. unfold sl. destruct (Z.eqb_spec j a) as [->|Na]; [apply znth_zupd_same; rewrite zlen_zupd; exact La|].
    rewrite znth_zupd_other by lia. destruct (Z.eqb_spec j b) as [->|Nb]; [now apply znth_zupd_same|]. now rewrite znth_zupd_other by lia. }
  assert (Put : forall i p, rewrite_fields (ren_obj a b) (set_o_idx (mv a b (ro i)) (put_at ro rs i p)) = put_at (fun x => mv a b (ro x)) rs i p).
  { intros i p. unfold rewrite_fields, put_at, set_o_buckets, set_o_idx. cbn [o_idx o_gc o_size o_buckets o_handles o_ext o_data]. f_equal. rewrite map_map. apply map_ext. intros l. rewrite map_map. apply map_ext.
    intros [k v]. unfold ren_field. cbn [fst snd]. now rewrite !ren_then_obj. }
  assert (Live : forall i p, get_obj s i = Some p -> ro i <> b).
  { intros i p G Q. assert (K := md_obj _ _ _ _ D i p G). rewrite Q in K. apply get_znth in K. congruence. }
  split; vs; auto.
  - apply f_objs, f_static, f_ctxs, f_objs, (md_frame _ _ _ _ D).
  - unfold t_cap. cbn [t_slots]. unfold zlen. rewrite map_length. unfold sl. fold (zlen (zupd (zupd (t_slots (v_objs t)) b (Some (set_o_idx b o))) a None)).
    rewrite !zlen_zupd. apply (md_olen _ _ _ _ D).
  - apply (md_slen _ _ _ _ D).
  - intros i p G. apply get_znth. vs. cbn [t_slots]. rewrite znth_map, Slot. assert (K := md_obj _ _ _ _ D i p G). apply get_znth in K.
    rewrite <- Put. change (mv a b (ro i)) with (if ro i =? a then b else ro i). destruct (Z.eqb_spec (ro i) a) as [Q|Q].
    + destruct (Z.eqb_spec b a); [lia|]. rewrite Z.eqb_refl. cbn [option_map]. rewrite Q in K. rewrite Za in K. injection K as ->. reflexivity.
    + destruct (Z.eqb_spec (ro i) a); [lia|]. destruct (Z.eqb_spec (ro i) b); [now apply Live in G|]. rewrite K. cbn [option_map]. reflexivity.
  - intros j p G. apply get_znth in G. vsin G. cbn [t_slots] in G. rewrite znth_map, Slot in G.
    destruct (Z.eqb_spec j a) as [->|Na]; [discriminate|]. destruct (Z.eqb_spec j b) as [->|Nb].
    + exists i0, o0. split; [exact G0|]. unfold mv. rewrite R0, Z.eqb_refl. reflexivity.
    + destruct (znth (t_slots (v_objs t)) j) as [[q|]|] eqn:Zj; try discriminate. apply get_znth in Zj.
      destruct (md_obj_only _ _ _ _ D j q Zj) as (i & p' & G' & R'). exists i, p'. split; [exact G'|]. unfold mv. destruct (Z.eqb_spec (ro i) a); lia.
  - intros i j p q Gi Gj Q. apply (md_obj_inj _ _ _ _ D i j p q Gi Gj). apply Live in Gi, Gj. unfold mv in Q.
    destruct (Z.eqb_spec (ro i) a), (Z.eqb_spec (ro j) a); lia.
  - intros i p G Fx. assert (Q := md_fixed _ _ _ _ D i p G Fx). unfold mv. destruct (Z.eqb_spec (ro i) a) as [K|K]; [|exact Q].
    exfalso. assert (i = i0) by (apply (md_obj_inj _ _ _ _ D i i0 p o0 G G0); congruence). subst i. rewrite G0 in G. injection G as <-.
    destruct Fx; tauto.
  - apply (md_str _ _ _ _ D).
  - apply (md_str_only _ _ _ _ D).
  - apply (md_str_inj _ _ _ _ D).
  - apply (md_literal _ _ _ _ D).
  - apply (md_byhash _ _ _ _ D).
  - rewrite (md_static _ _ _ _ D), map_map. apply map_ext. intros. apply ren_then_obj.
  - exists c, vals'. split; [exact Zc|]. split.
    + split; [lia|]. rewrite P1, Pv, map_map. apply map_ext. intros. apply ren_then_obj.
    + rewrite Fc, Ec, zupd_zupd. reflexivity.
Qed.

Lemma move_string_ok t ro rs a b e : mid s t ro rs -> znth (t_slots (v_strs t)) b = Some None -> znth (t_slots (v_strs t)) a = Some (Some e) ->
  movable_string t e = true -> exists t', move_string a b t = Ok (tt, t') /\ mid s t' ro (fun x => mv a b (rs x)).
Proof.
  intros D Zb Za Mv. assert (Nab : a <> b) by (intros ->; congruence).
  destruct (frame_simple t (md_frame _ _ _ _ D)) as (Fc & Fs & Ft & _).
  destruct (md_ctx _ _ _ _ D) as (c & vals & Zc & (Lv & Pv) & Ec).
  assert (Kc := w_stk _ _ _ W _ _ Zc). assert (Rc := znth_some_range _ _ _ Zc).
  destruct (md_str_only _ _ _ _ D a e ltac:(now apply gets_znth)) as (i0 & e0 & G0 & R0).
  assert (E0 : e = set_s_idx (rs i0) e0). { assert (Q := md_str _ _ _ _ D i0 e0 G0). rewrite R0 in Q. apply gets_znth in Q. rewrite R0. congruence. }
  assert (Mv0 : s_keep e0 = false).
  { unfold movable_string in Mv. rewrite E0 in Mv. unfold set_s_idx in Mv. cbn [s_keep] in Mv. now apply negb_true_iff in Mv. }
  set (sl := zupd (zupd (t_slots (v_strs t)) b (Some (set_s_idx b e))) a None).
  set (t0 := set_strs (mkT sl (t_holes (v_strs t))) t).
  set (t1 := set_byhash (map (map (fun i => if i =? a then b else i)) (v_byhash t0)) t0).
  assert (Z1 : znth (v_ctxs t1) (v_cur t1) = Some (Some (set_c_stack (mkK vals (k_size (c_stack c)) (k_cap (c_stack c)) (k_mask (c_stack c))) c))).
  { unfold t1, t0. vs. rewrite Fc, Ec. rewrite znth_zupd_same; [reflexivity|]. exact Rc. }
  destruct (rewrite_stack_ok (ren_str a b) t1 _ vals (c_stack c) Z1 eq_refl) as (vals' & E1 & L1 & P1).
  { rewrite Lv, (kw_len _ Kc). apply (kw_size _ Kc). }
  set (t2 := set_ctxs (zupd (v_ctxs t1) (v_cur t1) (Some (set_c_stack (mkK vals' (k_size (c_stack c)) (k_cap (c_stack c)) (k_mask (c_stack c)))
       (set_c_stack (mkK vals (k_size (c_stack c)) (k_cap (c_stack c)) (k_mask (c_stack c))) c)))) t1).
  assert (E2 : rewrite_static (ren_str a b) t2 = Ok (tt, set_static (map (ren_str a b) (v_static t2)) t2)).
  { apply rewrite_static_ok. unfold t2, t1, t0. vs. rewrite (md_static _ _ _ _ D), Fs. unfold zlen. rewrite map_length. apply (w_static _ _ _ W). }
  eexists. split.
  { unfold move_string. unfold mbind at 1, gets at 1. rewrite Zb, Za. fold sl.
    unfold mbind at 1, modify at 1. fold t0. unfold mbind at 1, modify at 1. fold t1. rewrite (bind_run _ _ _ _ _ E1). fold t2. rewrite (bind_run _ _ _ _ _ E2).
    unfold rewrite_objects, modify. reflexivity. }
  vs. unfold t2, t1, t0. vs.
  assert (Lb := znth_some_range _ _ _ Zb). assert (La := znth_some_range _ _ _ Za).
  assert (Slot : forall j, znth sl j = if j =? a then Some None else if j =? b then Some (Some (set_s_idx b e)) else znth (t_slots (v_strs t)) j).
  { intros j. unfold sl. destruct (Z.eqb_spec j a) as [->|Na]; [apply znth_zupd_same; rewrite zlen_zupd; exact La|].
    rewrite znth_zupd_other by lia. destruct (Z.eqb_spec j b) as [->|Nb]; [now apply znth_zupd_same|]. now rewrite znth_zupd_other by lia. }
  assert (Put : forall i p, rewrite_fields (ren_str a b) (put_at ro rs i p) = put_at ro (fun x => mv a b (rs x)) i p).
  { intros i p. unfold rewrite_fields, put_at, set_o_buckets. cbn [o_idx o_gc o_size o_buckets o_handles o_ext o_data]. f_equal. rewrite map_map. apply map_ext. intros l. rewrite map_map. apply map_ext.
    intros [k v]. unfold ren_field. cbn [fst snd]. now rewrite !ren_then_str. }
  assert (Live : forall i p, get_str_entry s i = Some p -> rs i <> b).
  { intros i p G Q. assert (K := md_str _ _ _ _ D i p G). rewrite Q in K. apply gets_znth in K. congruence. }
  split; vs; auto.
  - apply f_objs, f_static, f_ctxs, f_byhash, f_strs, (md_frame _ _ _ _ D).
  - unfold t_cap. cbn [t_slots]. unfold zlen. rewrite map_length. apply (md_olen _ _ _ _ D).
  - unfold t_cap. cbn [t_slots]. unfold sl. rewrite !zlen_zupd. apply (md_slen _ _ _ _ D).
  - intros i p G. apply get_znth. vs. cbn [t_slots]. rewrite znth_map. assert (K := md_obj _ _ _ _ D i p G). apply get_znth in K. rewrite K.
    cbn [option_map]. now rewrite Put.
  - intros j p G. apply get_znth in G. vsin G. cbn [t_slots] in G. rewrite znth_map in G.
    destruct (znth (t_slots (v_objs t)) j) as [[q|]|] eqn:Zj; try discriminate. apply get_znth in Zj. apply (md_obj_only _ _ _ _ D j q Zj).
  - apply (md_obj_inj _ _ _ _ D).
  - apply (md_fixed _ _ _ _ D).
  - intros i p G. apply gets_znth. vs. cbn [t_slots]. rewrite Slot. assert (K := md_str _ _ _ _ D i p G). apply gets_znth in K.
    change (mv a b (rs i)) with (if rs i =? a then b else rs i). destruct (Z.eqb_spec (rs i) a) as [Q|Q].
    + destruct (Z.eqb_spec b a); [lia|]. rewrite Z.eqb_refl. rewrite Q in K. rewrite Za in K. injection K as ->. reflexivity.
    + destruct (Z.eqb_spec (rs i) a); [lia|]. destruct (Z.eqb_spec (rs i) b); [now apply Live in G|]. rewrite K. reflexivity.
  - intros j p G. apply gets_znth in G. vsin G. cbn [t_slots] in G. rewrite Slot in G.
    destruct (Z.eqb_spec j a) as [->|Na]; [discriminate|]. destruct (Z.eqb_spec j b) as [->|Nb].
    + exists i0, e0. split; [exact G0|]. unfold mv. rewrite R0, Z.eqb_refl. reflexivity.
    + apply gets_znth in G.
      destruct (md_str_only _ _ _ _ D j p G) as (i & p' & G' & R'). exists i, p'. split; [exact G'|]. unfold mv. destruct (Z.eqb_spec (rs i) a); lia.
  - intros i j p q Gi Gj Q. apply (md_str_inj _ _ _ _ D i j p q Gi Gj). apply Live in Gi, Gj. unfold mv in Q.
    destruct (Z.eqb_spec (rs i) a), (Z.eqb_spec (rs j) a); lia.
  - intros i p G Fx. assert (Q := md_literal _ _ _ _ D i p G Fx). unfold mv. destruct (Z.eqb_spec (rs i) a) as [K|K]; [|exact Q].
    exfalso. assert (i = i0) by (apply (md_str_inj _ _ _ _ D i i0 p e0 G G0); congruence). subst i. rewrite G0 in G. injection G as <-. congruence.
  - rewrite (md_byhash _ _ _ _ D), map_map. apply map_ext. intros l. rewrite map_map. reflexivity.
  - rewrite (md_static _ _ _ _ D), map_map. apply map_ext. intros. apply ren_then_str.
  - exists c, vals'. split; [exact Zc|]. split.
    + split; [lia|]. rewrite P1, Pv, map_map. apply map_ext. intros. apply ren_then_str.
    + rewrite Fc, Ec, zupd_zupd. reflexivity.
Qed.

(** ** All moves *)

Lemma find_movable_ok {A} (may : A -> bool) l : forall i j, find_movable may l i = Some j ->
  i <= j /\ exists x, znth l (j - i) = Some (Some x) /\ may x = true.
Proof.
  induction l as [|y r IH]; intros i j E; cbn [find_movable] in E; [discriminate|]. destruct y as [x|].
  - destruct (may x) eqn:M.
    + injection E as <-. split; [lia|]. exists x. rewrite Z.sub_diag, znth_cons_0. auto.
    + destruct (IH _ _ E) as (L & x' & Z & M'). split; [lia|]. exists x'. rewrite znth_cons_S by lia. replace (j - i - 1) with (j - (i + 1)) by lia. auto.
  - destruct (IH _ _ E) as (L & x' & Z & M'). split; [lia|]. exists x'. rewrite znth_cons_S by lia. replace (j - i - 1) with (j - (i + 1)) by lia. auto.
Qed.
Lemma znth_skipn {A} (l : list A) n i : 0 <= i -> znth (skipn n l) i = znth l (Z.of_nat n + i).
Proof.
  revert l. induction n as [|n IH]; intros l R; [reflexivity|]. destruct l as [|x r].
  - cbn [skipn]. now rewrite !znth_out by (unfold zlen; cbn; lia).
  - cbn [skipn]. rewrite IH by lia. rewrite znth_cons_S by lia. f_equal. lia.
Qed.

Lemma pack_ok {A} (tab : vm -> table A) may move : (forall t ro rs a b x, mid s t ro rs -> znth (t_slots (tab t)) b = Some None ->
    znth (t_slots (tab t)) a = Some (Some x) -> may t x = true -> exists t' ro' rs', move a b t = Ok (tt, t') /\ mid s t' ro' rs') ->
  (forall t ro rs, mid s t ro rs -> t_cap (tab t) = t_cap (tab s)) ->
  forall n t ro rs e o, mid s t ro rs -> 0 <= e -> 0 <= o -> e + Z.of_nat n <= t_cap (tab s) ->
  exists t' ro' rs', pack tab may move n e o t = Ok (tt, t') /\ mid s t' ro' rs'.
Proof.
  intros Mv Cap. induction n as [|n IH]; intros t ro rs e o D Re Ro Rn; cbn [pack]; [exists t, ro, rs; split; [reflexivity|exact D]|].
  unfold mbind at 1, gets at 1. assert (C := Cap _ _ _ D). destruct (znth_in_range (t_slots (tab t)) e) as [x Zx]; [unfold t_cap in *; lia|].
  unfold mbind at 1, lift at 1, rd. rewrite Zx. destruct x as [x|]; [apply (IH t ro rs); auto; lia|].
  assert (R1 : 0 <= (if o <? e then e + 1 else o)) by (destruct (o <? e); lia). set (o1 := if o <? e then e + 1 else o) in *.
  destruct (find_movable _ _ o1) as [j|] eqn:F.
  - apply find_movable_ok in F. destruct F as (L & y & Zy & My). rewrite znth_skipn in Zy by lia.
    replace (Z.of_nat (Z.to_nat o1) + (j - o1)) with j in Zy by lia.
    destruct (Mv t ro rs j e y D Zx Zy My) as (t' & ro' & rs' & E & D'). rewrite (bind_run _ _ _ _ _ E). apply (IH t' ro' rs'); auto; lia.
  - apply (IH t ro rs); auto; try lia.
Qed.
End Move.

(** ** Stacks *)

Definition slim_stack (k k' : stack) : Prop :=
  contents k' = contents k /\ k_size k' = k_size k /\ k_cap k' <= k_cap k /\ kwf k'.
Lemma shrink_stack_ok k : kwf k -> slim_stack k (shrink_stack k).
Proof.
  intros K. destruct (kw_pow _ K) as [e [Re Ce]]. assert (B := pow2_bounds _ (kw_pow _ K)). assert (Sz := kw_size _ K).
  unfold shrink_stack. destruct (Z.eq_dec (k_size k) (k_cap k)) as [Eq|Ne].
  - assert (H : halve 32 (k_cap k) (k_size k) = k_cap k).
    { cbn [halve]. destruct (Z.ltb_spec (k_size k) (k_cap k / 2)); [lia|reflexivity]. }
    rewrite H. destruct (Z.ltb_spec (k_cap k) 1); [lia|]. rewrite Z.eqb_refl. split; [reflexivity|]. split; [reflexivity|]. split; [lia|exact K].
  - destruct (halve_spec 32 (k_cap k) (k_size k) e Ce) as ((e' & Re' & Ce') & H1 & H2 & H3); [lia|lia|]. cbv zeta in *.
    set (n := halve 32 (k_cap k) (k_size k)) in *. destruct (Z.ltb_spec n 1); [lia|]. destruct (Z.eqb_spec n (k_cap k)).
    + split; [reflexivity|]. split; [reflexivity|]. split; [lia|exact K].
    + assert (L := kw_len _ K). split; [|split; [reflexivity|split; [cbn [k_cap]; lia|]]].
      * unfold contents. cbn [k_vals k_size]. rewrite firstn_firstn. f_equal. lia.
      * split; cbn [k_vals k_size k_cap k_mask]; [|lia|exists e'; split; [lia|exact Ce']|lia].
        unfold zlen in *. rewrite firstn_length. lia.
Qed.
Definition slim (l l' : list (option ctx)) : Prop :=
  forall i, match znth l i, znth l' i with
            | Some (Some c), Some (Some d) => d = set_c_stack (c_stack d) c /\ slim_stack (c_stack c) (c_stack d)
            | Some None, Some None => True
            | None, None => True
            | _, _ => False
            end.
Lemma slim_refl l : (forall i c, znth l i = Some (Some c) -> kwf (c_stack c)) -> slim l l.
Proof.
  intros K i. destruct (znth l i) as [[c|]|] eqn:Z; auto. split; [now destruct c|]. split; [reflexivity|]. split; [reflexivity|]. split; [lia|]. eapply K; exact Z.
Qed.
Lemma slim_kwf l l' i d : slim l l' -> znth l' i = Some (Some d) -> kwf (c_stack d).
Proof. intros H Z. specialize (H i). rewrite Z in H. destruct (znth l i) as [[c|]|]; try contradiction. apply H. Qed.
Lemma shrink_ctx_ok i t c l : slim l (v_ctxs t) -> znth (v_ctxs t) i = Some (Some c) ->
  exists l', shrink_ctx i t = Ok (tt, set_ctxs l' t) /\ slim l l'.
Proof.
  intros S Z. assert (K := slim_kwf _ _ _ _ S Z). assert (Q := shrink_stack_ok _ K).
  unfold shrink_ctx, mbind, get_ctx, put_ctx. rewrite Z, Z. eexists. split; [reflexivity|]. intros j. specialize (S j).
  destruct (Z.eq_dec j i) as [->|N].
  - rewrite znth_zupd_same by (eapply znth_some_range; exact Z). rewrite Z in S. destruct (znth l i) as [[c0|]|]; try contradiction.
    destruct S as [S1 S2]. destruct Q as (Q1 & Q2 & Q3 & Q4), S2 as (S2 & S3 & S4 & S5). cs. split; [rewrite S1; destruct c0; reflexivity|].
    split; [congruence|]. split; [congruence|]. split; [lia|exact Q4].
  - rewrite znth_zupd_other by lia. exact S.
Qed.
Lemma shrink_coroutines_ok l : forall os t, slim l (v_ctxs t) ->
  (forall o, In (Some o) os -> o_ext o = v_corotype t -> exists i c, o_data o = Some i /\ znth l i = Some (Some c)) ->
  exists l', shrink_coroutines os t = Ok (tt, set_ctxs l' t) /\ slim l l'.
Proof.
  induction os as [|x r IH]; intros t S H; cbn [shrink_coroutines].
  - exists (v_ctxs t). split; [|exact S]. unfold ret. now destruct t.
  - unfold mbind at 1, gets at 1. destruct x as [o|].
    + destruct (Z.eqb_spec (o_ext o) (v_corotype t)) as [E|E].
      * destruct (H o (or_introl eq_refl) E) as (i & c & D & Z). unfold mbind at 1, of_opt. rewrite D.
        assert (Q := S i). rewrite Z in Q. destruct (znth (v_ctxs t) i) as [[d|]|] eqn:Zd; try contradiction.
        destruct (shrink_ctx_ok i t d l S Zd) as (l1 & E1 & S1). unfold ret at 1. rewrite (bind_run _ _ _ _ _ E1).
        destruct (IH (set_ctxs l1 t) S1) as (l2 & E2 & S2); [intros o' I' E'; apply (H o'); [now right|exact E']|].
        exists l2. split; [exact E2|exact S2].
      * apply IH; [exact S|]. intros o' I' E'. apply (H o'); [now right|exact E'].
    + apply IH; [exact S|]. intros o' I' E'. apply (H o'); [now right|exact E'].
Qed.

(** ** The whole *)

Lemma tab_shrink_slots {A} (t : table A) : pow2 (t_cap t) ->
  tab_wf (tab_shrink t) /\ t_cap (tab_shrink t) <= t_cap t /\ forall j, tab_get (tab_shrink t) j = tab_get t j.
Proof.
  intros P. assert (W : tab_wf (tab_reset_holes t)).
  { unfold tab_reset_holes. split; cbn [t_holes t_slots].
    - apply empty_from_NoDup.
    - intros i. rewrite empty_from_In. rewrite Z.sub_0_r. split; [tauto|]. intros Z. split; [|exact Z]. apply znth_some_range in Z. lia.
    - exact P. }
  destruct (tab_shrink_ok _ W) as (A1 & A2 & A3 & _). split; [exact A1|]. split; [exact A2|]. exact A3.
Qed.

Section Final.
Variables s t : vm.
Variable bb : bool.
Hypothesis W : wf bb 0 s.
Variables ro rs : Z -> Z.
Hypothesis D : mid s t ro rs.
Variable l : list (option ctx).
Hypothesis Sl : slim (v_ctxs t) l.
Let u : vm := set_ctxs l (set_strs (tab_shrink (v_strs t)) (set_objs (tab_shrink (v_objs t)) t)).

Lemma fin_tabs : tab_wf (v_objs u) /\ tab_wf (v_strs u) /\ (forall i, get_obj u i = get_obj t i) /\ (forall i, get_str_entry u i = get_str_entry t i) /\
  t_cap (v_objs u) <= t_cap (v_objs s) /\ t_cap (v_strs u) <= t_cap (v_strs s).
Proof.
  destruct (tab_shrink_slots (v_objs t)) as (A1 & A2 & A3). { rewrite (md_olen _ _ _ _ D). apply (w_tab _ _ _ W). }
  destruct (tab_shrink_slots (v_strs t)) as (B1 & B2 & B3). { rewrite (md_slen _ _ _ _ D). apply (sw_tab _ _ (w_str _ _ _ W)). }
  rewrite (md_olen _ _ _ _ D) in A2. rewrite (md_slen _ _ _ _ D) in B2. unfold u, get_obj, get_str_entry. vs. auto 10.
Qed.
(** A context before and after. *)
Lemma fin_ctx i c : znth (v_ctxs s) i = Some (Some c) -> exists d, znth (v_ctxs u) i = Some (Some d) /\ kwf (c_stack d) /\
  k_size (c_stack d) = k_size (c_stack c) /\ k_cap (c_stack d) <= k_cap (c_stack c) /\
  contents (c_stack d) = (if i =? v_cur s then map (ren ro rs) (contents (c_stack c)) else contents (c_stack c)) /\
  c_ip d = c_ip c /\ c_parent d = c_parent c /\ c_obj d = c_obj c /\ c_state d = c_state c.
Proof.
  intros Z. unfold u. vs. destruct (md_ctx _ _ _ _ D) as (c0 & vals & Zc & (L & P) & E). assert (Q := Sl i). rewrite E in Q.
  assert (R := znth_some_range _ _ _ Z). destruct (Z.eqb_spec i (v_cur s)) as [->|N].
  - rewrite znth_zupd_same in Q by exact R. rewrite Zc in Z. injection Z as ->. destruct (znth l (v_cur s)) as [[d|]|]; try contradiction.
    destruct Q as (Q1 & Q2 & Q3 & Q4 & Q5). csin Q1; csin Q2; csin Q3; csin Q4; csin Q5. exists d. split; [reflexivity|]. split; [exact Q5|]. split; [exact Q3|]. split; [exact Q4|].
    split; [rewrite Q2; exact P|]. rewrite Q1. cs. auto.
  - rewrite znth_zupd_other in Q by lia. rewrite Z in Q. destruct (znth l i) as [[d|]|]; try contradiction.
    destruct Q as (Q1 & Q2 & Q3 & Q4 & Q5). exists d. split; [reflexivity|]. split; [exact Q5|]. split; [exact Q3|]. split; [exact Q4|].
    split; [exact Q2|]. rewrite Q1. cs. auto.
Qed.
Lemma fin_ctx_back i d : znth (v_ctxs u) i = Some (Some d) -> exists c, znth (v_ctxs s) i = Some (Some c).
Proof.
  unfold u. vs. intros Z. assert (Q := Sl i). rewrite Z in Q. destruct (md_ctx _ _ _ _ D) as (c0 & vals & Zc & _ & E). rewrite E in Q.
  destruct (Z.eq_dec i (v_cur s)) as [->|N]; [eauto|]. rewrite znth_zupd_other in Q by lia. destruct (znth (v_ctxs s) i) as [[c|]|]; try contradiction. eauto.
Qed.
Lemma fin_frame : frame s u.
Proof. unfold u. apply f_ctxs, f_strs, f_objs, (md_frame _ _ _ _ D). Qed.

Lemma fin_renumbered : renumbered s u ro rs /\ others_same s u.
Proof.
  destruct fin_tabs as (_ & _ & Go & Gs & _ & _). split.
  - split.
    + intros i o G. exists (put_at ro rs i o). rewrite Go. split; [now apply (md_obj _ _ _ _ D)|]. unfold put_at. cbn [o_buckets o_size o_handles o_ext o_data]. auto.
    + intros j p G. rewrite Go in G. apply (md_obj_only _ _ _ _ D j p G).
    + apply (md_obj_inj _ _ _ _ D).
    + apply (md_fixed _ _ _ _ D).
    + intros i e G. exists (set_s_idx (rs i) e). rewrite Gs. split; [now apply (md_str _ _ _ _ D)|]. split; reflexivity.
    + intros j f G. rewrite Gs in G. apply (md_str_only _ _ _ _ D j f G).
    + apply (md_str_inj _ _ _ _ D).
    + apply (md_literal _ _ _ _ D).
    + apply (md_static _ _ _ _ D).
    + intros c Z. destruct (fin_ctx _ _ Z) as (d & Zd & _ & _ & _ & C & Q). rewrite Z.eqb_refl in C. exists d. auto.
    + apply fin_frame.
  - intros i c N Z. destruct (fin_ctx _ _ Z) as (d & Zd & _ & _ & _ & C & Q). destruct (Z.eqb_spec i (v_cur s)); [contradiction|]. exists d. auto.
Qed.

Lemma fin_chain i k : chain (v_ctxs s) i k -> chain (v_ctxs u) i k.
Proof.
  induction 1 as [c Z P|i c p k Ni Z P C IH N]; destruct (fin_ctx _ _ Z) as (d & Zd & _ & _ & _ & _ & _ & Pd & _).
  - eapply ch_root; [exact Zd|congruence].
  - eapply ch_cons; [exact Ni|exact Zd|rewrite Pd; exact P|exact IH|exact N].
Qed.
Lemma fin_wf : wf bb 0 u.
Proof.
  destruct fin_tabs as (To & Ts & Go & Gs & _ & _). destruct (frame_simple s u fin_frame) as (Fc & Fm & Ft & Fe & Fp & Fh).
  assert (Fx : v_exttypes u = v_exttypes s /\ v_extfuncs u = v_extfuncs s /\ v_code u = v_code s /\ v_cmask u = v_cmask s)
    by (assert (Q := fin_frame); unfold frame in Q; rewrite Q; auto). destruct Fx as (Fx1 & Fx2 & Fx3 & Fx4).
  assert (Sw := w_str _ _ _ W).
  split.
  - intros E. unfold has_errors. rewrite Fe. apply (w_err _ _ _ W E).
  - assert (Bh : v_byhash u = map (map rs) (v_byhash s)) by apply (md_byhash _ _ _ _ D). rewrite Bh.
    assert (Es : forall i, tab_get (v_strs u) i = get_str_entry u i) by reflexivity.
    split; auto.
    + unfold zlen. rewrite map_length. apply (sw_len _ _ Sw).
    + intros j f G. rewrite Es, Gs in G. destruct (md_str_only _ _ _ _ D j f G) as (i & e & Ge & <-). rewrite (md_str _ _ _ _ D i e Ge) in G.
      injection G as <-. destruct (sw_ent _ _ Sw i e Ge) as (_ & Q1 & Q2). split; [reflexivity|]. split; [exact Q1|exact Q2].
    + intros j f G. rewrite Es, Gs in G. destruct (md_str_only _ _ _ _ D j f G) as (i & e & Ge & <-). rewrite (md_str _ _ _ _ D i e Ge) in G.
      injection G as <-. destruct (sw_in _ _ Sw i e Ge) as (c & Zc & Ic). exists (map rs c). change (s_str (set_s_idx (rs i) e)) with (s_str e).
      rewrite znth_map, Zc. split; [reflexivity|]. now apply in_map.
    + intros b c j Zc I. rewrite znth_map in Zc. destruct (znth (v_byhash s) b) as [c0|] eqn:Z0; [|discriminate]. injection Zc as <-.
      apply in_map_iff in I. destruct I as (i & <- & I). destruct (sw_chain _ _ Sw b c0 i Z0 I) as (e & Ge & Qe).
      exists (set_s_idx (rs i) e). rewrite Es, Gs. split; [now apply (md_str _ _ _ _ D)|exact Qe].
    + intros b c Zc. rewrite znth_map in Zc. destruct (znth (v_byhash s) b) as [c0|] eqn:Z0; [|discriminate]. injection Zc as <-.
      assert (N := sw_nodup _ _ Sw b c0 Z0). assert (I0 : forall i, In i c0 -> exists e, get_str_entry s i = Some e).
      { intros i I. destruct (sw_chain _ _ Sw b c0 i Z0 I) as (e & Ge & _). eauto. }
      clear -N I0 D. induction N as [|i r Ni Nr IH]; cbn [map]; constructor.
      * intros Q. apply in_map_iff in Q. destruct Q as (j & E & I). destruct (I0 i (or_introl eq_refl)) as [e Ge].
        destruct (I0 j (or_intror I)) as [f Gf]. rewrite (md_str_inj _ _ _ _ D j i f e Gf Ge E) in I. contradiction.
      * apply IH. intros j I. apply I0. now right.
    + intros i j e f Gi Gj Q. rewrite Es, Gs in Gi, Gj. destruct (md_str_only _ _ _ _ D i e Gi) as (i' & e' & Gi' & <-).
      destruct (md_str_only _ _ _ _ D j f Gj) as (j' & f' & Gj' & <-). rewrite (md_str _ _ _ _ D _ _ Gi') in Gi. rewrite (md_str _ _ _ _ D _ _ Gj') in Gj.
      injection Gi as <-. injection Gj as <-. f_equal. apply (sw_uniq _ _ Sw i' j' e' f' Gi' Gj' Q).
  - intros j f G. rewrite Gs in G. destruct (md_str_only _ _ _ _ D j f G) as (i & e & Ge & <-). rewrite (md_str _ _ _ _ D i e Ge) in G.
    injection G as <-. rewrite Fp. apply (w_sgc _ _ _ W i e Ge).
  - exact To.
  - intros j p G. rewrite Go in G. destruct (md_obj_only _ _ _ _ D j p G) as (i & o & Gi & <-). rewrite (md_obj _ _ _ _ D i o Gi) in G. injection G as <-.
    rewrite Fp. destruct (w_obj _ _ _ W i o Gi) as [Q1 Q2 Q3 Q4 Q5 Q6]. unfold put_at. split; cbn [o_idx o_buckets o_size o_gc o_handles]; auto.
    + unfold zlen in *. now rewrite map_length.
    + intros E. rewrite (Q3 E). rewrite <- concat_map. unfold zlen. now rewrite map_length.
  - destruct (w_chain _ _ _ W) as (k & C & All). exists k. rewrite Fc. split; [now apply fin_chain|].
    intros i d Z P. destruct (fin_ctx_back i d Z) as [c Zc]. destruct (fin_ctx i c Zc) as (d' & Zd & _ & _ & _ & _ & _ & Pd & _).
    rewrite Z in Zd. injection Zd as <-. apply (All i c Zc). congruence.
  - intros i d Z. destruct (fin_ctx_back i d Z) as [c Zc]. destruct (fin_ctx i c Zc) as (d' & Zd & K & _). rewrite Z in Zd. injection Zd as <-. exact K.
  - intros d Z. destruct (fin_ctx_back 0 d Z) as [c Zc]. destruct (fin_ctx 0 c Zc) as (d' & Zd & _ & _ & _ & _ & _ & _ & Od & _).
    rewrite Z in Zd. injection Zd as <-. rewrite Od. apply (w_root _ _ _ W c Zc).
  - intros i d N1 N2 Z. destruct (fin_ctx_back i d Z) as [c Zc]. destruct (fin_ctx i c Zc) as (d' & Zd & _ & _ & _ & _ & _ & _ & Od & _).
    rewrite Z in Zd. injection Zd as <-. destruct (w_co1 _ _ _ W i c N1 N2 Zc) as (id & o & Oc & G & E & Da).
    assert (Rid := md_fixed _ _ _ _ D id o G (or_intror E)). exists id, (put_at ro rs id o). split; [congruence|].
    split; [rewrite Go, <- Rid at 1; now apply (md_obj _ _ _ _ D)|]. rewrite Ft. split; [exact E|exact Da].
  - intros j p G E. rewrite Go in G. destruct (md_obj_only _ _ _ _ D j p G) as (i & o & Gi & <-). rewrite (md_obj _ _ _ _ D i o Gi) in G. injection G as <-.
    rewrite Ft in E. cbn [put_at o_ext o_data] in *. rewrite (md_fixed _ _ _ _ D i o Gi (or_intror E)).
    destruct (w_co2 _ _ _ W i o Gi E) as (k & c & Da & N1 & N2 & Zc & Oc). destruct (fin_ctx k c Zc) as (d & Zd & _ & _ & _ & _ & _ & _ & Od & _).
    exists k, d. split; [exact Da|]. split; [exact N1|]. split; [exact N2|]. split; [exact Zd|]. congruence.
  - assert (Q : v_static u = map (ren ro rs) (v_static s)) by apply (md_static _ _ _ _ D). rewrite Q, Fm. unfold zlen. rewrite map_length. apply (w_static _ _ _ W).
  - rewrite Fx3, Fx4. apply (w_code _ _ _ W).
  - rewrite Fh. apply (w_hnodup _ _ _ W).
  - intros i. rewrite Fh, (w_hlist _ _ _ W). split.
    + intros (o & G & H). exists (put_at ro rs i o). split; [|exact H]. rewrite Go. rewrite <- (md_fixed _ _ _ _ D i o G (or_introl H)) at 1. now apply (md_obj _ _ _ _ D).
    + intros (p & G & H). rewrite Go in G. destruct (md_obj_only _ _ _ _ D i p G) as (i' & o & Gi & <-). rewrite (md_obj _ _ _ _ D i' o Gi) in G. injection G as <-.
      cbn [put_at o_handles] in H. rewrite (md_fixed _ _ _ _ D i' o Gi (or_introl H)). eauto.
  - rewrite Ft, Fx1. apply (w_corotype _ _ _ W).
  - rewrite Fx2. apply (w_extfuncs _ _ _ W).
  - rewrite Fp. apply (w_pass _ _ _ W).
Qed.
End Final.

Lemma shrink_ok s b : wf b 0 s -> exists t ro rs, shrink s = Ok (tt, t) /\ renumbered s t ro rs /\ others_same s t /\ wf b 0 t /\
  t_cap (v_objs t) <= t_cap (v_objs s) /\ t_cap (v_strs t) <= t_cap (v_strs s).
Proof.
  intros W. unfold shrink. unfold mbind at 1, gets at 1. destruct (has_errors s) eqn:E.
  - exists s, (fun x => x), (fun x => x). split; [reflexivity|]. assert (D := mid_start s b W).
    assert (Rn : forall v, ren (fun x => x) (fun x => x) v = v) by exact ren_id. split; [|split; [|split; [exact W|lia]]].
    + split; try apply D; try (intros; eauto; fail).
      * intros i o G. exists o. split; [exact G|]. split; [|auto]. symmetry. rewrite <- (map_id (o_buckets o)) at 2. apply map_ext. intros c.
        rewrite <- (map_id c) at 2. apply map_ext. intros [k v]. unfold ren_field. cbn [fst snd]. now rewrite !Rn.
      * intros c Z. exists c. split; [exact Z|]. split; [|auto]. rewrite <- (map_id (contents _)) at 1. apply map_ext. intros. now rewrite Rn.
    + intros i c _ Z. exists c. auto 10.
  - unfold mbind at 1, gets at 1.
    destruct (pack_ok s v_objs movable_object move_object) with (n := length (t_slots (v_objs s))) (t := s) (ro := fun x : Z => x) (rs := fun x : Z => x) (e := 0) (o := 0)
      as (t1 & ro1 & rs1 & E1 & D1).
    { intros t ro rs a b0 x D Zb Za Mv. destruct (move_object_ok s b W t ro rs a b0 x D Zb Za Mv) as (t' & Q1 & Q2). eauto. }
    { intros t ro rs D. apply (md_olen _ _ _ _ D). }
    { apply (mid_start s b W). } { lia. } { lia. } { unfold t_cap, zlen. lia. }
    rewrite (bind_run _ _ _ _ _ E1). unfold mbind at 1, gets at 1.
    destruct (pack_ok s v_strs movable_string move_string) with (n := length (t_slots (v_strs t1))) (t := t1) (ro := ro1) (rs := rs1) (e := 0) (o := 0)
      as (t2 & ro2 & rs2 & E2 & D2).
    { intros t ro rs a b0 x D Zb Za Mv. destruct (move_string_ok s b W t ro rs a b0 x D Zb Za Mv) as (t' & Q1 & Q2). eauto. }
    { intros t ro rs D. apply (md_slen _ _ _ _ D). }
    { exact D1. } { lia. } { lia. } { rewrite <- (md_slen _ _ _ _ D1). unfold t_cap, zlen. lia. }
    rewrite (bind_run _ _ _ _ _ E2). unfold mbind at 1, modify at 1. unfold mbind at 1, modify at 1. vs.
    set (t3 := set_strs _ _). destruct (md_ctx _ _ _ _ D2) as (c & vals & Zc & (L & P) & Ec).
    assert (K2 : forall i c, znth (v_ctxs t2) i = Some (Some c) -> kwf (c_stack c)).
    { intros i c' Z. rewrite Ec in Z. assert (Kc := w_stk _ _ _ W _ _ Zc). destruct (Z.eq_dec i (v_cur s)) as [->|N].
      - rewrite znth_zupd_same in Z by (eapply znth_some_range; exact Zc). injection Z as <-. cs. destruct Kc as [K1 K2 K3 K4].
        split; cbn [k_vals k_size k_cap k_mask]; auto. lia.
      - rewrite znth_zupd_other in Z by lia. apply (w_stk _ _ _ W _ _ Z). }
    assert (S0 : slim (v_ctxs t2) (v_ctxs t3)) by (apply slim_refl; exact K2).
    assert (Rt : exists r, znth (v_ctxs t2) 0 = Some (Some r)).
    { destruct (w_chain _ _ _ W) as (l & C & _). assert (exists r, znth (v_ctxs s) 0 = Some (Some r)) as [r Zr] by (clear -C; induction C; eauto).
      rewrite Ec. destruct (Z.eq_dec 0 (v_cur s)) as [E0|N]; [rewrite <- E0, znth_zupd_same by (eapply znth_some_range; exact Zr); eauto|].
      rewrite znth_zupd_other by lia. eauto. }
    destruct Rt as [r Zr]. destruct (shrink_ctx_ok 0 t3 r (v_ctxs t2) S0 Zr) as (l3 & E3 & S3). rewrite (bind_run _ _ _ _ _ E3).
    unfold mbind at 1, gets at 1. destruct (frame_simple s t2 (md_frame _ _ _ _ D2)) as (Fc & Fm & Ft & _).
    destruct (fin_tabs s t2 b W ro2 rs2 D2 l3) as (_ & _ & Go & _ & C1 & C2).
    destruct (shrink_coroutines_ok (v_ctxs t2) (t_slots (v_objs (set_ctxs l3 t3))) (set_ctxs l3 t3) S3) as (l4 & E4 & S4).
    { intros o I E0. apply In_znth in I. destruct I as [j Zj]. apply (get_znth (set_ctxs l3 t3)) in Zj.
      change (get_obj (set_ctxs l3 t3) j) with (get_obj (set_ctxs l3 (set_strs (tab_shrink (v_strs t2)) (set_objs (tab_shrink (v_objs t2)) t2))) j) in Zj.
      rewrite Go in Zj. destruct (md_obj_only _ _ _ _ D2 j o Zj) as (i & o' & Gi & <-). rewrite (md_obj _ _ _ _ D2 i o' Gi) in Zj. injection Zj as <-.
      assert (E0' : o_ext o' = v_corotype s) by (rewrite <- Ft; exact E0).
      destruct (w_co2 _ _ _ W i o' Gi E0') as (k & c' & Da & N1 & N2 & Zk & Oc). exists k.
      rewrite Ec. destruct (Z.eq_dec k (v_cur s)) as [->|N]; [rewrite znth_zupd_same by (eapply znth_some_range; exact Zc); eauto|].
      rewrite znth_zupd_other by lia. eauto. }
    destruct (fin_renumbered s t2 b W ro2 rs2 D2 l4 S4) as [R1 R2].
    eexists _, ro2, rs2. split; [exact E4|]. split; [exact R1|]. split; [exact R2|]. split; [apply (fin_wf s t2 b W ro2 rs2 D2 l4 S4)|].
    split; [exact C1|exact C2].
Qed.
