(** * HeapProofs: the virtual machine's strings and objects against those of
    the semantics (used by MachProofs) *)

From Verif Require Import Base BaseFacts State MonadFacts StrModel ValueModel StackModel ObjsModel VmModel
  StrSpec ValueSpec ObjsSpec TableProofs StrProofs StackProofs ObjsProofs ObjsProperties VmSpec GcSpec
  OpSpec CallSpec RunSpec RepSpec.

Ltac Zify.zify_post_hook ::= Z.div_mod_to_equations.

Lemma vint_inj a b : is_s32 a -> is_s32 b -> vint a = vint b -> a = b.
Proof. unfold vint, is_s32, W31. intros A B E. injection E as E. unfold u32, W32 in E. lia. Qed.

Lemma rep_mono s s' W W' v x : (forall i t, get_str s i = Some t -> get_str s' i = Some t) ->
  (forall a i, W a = Some i -> W' a = Some i) -> rep s W v x -> rep s' W' v x.
Proof.
  intros S M R. destruct v; cbn [rep] in *; auto.
  - destruct R as [R1 R2]. auto.
  - destruct R as (i & R1 & R2). eauto.
Qed.

Section Rep.
Variable s : vm.
Variable W : Z -> option Z.
Hypothesis SW : str_wf (v_strs s) (v_byhash s).
Hypothesis W1 : forall a b i, W a = Some i -> W b = Some i -> a = b.

Lemma get_str_entry_of i t : get_str s i = Some t -> exists e, get_str_entry s i = Some e /\ s_str e = t.
Proof. unfold get_str. destruct (get_str_entry s i) as [e|]; [|discriminate]. intro E. injection E as <-. eauto. Qed.

Lemma rep_fun k x y : key_ok k -> rep s W k x -> rep s W k y -> x = y.
Proof using SW.
  intros K A B. destruct k; cbn [rep key_ok] in *; try contradiction.
  - destruct A as [-> _], B as [-> _]. reflexivity.
  - destruct A as [T1 G1], B as [T2 G2]. destruct x as [tx dx], y as [ty dy]; cbn [v_type v_data] in *. subst tx ty. f_equal.
    destruct (get_str_entry_of _ _ G1) as (e & E1 & F1). destruct (get_str_entry_of _ _ G2) as (f & E2 & F2).
    apply (sw_uniq _ _ SW dx dy e f E1 E2). congruence.
  - destruct A as [-> _], B as [-> _]. reflexivity.
  - destruct A as (i & Ei & ->), B as (j & Ej & ->). congruence.
Qed.

Lemma rep_type v x : rep s W v x ->
  v_type x = match v with VInt _ => T_INT | VFlt _ => T_FLOAT | VStr _ => T_STRING | VNil => T_NIL | VFun _ => T_FUNC | VObj _ => T_OBJ end.
Proof.
  destruct v; cbn [rep]; intro R.
  - destruct R as [-> _]. reflexivity.
  - subst x. reflexivity.
  - apply R.
  - exact R.
  - destruct R as [-> _]. reflexivity.
  - destruct R as (i & _ & ->). reflexivity.
Qed.

Lemma rep_inj v w x : rep s W v x -> rep s W w x -> v = w.
Proof using W1.
  intros A B. pose proof (rep_type _ _ A) as TA. pose proof (rep_type _ _ B) as TB. rewrite TA in TB.
  destruct v, w; try discriminate TB; clear TB; cbn [rep] in *.
  - destruct A as [-> A], B as [E B]. f_equal. apply vint_inj; auto.
  - rewrite A in B. injection B as ->. reflexivity.
  - destruct A as [_ A], B as [_ B]. congruence.
  - reflexivity.
  - destruct A as [A _], B as [B _]. rewrite A in B. injection B as ->. reflexivity.
  - destruct A as (i & Ei & Ax), B as (j & Ej & Bx). rewrite Ax in Bx. injection Bx as <-. f_equal. eauto.
Qed.

Lemma rep_vobj v i : rep s W v (vobj i) -> exists a, v = VObj a /\ W a = Some i.
Proof.
  intro R. pose proof (rep_type _ _ R) as T. destruct v; try discriminate T. cbn [rep] in R. destruct R as (j & E & X).
  injection X as <-. eauto.
Qed.

Lemma str_range i t : get_str s i = Some t -> 0 <= i < W32.
Proof using SW.
  clear W1 W. intro G. destruct (get_str_entry_of _ _ G) as (e & E & _). unfold get_str_entry in E. apply tab_get_some in E.
  pose proof (znth_some_range _ _ _ E) as R. pose proof (pow2_bounds _ (tw_cap _ (sw_tab _ _ SW))) as P.
  unfold t_cap in P. unfold W31, W32 in *. lia.
Qed.

Lemma rep_ordinary k x : key_ok k -> rep s W k x -> (forall a i, W a = Some i -> 0 <= i < W31) -> ordinary s x.
Proof using SW.
  clear W1.
  intros K R B. destruct k; cbn [rep key_ok] in *; try contradiction.
  - destruct R as [-> _]. split; [apply u32_range|]. left. reflexivity.
  - destruct R as [T G]. split; [apply (str_range _ _ G)|]. right. right. left. eauto.
  - destruct R as [-> U]. split; [exact U|]. right. right. right. left. reflexivity.
  - destruct R as (i & E & ->). split; [cbn; pose proof (B _ _ E); unfold W31, W32 in *; lia|]. do 4 right. left. reflexivity.
Qed.
End Rep.

(** ** The fields of one object *)

Record fields_ok (s : vm) (W : Z -> option Z) (f : value -> value) (l : obj) : Prop := {
  fo_nodup : NoDup (map fst l);
  fo_in : forall k v, In (k, v) l -> key_ok k /\ v <> VNil /\ exists kx, rep s W k kx /\ rep s W v (f kx);
  fo_out : forall kx, ordinary s kx -> f kx <> vnil -> exists k v, In (k, v) l /\ rep s W k kx
}.

Lemma val_eqb_eq a b : val_eqb a b = true <-> a = b.
Proof.
  assert (forall x y, text_eqb x y = true <-> x = y) as T.
  { induction x as [|c x IH]; intros [|d y]; cbn [text_eqb]; try (split; congruence).
    rewrite andb_true_iff, IH, Z.eqb_eq. split; [intros [-> ->]; reflexivity|intro E; injection E; auto]. }
  destruct a, b; cbn [val_eqb]; rewrite ?Z.eqb_eq, ?T; split; congruence.
Qed.
Lemma val_eqb_refl a : val_eqb a a = true.
Proof. apply val_eqb_eq. reflexivity. Qed.
Lemma val_eqb_neq a b : a <> b -> val_eqb a b = false.
Proof. intro N. destruct (val_eqb a b) eqn:E; [apply val_eqb_eq in E; congruence|reflexivity]. Qed.
Lemma val_dec (a b : val) : {a = b} + {a <> b}.
Proof. destruct (val_eqb a b) eqn:E; [left; apply val_eqb_eq; auto|right; intros ->; rewrite val_eqb_refl in E; discriminate]. Qed.
Lemma value_dec (a b : value) : {a = b} + {a <> b}.
Proof. decide equality; apply Z.eq_dec. Qed.

Lemma oget_in k v l : NoDup (map fst l) -> In (k, v) l -> oget k l = v.
Proof.
  induction l as [|[k' v'] r IH]; cbn [map fst In oget]; intros N I; [contradiction|]. inversion N as [|? ? N1 N2]; subst.
  destruct I as [I|I].
  - injection I as -> ->. rewrite val_eqb_refl. reflexivity.
  - rewrite val_eqb_neq; auto. intros ->. apply N1. apply in_map_iff. exists (k', v). auto.
Qed.
Lemma oget_out k l : (forall v, ~ In (k, v) l) -> oget k l = VNil.
Proof.
  induction l as [|[k' v'] r IH]; cbn [In oget]; intro N; [reflexivity|]. rewrite val_eqb_neq.
  - apply IH. intros v I. apply (N v). auto.
  - intros ->. apply (N v'). auto.
Qed.
Lemma oget_some k l : oget k l <> VNil -> In (k, oget k l) l.
Proof.
  induction l as [|[k' v'] r IH]; cbn [In oget]; intro N; [congruence|]. destruct (val_eqb k k') eqn:E; [apply val_eqb_eq in E; subst; auto|auto].
Qed.
Lemma odel_in k l : NoDup (map fst l) -> forall k' v, In (k', v) (odel k l) <-> In (k', v) l /\ k' <> k.
Proof.
  induction l as [|[k0 v0] r IH]; cbn [map fst In odel]; intros N k' v; [tauto|]. inversion N as [|? ? N1 N2]; subst.
  destruct (val_eqb k k0) eqn:E.
  - apply val_eqb_eq in E. subst k0. split.
    + intro I. split; [auto|]. intros ->. apply N1. apply in_map_iff. exists (k, v). auto.
    + intros [[I|I] D]; [injection I as -> ->; congruence|exact I].
  - cbn [In]. rewrite IH by exact N2. split.
    + intros [I|[I D]]; [|auto]. injection I as -> ->. split; [auto|]. intros ->. rewrite val_eqb_refl in E. discriminate.
    + intros [[I|I] D]; auto.
Qed.
Lemma odel_nodup k l : NoDup (map fst l) -> NoDup (map fst (odel k l)).
Proof.
  induction l as [|[k0 v0] r IH]; cbn [map fst odel]; intro N; [constructor|]. inversion N as [|? ? N1 N2]; subst.
  destruct (val_eqb k k0); [exact N2|]. cbn [map fst]. constructor; [|auto]. intro I. apply N1.
  apply in_map_iff in I. destruct I as ([k' v'] & Ek & I). cbn in Ek. subst k'. apply odel_in in I; [|exact N2].
  apply in_map_iff. exists (k0, v'). split; [reflexivity|apply I].
Qed.

Section Fields.
Variable s : vm.
Variable W : Z -> option Z.
Hypothesis SW : str_wf (v_strs s) (v_byhash s).
Hypothesis W1 : forall a b i, W a = Some i -> W b = Some i -> a = b.
Hypothesis WR : forall a i, W a = Some i -> 0 <= i < W31.

Lemma fields_get f l k kx : fields_ok s W f l -> key_ok k -> rep s W k kx -> rep s W (oget k l) (f kx).
Proof.
  intros F K R. destruct (val_dec (oget k l) VNil) as [E|E].
  - rewrite E. cbn [rep]. destruct (value_dec (f kx) vnil) as [->|N]; [reflexivity|].
    destruct (fo_out _ _ _ _ F kx (rep_ordinary s W SW k kx K R WR) N) as (k' & v & I & R').
    rewrite (rep_inj s W W1 _ _ _ R R') in E. rewrite (oget_in _ _ _ (fo_nodup _ _ _ _ F) I) in E.
    destruct (fo_in _ _ _ _ F _ _ I) as (_ & V & _). contradiction.
  - pose proof (oget_some _ _ E) as I. destruct (fo_in _ _ _ _ F _ _ I) as (_ & _ & kx' & R1 & R2).
    rewrite (rep_fun s W SW k kx kx' K R R1). exact R2.
Qed.

Lemma fields_set f f' l k kx v x : fields_ok s W f l -> key_ok k -> rep s W k kx -> rep s W v x ->
  (forall y, f' y = if key_eq y kx then (if v_type x =? T_NIL then vnil else x) else f y) ->
  fields_ok s W f' (oset k v l).
Proof.
  intros F K R Rv Ef. pose proof (rep_ordinary s W SW k kx K R WR) as Ok.
  assert (forall k' ky, key_ok k' -> rep s W k' ky -> key_eq ky kx = true <-> k' = k) as Eq.
  { intros k' ky K' R'. pose proof (rep_ordinary s W SW k' ky K' R' WR) as O'. split.
    - intro E. assert (ky = kx) as ->.
      { pose proof (rep_type _ _ _ _ R) as T1. pose proof (rep_type _ _ _ _ R') as T2.
        unfold key_eq in E. apply andb_prop in E. destruct E as [E1 E2]. apply Z.eqb_eq in E1.
        assert (v_type ky =? T_NIL = false) as N1 by (rewrite T2; destruct k'; try contradiction; reflexivity).
        assert (v_type ky =? T_FLOAT = false) as N2 by (rewrite T2; destruct k'; try contradiction; reflexivity).
        rewrite N1, N2 in E2. apply Z.eqb_eq in E2. destruct ky, kx; cbn in *; congruence. }
      apply (rep_inj s W W1 _ _ _ R' R).
    - intros ->. rewrite (rep_fun s W SW k ky kx K R' R). apply (key_eq_self s). exact Ok. }
  assert (v = VNil -> v_type x = T_NIL) as Vn by (intros ->; exact Rv).
  assert (v <> VNil -> v_type x =? T_NIL = false) as Vs.
  { intro N. rewrite (rep_type _ _ _ _ Rv). destruct v; try reflexivity. congruence. }
  assert (forall k' v', In (k', v') (odel k l) -> key_ok k' /\ v' <> VNil /\ exists ky, rep s W k' ky /\ rep s W v' (f' ky)) as Old.
  { intros k' v' I. apply odel_in in I; [|apply F]. destruct I as [I D]. destruct (fo_in _ _ _ _ F _ _ I) as (K' & V' & ky & R1 & R2).
    split; [exact K'|]. split; [exact V'|]. exists ky. split; [exact R1|]. rewrite Ef.
    destruct (key_eq ky kx) eqn:E; [|exact R2]. apply (Eq _ _ K' R1) in E. contradiction. }
  assert (forall ky, ordinary s ky -> key_eq ky kx = false -> f' ky <> vnil -> exists k' v', In (k', v') (odel k l) /\ rep s W k' ky) as Oth.
  { intros ky O E N. rewrite Ef, E in N. destruct (fo_out _ _ _ _ F ky O N) as (k' & v' & I & R'). exists k', v'. split; [|exact R'].
    apply odel_in; [apply F|]. split; [exact I|]. intros ->. destruct (fo_in _ _ _ _ F _ _ I) as (K' & _).
    pose proof (proj2 (Eq _ _ K' R') eq_refl). congruence. }
  assert (forall ky, key_eq ky kx = true -> ordinary s ky -> rep s W k ky) as Same.
  { intros ky E O. assert (ky = kx) as ->; [|exact R]. pose proof (rep_type _ _ _ _ R) as T1.
    unfold key_eq in E. apply andb_prop in E. destruct E as [E1 E2]. apply Z.eqb_eq in E1.
    assert (v_type ky =? T_NIL = false) as N1 by (rewrite E1, T1; destruct k; try contradiction; reflexivity).
    assert (v_type ky =? T_FLOAT = false) as N2 by (rewrite E1, T1; destruct k; try contradiction; reflexivity).
    rewrite N1, N2 in E2. apply Z.eqb_eq in E2. destruct ky, kx; cbn in *; congruence. }
  assert (v = VNil \/ v <> VNil) as [Ev|Ev] by (destruct v; auto; right; discriminate).
  - rewrite Ev. cbn [oset]. rewrite (Vn Ev) in Ef. change (T_NIL =? T_NIL) with true in Ef. cbv iota in Ef. split.
    + apply odel_nodup. apply F.
    + exact Old.
    + intros ky O N. apply Oth; auto. destruct (key_eq ky kx) eqn:E; auto. rewrite Ef, E in N. congruence.
  - assert (oset k v l = (k, v) :: odel k l) as -> by (destruct v; try reflexivity; congruence). split.
    + cbn [map fst]. constructor; [|apply odel_nodup; apply F]. intro I. apply in_map_iff in I. destruct I as ([k' v'] & Ek & I).
      cbn in Ek. subst k'. apply odel_in in I; [|apply F]. destruct I as [_ D]. congruence.
    + intros k' v' [I|I]; [|apply Old; exact I]. injection I as <- <-. split; [exact K|]. split; [exact Ev|]. exists kx. split; [exact R|].
      rewrite Ef, (key_eq_self s kx Ok), (Vs Ev). exact Rv.
    + intros ky O N. destruct (key_eq ky kx) eqn:E.
      * exists k, v. split; [left; reflexivity|]. apply Same; auto.
      * destruct (Oth ky O E N) as (k' & v' & I & R'). exists k', v'. split; [right; exact I|exact R'].
Qed.
End Fields.

Lemma ordinary_dec s v : ordinary s v \/ ~ ordinary s v.
Proof.
  unfold ordinary. destruct (Z.le_gt_cases 0 (v_data v)) as [A|A]; [|right; intros [? _]; lia].
  destruct (Z.lt_ge_cases (v_data v) W32) as [B|B]; [|right; intros [? _]; lia].
  destruct (Z.eq_dec (v_type v) T_INT); [left; auto|]. destruct (Z.eq_dec (v_type v) T_FUNC); [left; auto 6|].
  destruct (Z.eq_dec (v_type v) T_OBJ); [left; auto 8|]. destruct (Z.eq_dec (v_type v) T_NIL); [left; auto 8|].
  destruct (Z.eq_dec (v_type v) T_FLOAT) as [E|E].
  - destruct (f_dec (v_data v)) eqn:F; try (left; split; [auto|]; right; left; split; [exact E|congruence]).
    right. intros [_ [D|[[_ D]|[[D _]|[D|[D|D]]]]]]; first [congruence | rewrite E in D; discriminate D].
  - destruct (Z.eq_dec (v_type v) T_STRING) as [S|S].
    + destruct (get_str s (v_data v)) as [t|] eqn:G; [left; split; [auto|]; eauto 6|].
      right. intros [_ [D|[[D _]|[[_ [t D]]|[D|[D|D]]]]]]; first [congruence | rewrite E in D; discriminate D].
    + right. intros [_ [D|[[D _]|[[D _]|[D|[D|D]]]]]]; first [congruence | rewrite E in D; discriminate D].
Qed.

Lemma field_ordinary s o f k : obj_ok s o f -> 0 <= v_data k < W32 -> f k <> vnil -> ordinary s k.
Proof.
  intros O R N. destruct (ordinary_dec s k) as [D|D]; [exact D|]. destruct (N (oo_out _ _ _ O k R D)).
Qed.

Lemma fields_move s s' W W' f l : str_wf (v_strs s) (v_byhash s) -> fields_ok s W f l ->
  (forall kx k v, In (k, v) l -> rep s W k kx -> rep s W v (f kx) -> rep s' W' k kx /\ rep s' W' v (f kx)) ->
  (forall kx, ordinary s' kx -> f kx <> vnil -> ordinary s kx) -> fields_ok s' W' f l.
Proof.
  intros SW F M O. split.
  - apply F.
  - intros k v I. destruct (fo_in _ _ _ _ F _ _ I) as (K & V & kx & R1 & R2). split; [exact K|]. split; [exact V|].
    exists kx. apply (M kx k v I R1 R2).
  - intros kx D N. destruct (fo_out _ _ _ _ F kx (O kx D N) N) as (k & v & I & R). exists k, v. split; [exact I|].
    destruct (fo_in _ _ _ _ F _ _ I) as (K & V & ky & R1 & R2). rewrite (rep_fun s W SW k kx ky K R R1). apply (M ky k v I R1 R2).
Qed.

(** ** All of them *)

Lemma nth_error_firstn_lt {A} (l : list A) : forall n m, (n < m)%nat -> nth_error (firstn m l) n = nth_error l n.
Proof.
  induction l as [|a l IH]; intros n m B; [rewrite firstn_nil; reflexivity|]. destruct m; [lia|]. destruct n; [reflexivity|].
  cbn. apply IH. lia.
Qed.

Section World.
(** The string literals of the program. *)
Variable lit : Z -> option bytes.

Record world (s : vm) (W : Z -> option Z) (mm : memory) (H : list obj) : Prop := {
  wd_inv : obj_inv s mm;
  wd_one : forall a b i, W a = Some i -> W b = Some i -> a = b;
  wd_objs : forall a i, W a = Some i -> get_obj s i <> None /\ exists l, znth H a = Some l /\ fields_ok s W (mm i) l;
  wd_plain : forall i o, get_obj s i = Some o -> o_ext o = INVALID;
  wd_static : forall x, In x (v_static s) -> exists v, rep s W v x;
  wd_lit : forall i t, lit i = Some t -> exists e, get_str_entry s i = Some e /\ s_keep e = true /\ s_str e = t
}.

Lemma world_range s W mm H a i : world s W mm H -> W a = Some i -> 0 <= i < W31.
Proof.
  intros D E. destruct (wd_objs _ _ _ _ D _ _ E) as (G & _). destruct (get_obj s i) as [o|] eqn:Eo; [|congruence].
  apply (obj_range _ _ _ (oi_tab _ _ (wd_inv _ _ _ _ D)) Eo).
Qed.

Lemma world_get s W mm H a i l k kx : world s W mm H -> W a = Some i -> znth H a = Some l -> key_ok k -> rep s W k kx ->
  ordinary s kx /\ rep s W (oget k l) (mm i kx).
Proof.
  intros D E Hl K R. destruct (wd_objs _ _ _ _ D _ _ E) as (_ & l' & Hl' & F). rewrite Hl in Hl'. injection Hl' as <-.
  pose proof (oi_str _ _ (wd_inv _ _ _ _ D)) as SW. pose proof (fun a i => world_range s W mm H a i D) as WR.
  split; [apply (rep_ordinary s W SW k kx K R WR)|]. apply (fields_get s W SW (wd_one _ _ _ _ D) WR _ _ _ _ F K R).
Qed.

(** The values an object holds. *)
Lemma entry_field s mm i o kx x : obj_inv s mm -> get_obj s i = Some o -> In (kx, x) (concat (o_buckets o)) ->
  ordinary s kx /\ mm i kx = x /\ v_type x <> T_NIL.
Proof.
  intros I G J. pose proof (oi_objs _ _ I _ _ G) as Ok. apply in_concat in J. destruct J as (c & Jc & J).
  apply In_znth in Jc. destruct Jc as (b & Hb). destruct (oo_keys _ _ _ Ok _ _ Hb) as (K1 & K2 & K3 & K4).
  unfold keys_ok in K1. rewrite Forall_forall in K1, K3, K4. pose proof (K1 _ J) as O1. cbn in O1.
  split; [exact O1|]. split; [|apply (K4 _ J)]. rewrite (oo_look _ _ _ Ok kx O1). pose proof (K3 _ J) as Eb. cbn in Eb. rewrite Eb.
  unfold bucket_of. rewrite Hb. assert (alook kx c = Some x) as ->; [|reflexivity].
  clear - K2 J K1. induction c as [|[k v] r IH]; [contradiction|]. cbn [kdistinct alook] in *. destruct K2 as [N D]. destruct J as [J|J].
  - injection J as -> ->. rewrite (key_eq_self s); [reflexivity|]. apply (K1 (kx, x)). left. reflexivity.
  - destruct (key_eq kx k) eqn:E.
    + exfalso. rewrite alook_none_forall, Forall_forall in N. pose proof (N _ J) as Q. cbn in Q.
      rewrite (key_eq_sym k kx) in Q; [congruence| |].
      * apply (ordinary_not_nan s). apply (K1 (k, v)). left. reflexivity.
      * apply (ordinary_not_nan s). apply (K1 (kx, x)). right. exact J.
    + apply IH; auto. intros y Hy. apply K1. right. exact Hy.
Qed.

Lemma entry_rep s W mm H a i o kx x : world s W mm H -> W a = Some i -> get_obj s i = Some o -> In (kx, x) (concat (o_buckets o)) ->
  exists l k v, znth H a = Some l /\ In (k, v) l /\ rep s W k kx /\ rep s W v x.
Proof.
  intros D E G J. destruct (entry_field _ _ _ _ _ _ (wd_inv _ _ _ _ D) G J) as (O & F & N).
  destruct (wd_objs _ _ _ _ D _ _ E) as (_ & l & Hl & Fo).
  destruct (fo_out _ _ _ _ Fo kx O) as (k & v & I & R); [rewrite F; intros ->; apply N; reflexivity|].
  exists l, k, v. split; [exact Hl|]. split; [exact I|]. split; [exact R|].
  destruct (fo_in _ _ _ _ Fo _ _ I) as (K & V & ky & R1 & R2).
  rewrite <- F. rewrite (rep_fun s W (oi_str _ _ (wd_inv _ _ _ _ D)) k kx ky K R R1). exact R2.
Qed.

(** How many fields there are. *)
Lemma world_size s W mm H a i l o : world s W mm H -> W a = Some i -> znth H a = Some l -> get_obj s i = Some o -> o_size o = zlen l.
Proof.
  intros D E Hl G. pose proof (wd_inv _ _ _ _ D) as I. pose proof (oi_str _ _ I) as SW. pose proof (oi_objs _ _ I _ _ G) as Ok.
  destruct (wd_objs _ _ _ _ D _ _ E) as (_ & l' & Hl' & F). rewrite Hl in Hl'. injection Hl' as <-.
  rewrite (oo_size _ _ _ Ok).
  destruct (kdistinct_concat s (o_buckets o) SW 0) as (Kd & Ko & _).
  { intros b c Hb. destruct (oo_keys _ _ _ Ok _ _ Hb) as (K1 & K2 & K3 & _). auto. }
  fold (entries o) in Kd, Ko.
  assert (NoDup (map fst (entries o))) as N1.
  { apply NoDup_nth_error. intros p q Hp Eq.
    destruct (nth_error (map fst (entries o)) p) as [x|] eqn:E1; [|apply nth_error_None in E1; lia].
    assert (znth (map fst (entries o)) (Z.of_nat p) = Some x) as Z1 by (rewrite znth_def; destruct (Z.ltb_spec (Z.of_nat p) 0); [lia|]; rewrite Nat2Z.id; exact E1).
    assert (znth (map fst (entries o)) (Z.of_nat q) = Some x) as Z2 by (rewrite znth_def; destruct (Z.ltb_spec (Z.of_nat q) 0); [lia|]; rewrite Nat2Z.id; congruence).
    enough (Z.of_nat p = Z.of_nat q) by lia.
    apply (kdistinct_index s _ Ko Kd _ _ x x Z1 Z2). apply (key_eq_self s).
    apply keys_ok_map in Ko. rewrite Forall_forall in Ko. apply Ko. apply (nth_error_In _ _ E1). }
  assert (exists lx, Forall2 (fun kv kx => rep s W (fst kv) kx /\ ordinary s kx /\ mm i kx <> vnil) l lx) as (lx & L2).
  { pose proof (fo_in _ _ _ _ F) as Fi. clear - Fi D SW. induction l as [|[k v] r IH]; [exists []; constructor|].
    destruct IH as (lx & L2); [intros k' v' J; apply Fi; right; exact J|].
    destruct (Fi k v (or_introl eq_refl)) as (K & V & kx & R1 & R2). exists (kx :: lx). constructor; [|exact L2]. cbn [fst].
    split; [exact R1|]. split; [apply (rep_ordinary s W SW k kx K R1); intros b j; apply (world_range s W mm H b j D)|].
    intro Q. rewrite Q in R2. apply (rep_inj s W (wd_one _ _ _ _ D) v VNil vnil) in R2; [contradiction|reflexivity]. }
  assert (NoDup lx) as N2.
  { pose proof (fo_nodup _ _ _ _ F) as Nl. pose proof (wd_one _ _ _ _ D) as One. clear - Nl L2 One. revert lx L2 Nl. induction l as [|[k v] r IH]; intros lx L2 Nl; inversion L2 as [|? kx ? lr (R & _) L3]; subst; [constructor|].
    cbn [map fst] in Nl. inversion Nl as [|? ? N1 N2]; subst. constructor; [|apply IH; auto]. intro J. apply N1.
    clear - J L3 R One. induction L3 as [|[k' v'] ky r lr (R' & _) L3 IH]; [contradiction|]. destruct J as [->|J].
    - left. cbn [fst] in *. apply (rep_inj s W One _ _ _ R' R).
    - right. apply IH. exact J. }
  assert (incl lx (map fst (entries o))) as I1.
  { intros kx J. assert (ordinary s kx /\ mm i kx <> vnil) as (O & N).
    { clear - J L2. induction L2 as [|? ? ? ? (_ & A & B) ? IH]; [contradiction|]. destruct J as [->|J]; auto. }
    rewrite (oo_look _ _ _ Ok kx O) in N. destruct (alook kx (bucket_of o (key_bucket s kx))) as [x|] eqn:Ea; [|congruence].
    pose proof (bucket_of_ok _ _ _ _ Ok (key_bucket_range s kx)) as Hb.
    assert (exists k, In (k, x) (bucket_of o (key_bucket s kx)) /\ key_eq kx k = true) as (k & Jk & Ek).
    { clear - Ea. induction (bucket_of o (key_bucket s kx)) as [|[k v] r IH]; [discriminate|]. cbn [alook] in Ea. destruct (key_eq kx k) eqn:Ek.
      - injection Ea as ->. exists k. split; [left; reflexivity|exact Ek].
      - destruct (IH Ea) as (k' & A & B). exists k'. split; [right; exact A|exact B]. }
    assert (In (k, x) (entries o)) as Jo by (unfold entries; apply in_concat; eexists; split; [apply In_znth; eexists; exact Hb|exact Jk]).
    assert (kx = k) as ->.
    { destruct (entry_rep _ _ _ _ _ _ _ _ _ D E G Jo) as (l' & k' & v' & Hl' & Jl & Rk & _).
      assert (exists kv, In kv l /\ rep s W (fst kv) kx) as ([k2 v2] & J2 & R2).
      { clear - J L2. induction L2 as [|kv ky ? ? (A & _) ? IH]; [contradiction|]. destruct J as [->|J].
        - exists kv. split; [left; reflexivity|exact A].
        - destruct (IH J) as (kv' & X & Y). exists kv'. split; [right; exact X|exact Y]. }
      cbn [fst] in R2. destruct (fo_in _ _ _ _ F _ _ J2) as (K2 & _).
      pose proof (rep_type _ _ _ _ R2) as T2. unfold key_eq in Ek. apply andb_prop in Ek. destruct Ek as [E1 E2]. apply Z.eqb_eq in E1.
      assert (v_type kx =? T_NIL = false) as Q1 by (rewrite T2; destruct k2; try contradiction; reflexivity).
      assert (v_type kx =? T_FLOAT = false) as Q2 by (rewrite T2; destruct k2; try contradiction; reflexivity).
      rewrite Q1, Q2 in E2. apply Z.eqb_eq in E2. destruct kx, k; cbn in *; congruence. }
    apply in_map_iff. exists (k, x). auto. }
  assert (incl (map fst (entries o)) lx) as I2.
  { intros kx J. apply in_map_iff in J. destruct J as ([k x] & Ek & J). cbn in Ek. subst k.
    destruct (entry_rep _ _ _ _ _ _ _ _ _ D E G J) as (l' & k' & v' & Hl' & Jl & Rk & _). rewrite Hl in Hl'. injection Hl' as <-.
    destruct (fo_in _ _ _ _ F _ _ Jl) as (K & _).
    assert (exists ky, In ky lx /\ rep s W k' ky) as (ky & Jy & Ry).
    { clear - Jl L2. induction L2 as [|kv ky ? ? (A & _) ? IH]; [contradiction|]. destruct Jl as [->|J].
      - exists ky. split; [left; reflexivity|exact A].
      - destruct (IH J) as (kv' & X & Y). exists kv'. split; [right; exact X|exact Y]. }
    rewrite (rep_fun s W SW k' kx ky K Rk Ry). exact Jy. }
  pose proof (NoDup_incl_length N1 I2) as L3. pose proof (NoDup_incl_length N2 I1) as L4.
  rewrite map_length in L3, L4. assert (length l = length lx) as L5 by (clear - L2; induction L2; cbn [length]; congruence). unfold zlen. lia.
Qed.

(** ** Changes *)

Lemma world_same s s' W mm H : world s W mm H -> v_strs s' = v_strs s -> v_byhash s' = v_byhash s -> v_objs s' = v_objs s ->
  live_ctx s' (v_cur s') -> (forall x, In x (v_static s') -> exists v, rep s W v x) -> world s' W mm H.
Proof.
  intros D E1 E2 E3 Lv St. destruct (wd_inv _ _ _ _ D) as [I1 I2 I3 I4].
  assert (forall i, get_str_entry s' i = get_str_entry s i) as Ge by (intro; unfold get_str_entry; rewrite E1; reflexivity).
  assert (forall i, get_str s' i = get_str s i) as Gs by (intro; unfold get_str; rewrite Ge; reflexivity).
  assert (forall i, get_obj s' i = get_obj s i) as Go by (intro; unfold get_obj; rewrite E3; reflexivity).
  assert (forall v x, rep s W v x -> rep s' W v x) as Rm by (intros v x; apply rep_mono; auto; intros; rewrite Gs; auto).
  assert (forall k, ordinary s' k -> ordinary s k) as Om by (intro k; unfold ordinary; rewrite Gs; auto).
  split.
  - split; [rewrite E1, E2; exact I1|rewrite E3; exact I2|exact Lv|].
    intros i o G. rewrite Go in G. apply (obj_ok_same s s'); [intro k; unfold ordinary; rewrite Gs; auto| |apply I4; exact G].
    intros k _. unfold key_bucket, value_hash. rewrite Ge. reflexivity.
  - apply (wd_one _ _ _ _ D).
  - intros a i E. rewrite Go. destruct (wd_objs _ _ _ _ D _ _ E) as (G & l & Hl & F). split; [exact G|]. exists l. split; [exact Hl|].
    apply (fields_move s s' W W _ _ I1 F); auto.
  - intros i o G. rewrite Go in G. apply (wd_plain _ _ _ _ D _ _ G).
  - intros x J. destruct (St x J) as (v & R). exists v. auto.
  - intros i t L. rewrite Ge. apply (wd_lit _ _ _ _ D _ _ L).
Qed.

Lemma world_more s s' W mm H : world s W mm H -> more_strings s s' -> str_wf (v_strs s') (v_byhash s') -> world s' W mm H.
Proof.
  intros D ((t & bh & Es) & Ge) SW'. destruct (wd_inv _ _ _ _ D) as [I1 I2 I3 I4].
  assert (forall i t0, get_str s i = Some t0 -> get_str s' i = Some t0) as Gs.
  { intros i t0 G. destruct (get_str_entry_of s i t0 G) as (e & E1 & E2). unfold get_str. rewrite (Ge _ _ E1). congruence. }
  assert (v_objs s' = v_objs s) as Eo by (rewrite Es; reflexivity).
  assert (forall i, get_obj s' i = get_obj s i) as Go by (intro; unfold get_obj; rewrite Eo; reflexivity).
  assert (forall v x, rep s W v x -> rep s' W v x) as Rm by (intros v x; apply rep_mono; auto).
  destruct (same_strs s s' Ge) as (Om & Kb).
  split.
  - split; [exact SW'|rewrite Eo; exact I2|rewrite Es; exact I3|].
    intros i o G. rewrite Go in G. apply (obj_ok_same s s'); auto.
  - apply (wd_one _ _ _ _ D).
  - intros a i E. rewrite Go. destruct (wd_objs _ _ _ _ D _ _ E) as (G & l & Hl & F). split; [exact G|]. exists l. split; [exact Hl|].
    destruct (get_obj s i) as [o|] eqn:Eg; [|congruence].
    apply (fields_move s s' W W _ _ I1 F); auto. intros kx [R _] N. apply (field_ordinary s o (mm i) kx (I4 _ _ Eg) R N).
  - intros i o G. rewrite Go in G. apply (wd_plain _ _ _ _ D _ _ G).
  - intros x J. assert (In x (v_static s)) as J' by (rewrite Es in J; exact J). destruct (wd_static _ _ _ _ D x J') as (v & R). exists v. auto.
  - intros i t0 L. destruct (wd_lit _ _ _ _ D _ _ L) as (e & E1 & E2). exists e. split; [apply Ge; exact E1|exact E2].
Qed.

Lemma world_create s W mm H i tb n : world s W mm H -> get_obj s i = None ->
  (forall j, tab_get tb j = if j =? i then Some (new_obj i) else get_obj s j) ->
  obj_inv (set_newcount n (set_objs tb s)) (fun o k => if o =? i then vnil else mm o k) ->
  let W' a := if a =? zlen H then Some i else W a in
  world (set_newcount n (set_objs tb s)) W' (fun o k => if o =? i then vnil else mm o k) (H ++ [[]]) /\
  forall v x, rep s W v x -> rep (set_newcount n (set_objs tb s)) W' v x.
Proof.
  intros D Fr Gt I' W'. set (s' := set_newcount n (set_objs tb s)) in *.
  assert (forall a j, W a = Some j -> W' a = Some j) as WW.
  { intros a j E. unfold W'. destruct (Z.eqb_spec a (zlen H)) as [->|]; [|exact E].
    destruct (wd_objs _ _ _ _ D _ _ E) as (_ & l & Hl & _). pose proof (znth_some_range _ _ _ Hl). lia. }
  assert (forall a j, W a = Some j -> j <> i) as Wi.
  { intros a j E ->. destruct (wd_objs _ _ _ _ D _ _ E) as (G & _). congruence. }
  assert (forall v x, rep s W v x -> rep s' W' v x) as Rm by (intros v x; apply rep_mono; auto).
  split; [|exact Rm].
  assert (forall j, get_obj s' j = if j =? i then Some (new_obj i) else get_obj s j) as Go by (intro j; unfold get_obj at 1, s'; vs; apply Gt).
  split.
  - exact I'.
  - intros a b j A B. unfold W' in A, B. destruct (Z.eqb_spec a (zlen H)), (Z.eqb_spec b (zlen H)).
    + congruence.
    + injection A as <-. destruct (Wi _ _ B eq_refl).
    + injection B as <-. destruct (Wi _ _ A eq_refl).
    + apply (wd_one _ _ _ _ D a b j A B).
  - intros a j A. unfold W' in A. destruct (Z.eqb_spec a (zlen H)) as [->|Na].
    + injection A as <-. rewrite Go, Z.eqb_refl. split; [discriminate|]. exists []. split.
      * rewrite znth_app_r by lia. rewrite Z.sub_diag. reflexivity.
      * split; [constructor|intros k v []|intros kx _ N; congruence].
    + rewrite Go. pose proof (Wi _ _ A) as Nj. apply Z.eqb_neq in Nj. rewrite Nj.
      destruct (wd_objs _ _ _ _ D _ _ A) as (G & l & Hl & F). split; [exact G|]. exists l. split.
      * rewrite znth_app_l; [exact Hl|]. apply znth_some_range in Hl. lia.
      * apply (fields_move s s' W W' _ _ (oi_str _ _ (wd_inv _ _ _ _ D)) F); auto.
  - intros j o G. rewrite Go in G. destruct (j =? i); [injection G as <-; reflexivity|apply (wd_plain _ _ _ _ D _ _ G)].
  - intros x J. destruct (wd_static _ _ _ _ D x J) as (v & R). exists v. auto.
  - apply (wd_lit _ _ _ _ D).
Qed.

Lemma world_write s W mm H a i l tb k kx v x : world s W mm H -> W a = Some i -> znth H a = Some l ->
  key_ok k -> rep s W k kx -> rep s W v x ->
  obj_inv (set_objs tb s) (mem_write mm i kx (if v_type x =? T_NIL then vnil else x)) ->
  (forall j, get_obj s j <> None -> tab_get tb j <> None) ->
  (forall j o, tab_get tb j = Some o -> o_ext o = INVALID) ->
  world (set_objs tb s) W (mem_write mm i kx (if v_type x =? T_NIL then vnil else x)) (zupd H a (oset k v l)) /\
  forall v x, rep s W v x -> rep (set_objs tb s) W v x.
Proof.
  intros D E Hl K R Rv I' Go Pl. set (s' := set_objs tb s) in *.
  assert (forall v x, rep s W v x -> rep s' W v x) as Rm by (intros w y; apply rep_mono; auto).
  split; [|exact Rm]. split.
  - exact I'.
  - apply (wd_one _ _ _ _ D).
  - intros b j A. destruct (wd_objs _ _ _ _ D _ _ A) as (G & lb & Hb & F). split; [unfold get_obj, s'; vs; apply Go; exact G|].
    pose proof (oi_str _ _ (wd_inv _ _ _ _ D)) as SW. pose proof (fun a i => world_range s W mm H a i D) as WR.
    destruct (Z.eq_dec a b) as [<-|N].
    + rewrite E in A. injection A as <-. rewrite Hl in Hb. injection Hb as <-. exists (oset k v l). split.
      * apply znth_zupd_same. apply (znth_some_range _ _ _ Hl).
      * apply (fields_move s s' W W _ _ SW); auto.
        apply (fields_set s W SW (wd_one _ _ _ _ D) WR (mm i) _ l k kx v x F K R Rv). intro y. unfold mem_write. rewrite Z.eqb_refl. reflexivity.
    + exists lb. split; [rewrite znth_zupd_other by exact N; exact Hb|].
      assert (j =? i = false) as Nj.
      { apply Z.eqb_neq. intros ->. apply N. apply (wd_one _ _ _ _ D a b i E A). }
      unfold mem_write. rewrite Nj. cbn [andb]. apply (fields_move s s' W W _ _ SW F); auto.
  - intros j o G. apply (Pl j o). exact G.
  - intros y J. destruct (wd_static _ _ _ _ D y J) as (w & Rw). exists w. auto.
  - apply (wd_lit _ _ _ _ D).
Qed.

(** ** Collections *)

Section Collect.
Variable hm : Z -> Z -> option Z -> list value.
Variable s s' : vm.
Variable W : Z -> option Z.
Variable mm : memory.
Variable H : list obj.
Variable l : list value.
Hypothesis D : world s W mm H.
Hypothesis Wf : wf true 0 s.
Hypothesis Wf' : wf true 0 s'.
Hypothesis Cur : v_cur s = 0.
Hypothesis Hl : v_hlist s = [].
Hypothesis Stk : stack_is s l.
Hypothesis Reps : forall x, In x l -> exists v, rep s W v x.
Hypothesis Col : collected hm s s'.

Lemma reach_rep x : reach hm s x -> exists v, rep s W v x.
Proof.
  induction 1 as [c x Hc (n & Rn & Hn)|c Hc|x J|i o G Hn|i o x _ (v & Rv) G Rf].
  - apply Reps. destruct Stk as (c' & Hc' & Wk & Ck). rewrite Cur in Hc'. rewrite Hc in Hc'. injection Hc' as <-.
    rewrite <- Ck. apply In_znth. exists n. unfold contents. rewrite znth_def in Hn |- *. destruct (Z.ltb_spec n 0); [lia|].
    rewrite nth_error_firstn_lt; [exact Hn|]. lia.
  - rewrite Cur in Hc. rewrite (w_root _ _ _ Wf _ Hc). exists VNil. reflexivity.
  - apply (wd_static _ _ _ _ D _ J).
  - assert (In i (v_hlist s)) as J by (apply (w_hlist _ _ _ Wf); eauto). rewrite Hl in J. destruct J.
  - destruct (rep_vobj _ _ _ _ Rv) as (a & -> & Ea). pose proof (wd_plain _ _ _ _ D _ _ G) as Px.
    pose proof (proj1 (w_corotype _ _ _ Wf)) as Nc.
    destruct Rf as [k w J|k w J|j c q pc X|j c w X|et w X1 X2]; try congruence.
    + destruct (entry_rep _ _ _ _ _ _ _ _ _ D Ea G J) as (_ & k' & v' & _ & _ & R & _). eauto.
    + destruct (entry_rep _ _ _ _ _ _ _ _ _ D Ea G J) as (_ & k' & v' & _ & _ & _ & R). eauto.
Qed.

Lemma collect_quiet : v_errs s' = v_errs s.
Proof.
  apply (cl_quiet _ _ _ Col).
  - intros x R. destruct (reach_rep x R) as (v & Rv). pose proof (rep_type _ _ _ _ Rv) as T. split; intro T'; rewrite T' in T.
    + destruct v; try discriminate T. destruct Rv as [_ G]. destruct (get_str_entry_of s _ _ G) as (e & E & _). congruence.
    + destruct v; try discriminate T. destruct Rv as (i & E & ->). apply (wd_objs _ _ _ _ D _ _ E).
  - intros i o G. left. apply (wd_plain _ _ _ _ D _ _ G).
Qed.

Lemma collect_ctxs : v_ctxs s' = v_ctxs s.
Proof.
  apply list_ext_znth. intro j. destruct (cl_ctx _ _ _ Col j) as [E|(_ & i & o & G & _ & X & _)]; [exact E|].
  pose proof (wd_plain _ _ _ _ D _ _ G) as Px. pose proof (proj1 (w_corotype _ _ _ Wf)). congruence.
Qed.
Lemma collect_static : v_static s' = v_static s.
Proof. destruct (cl_frame _ _ _ Col) as (es & p & t & u & h & cs & ca & ->). reflexivity. Qed.
Lemma collect_cur : v_cur s' = v_cur s.
Proof. destruct (cl_frame _ _ _ Col) as (es & p & t & u & h & cs & ca & ->). reflexivity. Qed.

Definition alive (a : Z) : option Z :=
  match W a with Some i => match get_obj s' i with Some _ => Some i | None => None end | None => None end.

Lemma alive_some a i : alive a = Some i <-> W a = Some i /\ reach hm s (vobj i).
Proof.
  unfold alive. split.
  - destruct (W a) as [j|] eqn:E; [|discriminate]. destruct (get_obj s' j) as [o|] eqn:G; [|discriminate]. intro X. injection X as <-.
    split; [reflexivity|]. destruct (wd_objs _ _ _ _ D _ _ E) as (N & _). destruct (cl_obj_known _ _ _ Col j N) as [R|R]; [exact R|].
    destruct (get_obj s j) as [o'|] eqn:G'; [|congruence]. rewrite (cl_obj_free _ _ _ Col _ _ G' R) in G. discriminate.
  - intros [E R]. rewrite E. destruct (wd_objs _ _ _ _ D _ _ E) as (N & _). destruct (get_obj s i) as [o'|] eqn:G'; [|congruence].
    destruct (cl_obj_keep _ _ _ Col _ _ G' R) as (g & ->). reflexivity.
Qed.

Lemma collect_str i t : get_str s i = Some t -> reach hm s (vstr i) -> get_str s' i = Some t.
Proof.
  intros G R. destruct (get_str_entry_of s i t G) as (e & E & <-).
  destruct (cl_str_keep _ _ _ Col _ _ E (or_introl R)) as (g & E'). unfold get_str. rewrite E'. reflexivity.
Qed.

Lemma collect_rep v x : reach hm s x -> rep s W v x -> rep s' alive v x.
Proof.
  intros R Rv. destruct v; cbn [rep] in *; auto.
  - destruct Rv as [T G]. split; [exact T|]. apply collect_str; [exact G|]. destruct x as [ty d]; cbn [v_type v_data] in *. subst ty. exact R.
  - destruct Rv as (i & E & ->). exists i. split; [|reflexivity]. apply alive_some. auto.
Qed.

Lemma str_back i e' : get_str_entry s' i = Some e' -> exists e g, get_str_entry s i = Some e /\ e' = set_s_gc g e /\ (reach hm s (vstr i) \/ s_keep e = true).
Proof.
  intro E'. destruct (get_str_entry s i) as [e|] eqn:E; [|rewrite (cl_str_none _ _ _ Col _ E) in E'; discriminate].
  exists e. assert (reach hm s (vstr i) \/ s_keep e = true) as K.
  { destruct (cl_str_known _ _ _ Col i) as [R|R]; [congruence|auto|]. destruct (s_keep e) eqn:K; [auto|].
    rewrite (cl_str_free _ _ _ Col _ _ E R K) in E'. discriminate. }
  destruct (cl_str_keep _ _ _ Col _ _ E K) as (g & E2). rewrite E2 in E'. injection E' as <-. eauto.
Qed.

Lemma collect_ordinary k : ordinary s' k -> ordinary s k.
Proof.
  intros [R T]. split; [exact R|]. destruct T as [T|[T|[[T (t & G)]|T]]]; auto. right. right. left. split; [exact T|].
  destruct (get_str_entry_of s' _ _ G) as (e & E & <-). destruct (str_back _ _ E) as (e0 & g & E0 & -> & _).
  unfold get_str. rewrite E0. eauto.
Qed.
Lemma collect_bucket k : ordinary s' k -> key_bucket s' k = key_bucket s k.
Proof.
  intros [R T]. unfold key_bucket, value_hash. destruct (Z.eqb_spec (v_type k) T_STRING) as [S|S].
  - destruct T as [T|[[T _]|[[_ (t & G)]|[T|[T|T]]]]]; try (rewrite S in T; discriminate T).
    destruct (get_str_entry_of s' _ _ G) as (e & E & _). destruct (str_back _ _ E) as (e0 & g & E0 & -> & _). rewrite E, E0. reflexivity.
  - reflexivity.
Qed.

Lemma obj_back i o' : get_obj s' i = Some o' -> exists o g, get_obj s i = Some o /\ o' = set_o_gc g o /\ reach hm s (vobj i).
Proof.
  intro G'. destruct (get_obj s i) as [o|] eqn:G; [|rewrite (cl_obj_none _ _ _ Col _ G) in G'; discriminate].
  destruct (cl_obj_known _ _ _ Col i) as [R|R]; [congruence| |rewrite (cl_obj_free _ _ _ Col _ _ G R) in G'; discriminate].
  destruct (cl_obj_keep _ _ _ Col _ _ G R) as (g & E). rewrite E in G'. injection G' as <-. eauto 6.
Qed.

Lemma key_reach_ordinary k : reach hm s k -> ordinary s k -> ordinary s' k.
Proof.
  intros R [B T]. split; [exact B|]. destruct T as [T|[T|[[T (t & G)]|T]]]; auto. right. right. left. split; [exact T|].
  exists t. apply collect_str; [exact G|]. destruct k as [ty d]; cbn [v_type v_data] in *. subst ty. exact R.
Qed.

Lemma collect_inv : obj_inv s' mm.
Proof.
  pose proof (wd_inv _ _ _ _ D) as I. split.
  - apply (w_str _ _ _ Wf').
  - apply (w_tab _ _ _ Wf').
  - destruct Stk as (c & Hc & _). exists c. rewrite collect_ctxs, collect_cur. exact Hc.
  - intros i o' G'. destruct (obj_back _ _ G') as (o & g & G & -> & R). pose proof (oi_objs _ _ I _ _ G) as Ok.
    assert (forall b c kx x, znth (o_buckets o) b = Some c -> In (kx, x) c -> ordinary s kx /\ reach hm s kx) as Kr.
    { intros b c kx x Hb J. assert (In (kx, x) (concat (o_buckets o))) as J' by (apply in_concat; eexists; split; [apply In_znth; eexists; exact Hb|exact J]).
      split; [apply (entry_field _ _ _ _ _ _ I G J')|]. apply (rc_ref _ _ i o _ R G). apply (rf_key _ _ _ _ _ J'). }
    split.
    + apply (oo_len _ _ _ Ok).
    + intros b c Hb. change (znth (o_buckets o) b = Some c) in Hb. destruct (oo_keys _ _ _ Ok _ _ Hb) as (K1 & K2 & K3 & K4).
      split; [|split; [exact K2|split; [|exact K4]]].
      * unfold keys_ok. rewrite Forall_forall. intros [kx x] J. cbn [fst]. destruct (Kr _ _ _ _ Hb J). apply key_reach_ordinary; auto.
      * rewrite Forall_forall in K3 |- *. intros [kx x] J. cbn [fst]. rewrite collect_bucket; [apply (K3 _ J)|].
        destruct (Kr _ _ _ _ Hb J). apply key_reach_ordinary; auto.
    + intros k O'. rewrite (oo_look _ _ _ Ok k (collect_ordinary _ O')), (collect_bucket _ O'). reflexivity.
    + apply (oo_size _ _ _ Ok).
    + apply (oo_max _ _ _ Ok).
    + intros k B N. destruct (ordinary_dec s k) as [O|O]; [|apply (oo_out _ _ _ Ok k B O)].
      rewrite (oo_look _ _ _ Ok k O). destruct (alook k (bucket_of o (key_bucket s k))) as [x|] eqn:Ea; [|reflexivity]. exfalso. apply N.
      pose proof (bucket_of_ok _ _ _ _ Ok (key_bucket_range s k)) as Hb.
      assert (exists k', In (k', x) (bucket_of o (key_bucket s k)) /\ key_eq k k' = true) as (k' & Jk & Ek).
      { clear - Ea. induction (bucket_of o (key_bucket s k)) as [|[k1 v] r IH]; [discriminate|]. cbn [alook] in Ea. destruct (key_eq k k1) eqn:Ek.
        - injection Ea as ->. exists k1. split; [left; reflexivity|exact Ek].
        - destruct (IH Ea) as (k' & A & B). exists k'. split; [right; exact A|exact B]. }
      destruct (Kr _ _ _ _ Hb Jk) as (O1 & R1). apply (key_eq_ordinary s' k k' B); [|exact Ek]. apply key_reach_ordinary; auto.
Qed.

Lemma world_collect : world s' alive mm H.
Proof.
  pose proof (wd_inv _ _ _ _ D) as I. split.
  - exact collect_inv.
  - intros a b i A B. apply alive_some in A, B. apply (wd_one _ _ _ _ D a b i); [apply A|apply B].
  - intros a i A. apply alive_some in A. destruct A as [A R]. destruct (wd_objs _ _ _ _ D _ _ A) as (N & l0 & Hl0 & F).
    destruct (get_obj s i) as [o|] eqn:G; [|congruence]. split; [destruct (cl_obj_keep _ _ _ Col _ _ G R) as (g & ->); discriminate|].
    exists l0. split; [exact Hl0|]. apply (fields_move s s' W alive _ _ (oi_str _ _ I) F).
    + intros kx k v J Rk Rv. destruct (fo_in _ _ _ _ F _ _ J) as (K & V & _).
      assert (ordinary s kx) as O by (apply (rep_ordinary s W (oi_str _ _ I) k kx K Rk); intros b j; apply (world_range s W mm H b j D)).
      assert (exists k', In (k', mm i kx) (concat (o_buckets o)) /\ key_eq kx k' = true) as (k' & J' & Ek).
      { pose proof (oi_objs _ _ I _ _ G) as Ok.
        rewrite (oo_look _ _ _ Ok kx O). pose proof (bucket_of_ok _ _ _ _ Ok (key_bucket_range s kx)) as Hb.
        destruct (alook kx (bucket_of o (key_bucket s kx))) as [x|] eqn:Ea.
        - assert (exists k', In (k', x) (bucket_of o (key_bucket s kx)) /\ key_eq kx k' = true) as (k' & Jk & Ek).
          { clear - Ea. induction (bucket_of o (key_bucket s kx)) as [|[k1 v] r IH]; [discriminate|]. cbn [alook] in Ea. destruct (key_eq kx k1) eqn:Ek.
            - injection Ea as ->. exists k1. split; [left; reflexivity|exact Ek].
            - destruct (IH Ea) as (k' & A1 & B1). exists k'. split; [right; exact A1|exact B1]. }
          exists k'. split; [|exact Ek]. apply in_concat. eexists. split; [apply In_znth; eexists; exact Hb|exact Jk].
        - exfalso. assert (mm i kx = vnil) as Q by (rewrite (oo_look _ _ _ Ok kx O), Ea; reflexivity).
          rewrite Q in Rv. apply V. apply (rep_inj s W (wd_one _ _ _ _ D) v VNil vnil Rv). reflexivity. }
      assert (kx = k') as <-.
      { pose proof (rep_type _ _ _ _ Rk) as T2. unfold key_eq in Ek. apply andb_prop in Ek. destruct Ek as [E1 E2]. apply Z.eqb_eq in E1.
        assert (v_type kx =? T_NIL = false) as Q1 by (rewrite T2; destruct k; try contradiction; reflexivity).
        assert (v_type kx =? T_FLOAT = false) as Q2 by (rewrite T2; destruct k; try contradiction; reflexivity).
        rewrite Q1, Q2 in E2. apply Z.eqb_eq in E2. destruct kx, k'; cbn in *; congruence. }
      split; apply collect_rep; auto; apply (rc_ref _ _ i o _ R G); [apply (rf_key _ _ _ _ _ J')|apply (rf_val _ _ _ _ _ J')].
    + intros kx O' _. apply collect_ordinary. exact O'.
  - intros i o' G'. destruct (obj_back _ _ G') as (o & g & G & -> & _). apply (wd_plain _ _ _ _ D _ _ G).
  - intros x J. rewrite collect_static in J. destruct (wd_static _ _ _ _ D x J) as (v & R). exists v.
    apply collect_rep; [|exact R]. apply rc_static. exact J.
  - intros i t L. destruct (wd_lit _ _ _ _ D _ _ L) as (e & E & K & T). destruct (cl_str_keep _ _ _ Col _ _ E (or_intror K)) as (g & E').
    exists (set_s_gc g e). auto.
Qed.

Lemma collect_stack L : Forall2 (rep s W) L l -> Forall2 (rep s' alive) L l.
Proof.
  intro F. assert (forall x, In x l -> reach hm s x) as R.
  { intros x J. destruct Stk as (c & Hc & Wk & Ck). rewrite Cur in Hc. apply (rc_stack _ _ c x Hc). rewrite <- Ck in J.
    apply In_znth in J. destruct J as (n & Hn). pose proof (znth_some_range _ _ _ Hn) as B. rewrite (contents_len _ Wk) in B.
    exists n. split; [exact B|]. unfold contents in Hn. rewrite znth_def in Hn |- *. destruct (Z.ltb_spec n 0); [lia|].
    rewrite nth_error_firstn_lt in Hn; [exact Hn|lia]. }
  clear - F R D Col. induction F as [|v x L l Rv F IH]; constructor.
  - apply collect_rep; [apply R; left; reflexivity|exact Rv].
  - apply IH. intros y J. apply R. right. exact J.
Qed.
End Collect.
End World.
