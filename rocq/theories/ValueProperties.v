(** * Properties C09-C12 and C52: value comparison, conversion, hashing *)
From Coq Require Import Floats.SpecFloat.
From Verif Require Import Base BaseFacts State StrModel ValueModel ObjsModel StrSpec ValueSpec
  ValueProofs StrProperties.

(** ** C09 *)

(** C09: on ordinary values, in any VM whose strings were made through the
    API, strict comparison has no effect and is a total order that equates
    exactly the values with the same type and contents. *)
Theorem C09_total_order : forall s m, str_history s m ->
  exists cmp : value -> value -> Z,
    (forall a b, ordinary s a -> ordinary s b -> value_compare a b true s = Ok (cmp a b, s)) /\
    (forall a, ordinary s a -> cmp a a = 0) /\
    (forall a b, ordinary s a -> ordinary s b -> cmp b a = - cmp a b) /\
    (forall a b, ordinary s a -> ordinary s b -> -1 <= cmp a b <= 1) /\
    (forall a b c, ordinary s a -> ordinary s b -> ordinary s c ->
       cmp a b <= 0 -> cmp b c <= 0 -> cmp a c <= 0) /\
    (forall a b, ordinary s a -> ordinary s b -> (cmp a b = 0 <-> same_value s a b)).
Proof.
  intros s m H. destruct (str_history_inv s m H) as (W & L & G).
  exists (strict_cmp s). sp.
  - intros. apply value_compare_strict; auto.
  - intros a Ha. destruct (strict_cmp_refl s a) as [E|[T N]]; auto.
    destruct (ordinary_str s a Ha T) as [x Ex]. congruence.
  - intros. apply strict_cmp_anti; auto.
  - intros a b Ha Hb. unfold strict_cmp.
    destruct (_ <? _); [lia|]. destruct (_ <? _); [lia|]. destruct (_ =? _); [lia|].
    destruct (_ =? _); [apply zcmp_range|]. destruct (_ =? _); [apply zcmp_range|].
    destruct (_ =? _); [|apply zcmp_range].
    destruct (get_str _ _); [|lia]. destruct (get_str _ _); [|lia]. apply str_cmp_range.
  - intros a b c. apply strict_cmp_trans; auto.
  - intros. apply strict_cmp_same; auto.
Qed.
Print Assumptions C09_total_order.

(** NaN is the exception: it is not even equal to itself. *)
Example C09_nan_not_equal_itself :
  value_compare (vfloat f_nan) (vfloat f_nan) true ex_s2 = Ok (-1, ex_s2).
Proof. vm_compute. reflexivity. Qed.

(** Non-vacuity: ordinary values of each type in a VM with two strings. *)
Example ex_ordinary : Forall (ordinary ex_s2)
  [vint (-7); vfloat 1073741824; vstr 0; vstr 1; vfunc 3; vobj 9; vnil].
Proof.
  repeat (apply Forall_cons; [split; [vm_compute; split; congruence|]|]); [..|apply Forall_nil].
  - left. reflexivity.
  - right; left. split; [reflexivity|]. vm_compute. discriminate.
  - right; right; left. split; [reflexivity|]. eexists; vm_compute; reflexivity.
  - right; right; left. split; [reflexivity|]. eexists; vm_compute; reflexivity.
  - right; right; right; left. reflexivity.
  - right; right; right; right; left. reflexivity.
  - right; right; right; right; right. reflexivity.
Qed.
Example ex_string_order : value_compare (vstr 0) (vstr 1) true ex_s2 = Ok (-1, ex_s2).
Proof. vm_compute. reflexivity. Qed.

(** ** C10 *)

(** C10 as stated is false: comparing an integer with an object, a float or a
    string converts the second operand only, so the answer depends on the
    order.  (1 == object but not object == 1; 1 == 1.5 but not 1.5 == 1;
    1 == "01" but not "01" == 1.) *)
Definition ex_s01 : vm := ex_run (find_or_add_string (bs "01")) ex_s0.
Definition eq_result (a b : value) (s : vm) : option bool :=
  match value_compare a b false s with Ok (r, _) => Some (r =? 0) | Ub _ => None end.
Theorem C10_loose_symmetry_refuted :
  (exists s m a b, str_history s m /\ ordinary s a /\ ordinary s b /\
     v_type b = T_OBJ /\ eq_result a b s = Some true /\ eq_result b a s = Some false) /\
  (exists s m a b, str_history s m /\ ordinary s a /\ ordinary s b /\
     v_type b = T_FLOAT /\ eq_result a b s = Some true /\ eq_result b a s = Some false) /\
  (exists s m a b, str_history s m /\ ordinary s a /\ ordinary s b /\
     v_type b = T_STRING /\ eq_result a b s = Some true /\ eq_result b a s = Some false).
Proof.
  assert (exists m, str_history ex_s01 m) as [m H].
  { eexists. eapply (sh_create ex_s0 _ (bs "01") 0); [|repeat constructor; lia|vm_compute; reflexivity].
    apply sh_init; [reflexivity|reflexivity|eexists; reflexivity]. }
  assert (ordinary ex_s01 (vint 1)) as O1.
  { split; [vm_compute; split; congruence|]. left; reflexivity. }
  sp.
  - exists ex_s01, m, (vint 1), (vobj 0). sp; auto; try (vm_compute; reflexivity).
    split; [vm_compute; split; congruence|]. right; right; right; right; left; reflexivity.
  - exists ex_s01, m, (vint 1), (vfloat 1069547520). sp; auto; try (vm_compute; reflexivity).
    split; [vm_compute; split; congruence|]. right; left. split; [reflexivity|]. vm_compute. discriminate.
  - exists ex_s01, m, (vint 1), (vstr 0). sp; auto; try (vm_compute; reflexivity).
    split; [vm_compute; split; congruence|]. right; right; left. split; [reflexivity|]. eexists; vm_compute; reflexivity.
Qed.
Print Assumptions C10_loose_symmetry_refuted.

(** C10, the part that holds: loose comparison is symmetric between ordinary
    values of the same type, and between nil and anything.  Missing: pairs of
    different types, where it is false (above). *)
Theorem C10_loose_symmetry_partial : forall s m a b,
  str_history s m -> ordinary s a -> ordinary s b ->
  v_type a = v_type b \/ v_type a = T_NIL \/ v_type b = T_NIL ->
  exists r, value_compare a b false s = Ok (r, s) /\ value_compare b a false s = Ok (- r, s).
Proof.
  intros s m a b H Ha Hb T. destruct (str_history_inv s m H) as (W & L & G).
  assert (v_type a = v_type b -> value_compare a b false s = value_compare a b true s) as E1.
  { intro E. unfold value_compare. rewrite E, Z.ltb_irrefl. reflexivity. }
  assert (v_type a = v_type b -> value_compare b a false s = value_compare b a true s) as E2.
  { intro E. unfold value_compare. rewrite E, Z.ltb_irrefl. reflexivity. }
  destruct (Z.eq_dec (v_type a) (v_type b)) as [E|N].
  - rewrite E1, E2 by auto. exists (strict_cmp s a b).
    rewrite !value_compare_strict by auto. rewrite (strict_cmp_anti s a b) by auto. auto.
  - destruct T as [T|[T|T]]; [congruence| |].
    + exists 1. unfold value_compare. cbn [andb]. rewrite T, Z.eqb_refl.
      destruct (Z.eqb_spec (v_type b) T_NIL); [congruence|]. auto.
    + exists (-1). unfold value_compare. cbn [andb]. rewrite T, Z.eqb_refl.
      destruct (Z.eqb_spec (v_type a) T_NIL); [congruence|]. auto.
Qed.
Print Assumptions C10_loose_symmetry_partial.

(** ** C11 *)

(** C11: an integer converted to a string (an interned string, or an error
    when identifiers have run out) and back is the same integer. *)
Theorem C11_roundtrip : forall s m z,
  str_history s m -> is_s32 z ->
  exists r s', to_string (vint z) s = Ok (r, s') /\
    ((exists txt i, r = Some txt /\ get_str s' i = Some txt) \/ (r = None /\ v_errs s' <> [])) /\
    (forall txt, r = Some txt ->
       forall i s2, get_str s2 i = Some txt -> to_int (vstr i) s2 = Ok (z, s2)).
Proof.
  intros s m z H Hz. destruct (str_history_inv s m H) as (W & L & G).
  unfold to_string. change (v_type (vint z) =? T_STRING) with false. cbv iota.
  unfold mbind at 1, gets at 1.
  assert (value_text s (vint z) = i_to_str z) as ->.
  { unfold value_text, vint. cbn [v_type v_data]. rewrite Z.eqb_refl. unfold v_int. cbn [v_data].
    rewrite s32_u32; auto. }
  destruct (find_or_add_ok s (i_to_str z) W L (i_to_str_text z)) as (i & s' & E & W' & I).
  unfold mbind. rewrite E. unfold gets. eexists _, s'. split; [reflexivity|].
  pose proof (interned_get _ _ _ _ I) as Gi. split.
  - destruct Gi as [->|Gi].
    + right. destruct I as [(e & Ee & _)|[(t' & bh & _ & _ & R & _)|(_ & (e & ->) & _)]].
      * exfalso. pose proof (tab_get_range _ _ _ Ee) as R. pose proof (pow2_bounds _ (tw_cap _ (sw_tab _ _ W))).
        unfold INVALID, W31 in *. lia.
      * unfold INVALID, W31 in R. lia.
      * split.
        -- unfold get_str, get_str_entry. destruct (tab_get _ INVALID) eqn:Q; auto. exfalso.
           pose proof (tab_get_range _ _ _ Q) as R. pose proof (pow2_bounds _ (tw_cap _ (sw_tab _ _ W'))).
           unfold INVALID, W31 in *. lia.
        -- vs. destruct (v_errs s); discriminate.
    + left. exists (i_to_str z), i. auto.
  - intros txt Et j s2 Ej. destruct Gi as [->|Gi].
    + exfalso. unfold get_str, get_str_entry in Et. destruct (tab_get _ INVALID) eqn:Q; [|discriminate].
      pose proof (tab_get_range _ _ _ Q) as R. pose proof (pow2_bounds _ (tw_cap _ (sw_tab _ _ W'))).
      unfold INVALID, W31 in *. lia.
    + rewrite Gi in Et. inversion Et; subst txt. unfold to_int. cbn [vstr v_type v_data]. tag.
      change (2 =? 0) with false. change (2 =? 1) with false. change (2 =? 2) with true. cbv iota.
      unfold mbind, gets. rewrite Ej. unfold ret. rewrite atol_i_to_str; auto.
Qed.
Print Assumptions C11_roundtrip.

Example ex_roundtrip :
  match to_string (vint (-2147483648)) ex_s2 with
  | Ok (Some txt, s') => txt = bs "-2147483648" /\ ex_res 0 (to_int (vstr 2)) s' = -2147483648
  | _ => False
  end.
Proof. vm_compute. auto. Qed.

(** ** C12 *)

(** C12: keys that strict comparison equates fall into the same bucket. *)
Theorem C12_equal_keys_same_bucket : forall s m a b,
  str_history s m -> ordinary s a -> ordinary s b ->
  (exists s', value_compare a b true s = Ok (0, s')) ->
  key_bucket s a = key_bucket s b /\ 0 <= key_bucket s a < 16.
Proof.
  intros s m a b H Ha Hb [s' E]. destruct (str_history_inv s m H) as (W & L & G).
  rewrite value_compare_strict in E by auto. injection E as E' E''. clear E''. split.
  - apply (value_hash_same s a b W Ha Hb). apply strict_cmp_same; auto.
  - unfold key_bucket, OBJ_BUCKETS. apply (land_mask_range _ 4). lia.
Qed.
Print Assumptions C12_equal_keys_same_bucket.

(** Non-vacuity, the delicate pair: 0.0 and -0.0 are equal, have different
    hashes, and the same bucket. *)
Example ex_zeros : value_compare (vfloat 0) (vfloat W31) true ex_s2 = Ok (0, ex_s2) /\
  value_hash ex_s2 (vfloat 0) <> value_hash ex_s2 (vfloat W31) /\
  key_bucket ex_s2 (vfloat 0) = key_bucket ex_s2 (vfloat W31).
Proof. sp; vm_compute; congruence. Qed.

(** ** C52: number formatting fits its buffers *)

(** Sizes of the local arrays the code prints numbers into.
    /repo/src/nkdynstr.c:90-115, /repo/src/nkopt.c:187,213,
    /repo/src/nkexpr.c:350 with /repo/src/nktypes.h:158-198. *)
Definition BUF_INT : Z := 12.     (* the smallest: NK_PRINTF_INTCHARSNEED in nkopt.c *)
Definition BUF_UINT : Z := 12.    (* NK_PRINTF_UINTCHARSNEED + 1 *)
Definition BUF_FLOAT : Z := 49.   (* NK_PRINTF_FLOATCHARSNEEDED + 1 *)

(** C52: the text of every number with its terminator fits. *)
Theorem C52_number_text_fits :
  (forall z, is_s32 z -> zlen (i_to_str z) + 1 <= BUF_INT) /\
  (forall z, is_u32 z -> zlen (u_to_str z) + 1 <= BUF_UINT) /\
  (forall b, zlen (f_to_str b) + 1 <= BUF_FLOAT).
Proof.
  unfold BUF_INT, BUF_UINT, BUF_FLOAT, zlen. sp; intro x.
  - intro H. pose proof (i_to_str_len x H). lia.
  - intro H. pose proof (u32_to_str_len x H). lia.
  - pose proof (f_to_str_len x). lia.
Qed.
Print Assumptions C52_number_text_fits.

(** The bounds are met with equality for integers, and nearly for floats. *)
Example ex_longest : zlen (i_to_str (- W31)) + 1 = BUF_INT /\
  zlen (f_to_str (W31 + 254 * P23 + (P23 - 1))) + 1 = 48.
Proof. split; vm_compute; reflexivity. Qed.
