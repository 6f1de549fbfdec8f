(** * CallbackProperties: C69, host functions get the arguments they ask for *)
From Verif Require Import Base BaseFacts TableModel State MonadFacts StrModel ValueModel ObjsModel VmModel VmSpec
  CallSpec CallProofs CallProperties RegModel RegSpec RegProofs CallbackModel CallbackSpec CallbackProofs.

(** C69, nkxFunctionCallbackCheckArgCount: true exactly for the right number of
    arguments, and then nothing changes; otherwise one error that names the
    function. *)
Theorem C69_count s args n fname : live_ctx s (v_cur s) ->
  (zlen args = n /\ check_arg_count args n fname s = Ok (true, s)) \/
  (zlen args <> n /\ exists s', check_arg_count args n fname s = Ok (false, s') /\
     noted s (bs "Bad argument count in " ++ fname) s').
Proof.
  intro L. unfold check_arg_count. destruct (Z.eqb_spec (zlen args) n) as [E|E]; cbn [negb]; cbv iota; [left; auto|right].
  split; [exact E|]. apply error_then. exact L.
Qed.
Print Assumptions C69_count.

(** C69, nkxFunctionCallbackCheckArguments: true exactly when there are as many
    arguments as asked for and each has the type asked for at its place, and
    then nothing changes.  Otherwise there is one error: with the numbers when
    they differ, and else about the first argument that is wrong. *)
Theorem C69_types s args fname types : live_ctx s (v_cur s) ->
  (map v_type args = types /\ check_arguments args fname (zlen types) types s = Ok (true, s)) \/
  (exists s', check_arguments args fname (zlen types) types s = Ok (false, s') /\
    ((zlen args <> zlen types /\
      noted s (fname ++ bs ": Expected " ++ u_to_str (zlen types) ++ bs " arguments, but passed "
               ++ u_to_str (zlen args) ++ bs ".") s') \/
     (zlen args = zlen types /\ exists before a after t,
        args = before ++ a :: after /\ firstn (length before) types = map v_type before /\
        znth types (zlen before) = Some t /\ v_type a <> t /\
        noted s (fname ++ bs ": Argument " ++ u_to_str (zlen before) ++ bs ": Expected " ++ type_name t
                 ++ bs " but passed " ++ type_name (v_type a) ++ bs ".") s'))).
Proof.
  intro L. unfold check_arguments. destruct (Z.eqb_spec (zlen types) (zlen args)) as [E|E]; cbn [negb]; cbv iota.
  2: { right. destruct (error_then false s (fname ++ bs ": Expected " ++ u_to_str (zlen types) ++ bs " arguments, but passed "
         ++ u_to_str (zlen args) ++ bs ".") L) as (s' & R & N). exists s'. split; [exact R|]. left. auto. }
  replace (Z.to_nat (zlen types)) with (length types) by (unfold zlen; lia).
  assert (Len : length types = length args) by (unfold zlen in E; lia).
  destruct (check_types_run args fname s L types 0) as [(R & Q)|(s' & j & a & t & R & A & T & N & F & D)]; [lia|lia| |].
  - left. split; [|exact R]. apply nth_error_ext. intro k. rewrite nth_error_map.
    assert (Qk := Q (Z.of_nat k)). rewrite !znth_def in Qk. destruct (Z.ltb_spec (0 + Z.of_nat k) 0); [lia|].
    destruct (Z.ltb_spec (Z.of_nat k) 0); [lia|]. rewrite Z.add_0_l, Nat2Z.id in Qk.
    destruct (nth_error args k) as [a|] eqn:Ha, (nth_error types k) as [t|] eqn:Ht; cbn [option_map].
    + f_equal. apply Qk; reflexivity.
    + apply nth_error_None in Ht. assert (nth_error args k <> None) by congruence. apply nth_error_Some in H1. lia.
    + apply nth_error_None in Ha. assert (nth_error types k <> None) by congruence. apply nth_error_Some in H1. lia.
    + reflexivity.
  - right. exists s'. split; [exact R|]. right. split; [auto|]. cbn [Z.add] in A, D.
    pose proof (znth_some_range _ _ _ T) as Rj.
    rewrite znth_def in A. destruct (Z.ltb_spec j 0); [lia|].
    destruct (nth_error_split _ _ A) as (b & r & -> & Lb).
    assert (Zb : zlen b = j) by (unfold zlen; lia).
    exists b, a, r, t. rewrite Zb. split; [reflexivity|]. split; [|auto].
    apply nth_error_ext. intro k. rewrite nth_error_map.
    destruct (Nat.lt_ge_cases k (length b)) as [Lk|Lk].
    + rewrite nth_error_firstn by exact Lk.
      assert (Fk := F (Z.of_nat k)). rewrite !znth_def in Fk. destruct (Z.ltb_spec (0 + Z.of_nat k) 0); [lia|].
      destruct (Z.ltb_spec (Z.of_nat k) 0); [lia|]. rewrite Z.add_0_l, Nat2Z.id in Fk.
      rewrite nth_error_app1 in Fk by exact Lk.
      destruct (nth_error b k) as [x|] eqn:Hb; [|apply nth_error_None in Hb; lia].
      destruct (nth_error types k) as [u|] eqn:Hu; [|apply nth_error_None in Hu; rewrite app_length in Len; cbn in Len; lia].
      cbn. f_equal. symmetry. apply Fk; [lia|reflexivity|reflexivity].
    + rewrite (proj2 (nth_error_None b k) Lk). cbn. apply nth_error_None. rewrite firstn_length. lia.
Qed.
Print Assumptions C69_types.

(** C69, nkxFunctionCallbackGetExternalDataArgument: the data of the argument,
    and no change, exactly when the argument is there, is an object that exists
    and has the external type asked for, which has to be a registered one.  In
    every other case the result is NULL and there are errors, and nothing else
    changes. *)
Theorem C69_external s args fname i et : live_ctx s (v_cur s) -> 0 <= i -> 0 <= et ->
  (forall j o, get_obj s j = Some o -> 0 <= o_ext o) ->
  (exists o, external_argument s args i et o /\ et < zlen (v_exttypes s) /\
     external_data_argument args fname i et s = Ok (o_data o, s)) \/
  ((et < zlen (v_exttypes s) -> forall o, ~ external_argument s args i et o) /\
   exists s', external_data_argument args fname i et s = Ok (None, s') /\ complained s s').
Proof.
  intros L P Pe Un. unfold external_data_argument.
  assert (Er : forall t m, live_ctx t (v_cur t) -> exists t', (add_error m ;;; ret (@None Z)) t = Ok (None, t') /\ complained t t').
  { intros t m Lt. destruct (error_then (@None Z) t m Lt) as (t' & E & N). exists t'. split; [exact E|eapply noted_complained; eauto]. }
  destruct (Z.leb_spec (zlen args) i) as [B|B].
  { right. split; [|apply Er; exact L]. intros _ o (a & A & _). apply znth_some_range in A. lia. }
  destruct (znth_in_range args i) as [a Ha]; [lia|]. 
  assert (Ra : lift (rd args i) s = Ok (a, s)) by (unfold lift, rd; rewrite Ha; reflexivity).
  rewrite !(bind_run _ _ _ _ _ Ra).
  destruct (Z.eqb_spec (v_type a) T_OBJ) as [T|T]; cbn [negb]; cbv iota.
  2: { right. split; [|apply Er; exact L]. intros _ o (b & A & X & _). congruence. }
  assert (Rs : gets (fun s => s) s = Ok (s, s)) by reflexivity. rewrite !(bind_run _ _ _ _ _ Rs).
  destruct (Z.leb_spec (zlen (v_exttypes s)) et) as [C|C].
  { right. split; [intro; lia|apply Er; exact L]. }
  destruct (get_obj s (v_data a)) as [o|] eqn:G.
  - assert (Ov : obj_of_value s a = Some (v_data a)).
    { unfold obj_of_value. rewrite T, G. reflexivity. }
    assert (Ge : get_ext_type a s = Ok (o_ext o, s)).
    { unfold get_ext_type, mbind, gets. rewrite Ov. unfold rd_obj. rewrite G. reflexivity. }
    rewrite !(bind_run _ _ _ _ _ Ge).
    destruct (Z.eqb_spec (o_ext o) et) as [E|E]; cbn [negb]; cbv iota.
    + left. exists o. split; [exists a; auto|]. split; [exact C|].
      unfold get_ext_data, mbind, gets. rewrite Ov. unfold rd_obj. rewrite G. reflexivity.
    + right. split; [intros _ o' (b & A & _ & G' & X); congruence|].
      destruct (znth_in_range (v_exttypes s) et) as [x Hx]; [lia|]. unfold mbind at 1, lift, rd. rewrite Hx.
      assert (Tn : exists b, type_name_of_value a s = Ok (b, s)).
      { unfold type_name_of_value. rewrite T. change (T_OBJ =? T_OBJ) with true. cbv iota.
        rewrite (bind_run _ _ _ _ _ Ge). unfold mbind at 1, gets. destruct (negb (o_ext o =? INVALID)); [|eexists; reflexivity].
        unfold lift, external_type_name. destruct (zlen (v_exttypes s) <=? o_ext o) eqn:Q; [eexists; reflexivity|].
        unfold rd. destruct (znth (v_exttypes s) (o_ext o)) eqn:Q2; [eexists; reflexivity|].
        exfalso. apply Z.leb_gt in Q. destruct (Z_lt_dec (o_ext o) 0) as [Ng|Ng].
        - specialize (Un _ _ G). lia.
        - destruct (znth_in_range (v_exttypes s) (o_ext o)) as [y Hy]; [lia|congruence]. }
      destruct Tn as (b & Tn). rewrite (bind_run _ _ _ _ _ Tn). apply Er. exact L.
  - right. split; [intros _ o' (b & A & _ & G' & X); congruence|].
    assert (Ov : forall t, v_objs t = v_objs s -> obj_of_value t a = None).
    { intros t Q. unfold obj_of_value, get_obj in *. rewrite T, Q, G. reflexivity. }
    assert (Ge : forall t, v_objs t = v_objs s -> live_ctx t (v_cur t) -> exists t', get_ext_type a t = Ok (INVALID, t') /\
              noted t (bs "Bad object ID in nkiVmObjectGetExternalType.") t').
    { intros t Q Lt. unfold get_ext_type. unfold mbind at 1, gets. rewrite (Ov t Q). apply error_then. exact Lt. }
    destruct (Ge s eq_refl L) as (s1 & R1 & N1). rewrite (bind_run _ _ _ _ _ R1).
    assert (Q1 : v_objs s1 = v_objs s) by (destruct N1 as (w & ->); reflexivity).
    pose proof (noted_live _ _ _ N1 L) as L1.
    destruct (Z.eqb_spec INVALID et) as [E|E]; cbn [negb]; cbv iota.
    { exists s1. split; [|eapply noted_complained; eauto]. unfold get_ext_data, mbind, gets. rewrite (Ov s1 Q1). reflexivity. }
    destruct (znth_in_range (v_exttypes s) et) as [x Hx]; [lia|]. unfold mbind at 1, lift, rd. rewrite Hx.
    destruct (Ge s1 Q1 L1) as (s2 & R2 & N2). pose proof (noted_live _ _ _ N2 L1) as L2.
    assert (Tn : type_name_of_value a s1 = Ok (type_name (v_type a), s2)).
    { unfold type_name_of_value. rewrite T. change (T_OBJ =? T_OBJ) with true. cbv iota.
      rewrite (bind_run _ _ _ _ _ R2). reflexivity. }
    rewrite (bind_run _ _ _ _ _ Tn).
    match goal with |- exists s', (add_error ?m ;;; _) s2 = _ /\ _ => destruct (Er s2 m L2) as (s3 & R3 & N3) end.
    exists s3. split; [exact R3|]. eapply complained_trans; [eapply noted_complained; exact N1|].
    eapply complained_trans; [eapply noted_complained; exact N2|exact N3].
Qed.
Print Assumptions C69_external.

(** C69, nkxGetExternalSubsystemDataOrError: what nkxGetExternalSubsystemData
    finds when that is not NULL, and otherwise NULL with one error that names
    the subsystem. *)
Theorem C69_subsystem s n : live_ctx s (v_cur s) -> zlen (v_subsys s) = 16 ->
  exists d, get_subsystem_data s n = Ok d /\
    match d with
    | Some p => if p =? 0 then exists s', subsystem_or_error n s = Ok (0, s') /\ noted s (bs "Could not find subsystem data: " ++ n) s'
                else subsystem_or_error n s = Ok (p, s)
    | None => exists s', subsystem_or_error n s = Ok (0, s') /\ noted s (bs "Could not find subsystem data: " ++ n) s'
    end.
Proof.
  intros L Len.
  assert (0 <= sub_bucket n < zlen (v_subsys s)).
  { rewrite Len. unfold sub_bucket. change 15 with (Z.ones 4). rewrite Z.land_ones by lia. apply Z.mod_pos_bound. lia. }
  destruct (znth_in_range (v_subsys s) (sub_bucket n)) as [l Hl]; [lia|].
  assert (exists d, get_subsystem_data s n = Ok d) as (d & G).
  { unfold get_subsystem_data, rd. rewrite Hl. eexists. reflexivity. }
  exists d. split; [exact G|].
  assert (R : subsystem_or_error n s = (if match d with Some x => x | None => 0 end =? 0 then
    add_error (bs "Could not find subsystem data: " ++ n) ;;; ret 0 else ret match d with Some x => x | None => 0 end) s).
  { unfold subsystem_or_error. unfold mbind at 1, gets at 1. unfold mbind at 1, lift at 1. rewrite G. reflexivity. }
  rewrite R. destruct d as [p|]; [destruct (p =? 0)|]; [apply error_then; exact L|reflexivity|apply error_then; exact L].
Qed.
Print Assumptions C69_subsystem.

(** The argument list [args] is what the declarations ask for. *)
Definition all_wanted (s : vm) (ds : list decl) (args : list value) : Prop :=
  zlen args = zlen ds /\ forall k d a, znth ds k = Some d -> znth args k = Some a -> wanted s d a.

(** C69, nkxVmSetupExternalFunction: the function is registered, nothing but
    the table of host functions changes, and in that table nothing but the
    declarations of this function; and from then on, calls of the function go
    through to the callback exactly when the arguments are what was declared.
    Other calls are rejected (C22_bad_call: one error, the callback does not
    run). *)
Theorem C69_setup s n cb ds : vm_ok s -> zlen (v_extfuncs s) < INVALID -> zlen ds < INVALID ->
  exists i s', setup_external_function n (Some cb) (Some ds) s = Ok (i, s') /\
    s' = set_extfuncs (v_extfuncs s') s /\ vm_ok s' /\
    (exists x, znth (v_extfuncs s') i = Some x /\ x_name x = n /\ x_cb x = Some cb) /\
    (forall j x, j <> i -> znth (v_extfuncs s) j = Some x -> znth (v_extfuncs s') j = Some x) /\
    (forall fv f args, function_is s' fv f -> f_ext f = i -> f_argc f = INVALID -> i <> INVALID ->
       (all_wanted s' ds args -> good_native s' fv args cb) /\
       (~ all_wanted s' ds args -> bad_call s' fv args)).
Proof.
  intros (b & W) Lt Ld. pose proof (zlen_nonneg ds) as Pd.
  destruct (setup_run n (Some cb) (Some ds) s Lt) as (i & l & x & R & X & K & C).
  unfold fkey in K. injection K as Kn Kc. pose proof (znth_some_range _ _ _ X) as Ri.
  set (y := declared x (Some ds)) in *.
  assert (Y : znth (zupd l i y) i = Some y) by (apply znth_zupd_same; lia).
  eexists i, _. split; [exact R|]. vs. split; [reflexivity|].
  split; [|split; [exists y; auto|split]].
  - exists b. apply wf_set_extfuncs; [exact W|]. intros j xf J Na.
    destruct (Z.eq_dec j i) as [->|Nj].
    + rewrite Y in J. injection J as <-. cbn [y declared set_x_args x_argc x_types] in *. apply setup_types_len.
    + rewrite znth_zupd_other in J by congruence.
      destruct C as [->|(-> & -> & ->)]; [exact (w_extfuncs _ _ _ W _ _ J Na)|].
      destruct (Z_lt_dec j (zlen (v_extfuncs s))).
      * rewrite znth_app_l in J by lia. exact (w_extfuncs _ _ _ W _ _ J Na).
      * apply znth_some_range in J. rewrite zlen_app, zlen_cons in J. change (zlen (@nil extfunc)) with 0 in J. lia.
  - intros j z Nj J. rewrite znth_zupd_other by congruence. destruct C as [->|(-> & _)]; [exact J|].
    pose proof (znth_some_range _ _ _ J). rewrite znth_app_l by lia. exact J.
  - intros fv f args F E A Ni. subst i. split.
    + intros (Za & Aw). exists f, y. vs. split; [exact F|]. split; [left; exact A|]. split; [exact Ni|].
      split; [exact Y|]. split; [exact Kc|]. split; [right; cbn [y declared set_x_args x_argc]; auto|].
      intros _. split; [apply setup_types_len|]. intros k d a Hd Ha. cbn [y declared set_x_args x_types] in Hd.
      rewrite setup_types_nth in Hd. destruct (znth ds k) as [dd|] eqn:Dk; [|discriminate]. injection Hd as <-.
      rewrite mismatch_wanted. intro NW. exact (NW (Aw k dd a Dk Ha)).
    + intro NW. destruct (Z.eq_dec (zlen args) (zlen ds)) as [Q|Q].
      * assert (exists k d a, znth ds k = Some d /\ znth args k = Some a /\ ~ wanted (set_extfuncs (zupd l (f_ext f) y) s) d a) as
          (k & d & a & Dk & Ak & Wk).
        { clear - NW Q. assert (forall s args ds, zlen args = zlen ds -> ~ (forall k d a, znth ds k = Some d -> znth args k = Some a -> wanted s d a) ->
            exists k d a, znth ds k = Some d /\ znth args k = Some a /\ ~ wanted s d a) as G.
          { clear. intros s args. induction args as [|a r IH]; intros [|d ds] Q NW.
            - exfalso. apply NW. intros k d a H. apply znth_some_range in H. change (zlen (@nil decl)) with 0 in H. lia.
            - rewrite zlen_cons in Q. change (zlen (@nil value)) with 0 in Q. pose proof (zlen_nonneg ds). lia.
            - rewrite zlen_cons in Q. change (zlen (@nil decl)) with 0 in Q. pose proof (zlen_nonneg r). lia.
            - rewrite !zlen_cons in Q. assert (D : wanted s d a \/ ~ wanted s d a).
              { unfold wanted. destruct (Z.eq_dec (d_type d) T_NIL); [auto|].
                destruct (Z.eq_dec (v_type a) (d_type d)); [|right; tauto].
                destruct (Z.eq_dec (d_type d) T_OBJ); [|left; right; split; [auto|tauto]].
                destruct (get_obj s (v_data a)) as [o|]; [|right; intros [H|(_ & H)]; [tauto|destruct (H e0) as (o & G & _); discriminate]].
                destruct (Z.eq_dec (d_ext d) INVALID); [left; right; split; [auto|]; intros _; exists o; auto|].
                destruct (Z.eq_dec (o_ext o) (d_ext d)); [left; right; split; [auto|]; intros _; exists o; auto|].
                right. intros [H|(_ & H)]; [tauto|]. destruct (H e0) as (o' & G & [H'|H']); congruence. }
              destruct D as [D|D].
              + destruct (IH ds) as (k & d' & a' & H1 & H2 & H3); [lia| |].
                * intro All. apply NW. intros k d' a' H1 H2. pose proof (znth_some_range _ _ _ H1).
                  destruct (Z.eq_dec k 0) as [->|Nk]; [rewrite znth_cons_0 in H1; rewrite znth_cons_0 in H2; congruence|].
                  rewrite znth_cons_S in H1 by lia. rewrite znth_cons_S in H2 by lia. exact (All (k - 1) d' a' H1 H2).
                * pose proof (znth_some_range _ _ _ H1). exists (k + 1), d', a'. rewrite !znth_cons_S by lia.
                  replace (k + 1 - 1) with k by lia. auto.
              + exists 0, d, a. rewrite !znth_cons_0. auto. }
          apply G; [exact Q|]. intro All. apply NW. split; auto. }
        eapply (bc_native_type _ _ _ f y k _ a); [exact F|exact Ni|exact Y| | |exact Ak|].
        { cbn [y declared set_x_args x_argc]. lia. }
        { cbn [y declared set_x_args x_types]. rewrite setup_types_nth, Dk. reflexivity. }
        { apply mismatch_wanted. exact Wk. }
      * eapply (bc_native_count _ _ _ f y); [exact F|exact Ni|exact Y|].
        cbn [y declared set_x_args x_argc]. intros [H|H]; lia.
Qed.
Print Assumptions C69_setup.

(** Without declarations every call goes through. *)
Theorem C69_undeclared s n cb : vm_ok s -> zlen (v_extfuncs s) < INVALID ->
  exists i s', setup_external_function n (Some cb) None s = Ok (i, s') /\ vm_ok s' /\
    (forall fv f args, function_is s' fv f -> f_ext f = i -> f_argc f = INVALID -> i <> INVALID ->
       good_native s' fv args cb).
Proof.
  intros (b & W) Lt.
  destruct (setup_run n (Some cb) None s Lt) as (i & l & x & R & X & K & C).
  unfold fkey in K. injection K as Kn Kc. pose proof (znth_some_range _ _ _ X) as Ri.
  assert (Y : znth (zupd l i (declared x None)) i = Some (declared x None)) by (apply znth_zupd_same; lia).
  eexists i, _. split; [exact R|]. split.
  - exists b. apply wf_set_extfuncs; [exact W|]. intros j xf J Na.
    destruct (Z.eq_dec j i) as [->|Nj]; [rewrite Y in J; injection J as <-; cbn in Na; congruence|].
    rewrite znth_zupd_other in J by congruence.
    destruct C as [->|(-> & -> & ->)]; [exact (w_extfuncs _ _ _ W _ _ J Na)|].
    destruct (Z_lt_dec j (zlen (v_extfuncs s))).
    + rewrite znth_app_l in J by lia. exact (w_extfuncs _ _ _ W _ _ J Na).
    + apply znth_some_range in J. rewrite zlen_app, zlen_cons in J. change (zlen (@nil extfunc)) with 0 in J. lia.
  - intros fv f args F E A Ni. subst i. exists f, (declared x None). vs. split; [exact F|]. split; [left; exact A|].
    split; [exact Ni|]. split; [exact Y|]. split; [exact Kc|]. split; [left; reflexivity|]. intro N. cbn in N. congruence.
Qed.
Print Assumptions C69_undeclared.

(** A machine with one object, which has the external type "box". *)
Definition box_machine : res (Z * vm) :=
  (t <- register_external_type (bs "box") false false false ;;
   o <- create_object ;;
   _ <- set_ext_type (vobj o) t ;;
   _ <- set_ext_data (vobj o) (Some 77) ;;
   i <- setup_external_function (bs "open") (Some 5) (Some [mkD T_INT 0; mkD T_OBJ t; mkD T_NIL 0]) ;;
   get_or_create_internal i) vm_init.
Definition box_vm : vm := match box_machine with Ok (_, s) => s | Ub _ => vm_init end.

(** C69 on it: two boxes' worth of arguments, right and wrong ones. *)
Example C69_case :
  (exists f, function_is box_vm (vfunc 0) f /\ f_ext f = 0 /\ f_argc f = INVALID) /\
  check_arg_count [vint 3; vobj 0] 2 (bs "open") box_vm = Ok (true, box_vm) /\
  check_arguments [vint 3; vobj 0] (bs "open") 2 [T_INT; T_OBJ] box_vm = Ok (true, box_vm) /\
  match check_arguments [vint 3; vint 4] (bs "open") 2 [T_INT; T_OBJ] box_vm with
  | Ok (b, s) => b = false /\ v_errs s = [bs "<unknown>:0: open: Argument 1: Expected object but passed integer."]
  | Ub _ => False
  end /\
  external_data_argument [vint 3; vobj 0] (bs "open") 1 1 box_vm = Ok (Some 77, box_vm) /\
  match external_data_argument [vint 3; vobj 0] (bs "open") 1 0 box_vm with
  | Ok (d, s) => d = None /\
      v_errs s = [bs "<unknown>:0: open: Argument 1: Type mismatch. Expected coroutine. Got box."]
  | Ub _ => False
  end /\
  match subsystem_or_error (bs "gfx") box_vm with
  | Ok (d, s) => d = 0 /\ v_errs s = [bs "<unknown>:0: Could not find subsystem data: gfx"]
  | Ub _ => False
  end /\
  all_wanted box_vm [mkD T_INT 0; mkD T_OBJ 1; mkD T_NIL 0] [vint 3; vobj 0; vnil] /\
  ~ all_wanted box_vm [mkD T_INT 0; mkD T_OBJ 1; mkD T_NIL 0] [vint 3; vobj 9; vnil].
Proof.
  split. { eexists. split; [split; vm_compute; reflexivity|]. split; reflexivity. }
  split; [vm_compute; reflexivity|]. split; [vm_compute; reflexivity|].
  split; [vm_compute; split; reflexivity|]. split; [vm_compute; reflexivity|].
  split; [vm_compute; split; reflexivity|]. split; [vm_compute; split; reflexivity|].
  split.
  - split; [reflexivity|]. intros k d a D A. pose proof (znth_some_range _ _ _ D) as Rk.
    change (zlen [mkD T_INT 0; mkD T_OBJ 1; mkD T_NIL 0]) with 3 in Rk.
    assert (k = 0 \/ k = 1 \/ k = 2) as [-> | [-> | ->]] by lia; cbn in D, A; injection D as <-; injection A as <-.
    + right. split; [reflexivity|]. intro H. discriminate H.
    + right. split; [reflexivity|]. intros _. eexists. split; [vm_compute; reflexivity|]. right. reflexivity.
    + left. reflexivity.
  - intros (_ & H). destruct (H 1 (mkD T_OBJ 1) (vobj 9) eq_refl eq_refl) as [X|(_ & X)]; [discriminate X|].
    destruct (X eq_refl) as (o & G & _). vm_compute in G. discriminate G.
Qed.

(** ** C70: setting up a host function when memory runs out *)

Lemma write_decls_ok m n ds : am_types m = Room n -> am_ext m = Room n -> forall i, 0 <= i -> i + zlen ds <= n ->
  write_decls m i ds = Ok tt.
Proof.
  intros T E. induction ds as [|d r IH]; intros i P L; cbn [write_decls]; [reflexivity|].
  rewrite zlen_cons in L. pose proof (zlen_nonneg r).
  assert (K : touch (Room n) i = Ok tt).
  { unfold touch. destruct (Z.leb_spec 0 i); [|lia]. destruct (Z.ltb_spec i n); [reflexivity|lia]. }
  rewrite T, E, K. cbn [bind]. destruct (d_type d =? T_OBJ); cbn [bind]; apply IH; lia.
Qed.

(** No allocation of the set-up fails. *)
Definition succeeds (u : setup) : Prop := su_first u = true /\ su_second u = true.

Lemma setup_mem_ok u m : succeeds u -> am_broken m = false -> am_types m <> Gone ->
  exists m', setup_mem u m = Ok m' /\ am_broken m' = false /\ am_types m' <> Gone.
Proof.
  intros (A & B) Br T. unfold setup_mem. rewrite Br. unfold add_args_mem. rewrite A, B. cbn [negb].
  assert (exists t, match am_types m with Null => Ok Null | Gone => Ub UbNull | Room _ => Ok Gone end = Ok t) as (t & Q)
    by (destruct (am_types m); [eauto|congruence|eauto]).
  rewrite Q. cbn [bind am_types am_ext].
  rewrite (write_decls_ok _ (zlen (su_decls u))); [|reflexivity|reflexivity|lia|lia].
  cbn [bind]. eexists. split; [reflexivity|]. split; [reflexivity|discriminate].
Qed.

Lemma setups_mem_broken l : forall m, am_broken m = true -> setups_mem l m = Ok m.
Proof. induction l as [|u r IH]; intros m B; cbn [setups_mem]; [reflexivity|]. unfold setup_mem. rewrite B. cbn [bind]. auto. Qed.

Lemma setups_mem_ok l : Forall succeeds l -> forall m, am_broken m = false -> am_types m <> Gone -> exists m', setups_mem l m = Ok m'.
Proof.
  induction 1 as [|u r U _ IH]; intros m B T; cbn [setups_mem]; [eauto|].
  destruct (setup_mem_ok u m U B T) as (m' & E & B' & T'). rewrite E. cbn [bind]. auto.
Qed.

(** C70: however often a host function is set up, with whatever declarations,
    every write goes to memory the function has, provided allocations fail at
    most in the first set-up.  Missing: failures in later ones, for which the
    claim is false. *)
Theorem C70_memory_partial first rest : Forall succeeds rest ->
  exists m, setups_mem (first :: rest) fresh_args = Ok m.
Proof.
  intro S. cbn [setups_mem]. unfold setup_mem, add_args_mem, fresh_args. cbn [am_broken am_types am_ext bind].
  destruct (su_first first) eqn:A; cbn [negb bind am_types am_ext].
  2: { rewrite setups_mem_broken by reflexivity. eauto. }
  destruct (su_second first) eqn:B; cbn [negb bind am_types am_ext].
  2: { rewrite setups_mem_broken by reflexivity. eauto. }
  rewrite (write_decls_ok _ (zlen (su_decls first))); [|reflexivity|reflexivity|lia|lia].
  cbn [bind]. apply setups_mem_ok; [exact S|reflexivity|discriminate].
Qed.
Print Assumptions C70_memory_partial.

(** C70 is false when an allocation of a later set-up fails: if the first does,
    the declarations are written to memory that was just freed; if the second
    does, they are written past the end of the array of the set-up before. *)
Theorem C70_again_refuted :
  setups_mem [mkSU [mkD T_INT 0] true true; mkSU [mkD T_INT 0] false true] fresh_args = Ub UbNull /\
  setups_mem [mkSU [mkD T_INT 0] true true; mkSU [mkD T_INT 0; mkD T_OBJ 1] true false] fresh_args = Ub UbOob.
Proof. split; reflexivity. Qed.
Print Assumptions C70_again_refuted.

Example C70_case :
  setups_mem [mkSU [mkD T_INT 0] true true; mkSU [mkD T_INT 0; mkD T_OBJ 1] true true] fresh_args =
    Ok (mkAM (Room 2) (Room 2) false) /\
  setups_mem [mkSU [mkD T_OBJ 0] true false; mkSU [mkD T_INT 0] true true] fresh_args = Ok (mkAM (Room 1) Null true).
Proof. split; reflexivity. Qed.
