(** * RegProperties: registries, error report, positions, enumeration *)
From Verif Require Import Base BaseFacts TableModel State MonadFacts StrModel VmModel
  TokenModel TokenProofs RegModel RegSpec RegProofs.

Ltac Zify.zify_post_hook ::= Z.div_mod_to_equations.

(** A machine reached from a fresh one by registrations in any order. *)
Definition registered (s : vm) : Prop := registrations vm_init s.

Lemma init_reg_ok : reg_ok vm_init.
Proof.
  split; cbn [vm_init v_extfuncs v_exttypes v_files v_subsys v_funcs].
  - intros i j x y X. apply znth_some_range in X. change (zlen (@nil extfunc)) with 0 in X. lia.
  - unfold INVALID. change (zlen (@nil extfunc)) with 0. lia.
  - intros i j x y X Y _. apply znth_some_range in X, Y.
    change (zlen [mkET (bs "coroutine") true true true]) with 1 in *. lia.
  - change (zlen [mkET (bs "coroutine") true true true]) with 1. unfold INVALID. lia.
  - intros i j x y X. apply znth_some_range in X. change (zlen (@nil bytes)) with 0 in X. lia.
  - intros e x X. apply znth_some_range in X. change (zlen (@nil extfunc)) with 0 in X. lia.
  - reflexivity.
  - intros k l x K Hx. assert (Q := znth_some_range _ _ _ K). rewrite zlen_repeat in Q.
    rewrite znth_repeat in K by lia. injection K as <-. destruct Hx.
  - intros k l K. assert (Q := znth_some_range _ _ _ K). rewrite zlen_repeat in Q.
    rewrite znth_repeat in K by lia. injection K as <-. constructor.
Qed.

Lemma registered_ok s : registered s -> reg_ok s.
Proof. intro H. exact (registrations_ok _ _ H init_reg_ok). Qed.

Lemma registrations_snoc a b c : registrations a b -> registration b c -> registrations a c.
Proof.
  induction 1 as [|a a1 b R _ IH]; intro H.
  - eapply RS_more; [exact H|constructor].
  - eapply RS_more; [exact R|auto].
Qed.
Lemma registrations_app a b c : registrations a b -> registrations b c -> registrations a c.
Proof. induction 1; intro K; [exact K|]. eapply RS_more; [eassumption|auto]. Qed.

Lemma NoDup_app2 {A} (a b : list A) : NoDup a -> NoDup b -> (forall x, In x a -> ~ In x b) -> NoDup (a ++ b).
Proof.
  induction 1 as [|x a N _ IH]; intros B D; cbn; [exact B|]. constructor.
  - rewrite in_app_iff. intros [K|K]; [contradiction|]. exact (D x (or_introl eq_refl) K).
  - apply IH; [exact B|]. intros y Y. apply D. right. exact Y.
Qed.

(** ** C48: registering by name *)

(** Registering a host function again, whatever was registered in between,
    returns the identifier it already has and changes nothing. *)
Theorem C48_function_again s n cb i s1 s2 :
  registered s ->
  register_external_function n cb s = Ok (i, s1) -> i <> INVALID ->
  registrations s1 s2 ->
  register_external_function n cb s2 = Ok (i, s2).
Proof.
  intros R H N RS.
  assert (OK2 : reg_ok s2).
  { apply (registrations_ok _ _ RS). apply (registration_ok s); [econstructor; exact H|apply registered_ok; exact R]. }
  assert (A : exists x, znth (v_extfuncs s1) i = Some x /\ fkey x = (n, cb)).
  { destruct (register_inv _ _ _ _ _ H) as [[K _]|[(x & -> & X & Q & _)|(-> & -> & _)]]; [contradiction|eauto|].
    vs. exists (mkXF n cb INVALID INVALID []). rewrite znth_app_r by lia. rewrite Z.sub_diag. auto. }
  destruct A as (x & X & Q). destruct (extends_nth _ _ _ _ _ (k_funcs _ _ (registrations_keeps _ _ RS)) X) as (y & Y & E).
  rewrite Q in E. unfold register_external_function. unfold mbind, gets.
  destruct (find_idx_ex (fun x => cb_eqb (x_cb x) cb && bytes_eqb (x_name x) n) _ _ _ Y) as [j J].
  { unfold fkey in E. injection E as -> ->. rewrite cb_eqb_refl, bytes_eqb_refl. reflexivity. }
  rewrite J. unfold ret. destruct (find_idx_some _ _ _ _ J) as (_ & z & Z & P & _). rewrite Z.sub_0_r in Z.
  assert (j = i); [|congruence]. apply (r_funcs _ OK2 j i z y Z Y). rewrite E.
  apply andb_true_iff in P. destruct P as [P B]. apply bytes_eqb_eq in B. unfold fkey. rewrite B. f_equal.
  destruct (x_cb z), cb; cbn in P; try discriminate; auto. f_equal. lia.
Qed.
Print Assumptions C48_function_again.

(** Two registrations that return the same identifier were for the same name
    and callback. *)
Theorem C48_function_distinct s n cb n' cb' i s1 s2 s3 :
  registered s ->
  register_external_function n cb s = Ok (i, s1) -> i <> INVALID ->
  registrations s1 s2 ->
  register_external_function n' cb' s2 = Ok (i, s3) ->
  n' = n /\ cb' = cb.
Proof.
  intros R H N RS H'.
  assert (A : exists x, znth (v_extfuncs s1) i = Some x /\ fkey x = (n, cb)).
  { destruct (register_inv _ _ _ _ _ H) as [[K _]|[(x & -> & X & Q & _)|(-> & -> & _)]]; [contradiction|eauto|].
    vs. exists (mkXF n cb INVALID INVALID []). rewrite znth_app_r by lia. rewrite Z.sub_diag. auto. }
  destruct A as (x & X & Q). destruct (extends_nth _ _ _ _ _ (k_funcs _ _ (registrations_keeps _ _ RS)) X) as (y & Y & E).
  destruct (register_inv _ _ _ _ _ H') as [[K _]|[(z & _ & Z & QZ & _)|(_ & -> & _)]]; [contradiction| |].
  - assert (z = y) by congruence. subst z. split; congruence.
  - apply znth_some_range in Y. lia.
Qed.
Print Assumptions C48_function_distinct.

(** The script-visible function of a host function is made once: asking again
    after any registrations gives the same one, and different host functions
    have different ones. *)
Theorem C48_internal_again s e i s1 s2 :
  registered s ->
  get_or_create_internal e s = Ok (i, s1) -> i <> INVALID ->
  registrations s1 s2 ->
  get_or_create_internal e s2 = Ok (i, s2) /\
  (exists f, znth (v_funcs s2) i = Some f /\ f_ext f = e).
Proof.
  intros R H N RS.
  assert (OK2 : reg_ok s2).
  { apply (registrations_ok _ _ RS). apply (registration_ok s); [econstructor; exact H|apply registered_ok; exact R]. }
  assert (A : exists x, znth (v_extfuncs s1) e = Some x /\ x_func x = i).
  { destruct (internal_inv _ _ _ _ H) as [[K _]|[(x & -> & X & E & _)|(x & X & _ & _ & _ & ->)]]; [contradiction|eauto|].
    vs. exists (set_x_func i x). split; [|reflexivity]. apply znth_zupd_same. apply znth_some_range in X. exact X. }
  destruct A as (x & X & E). rewrite <- E in N.
  destruct (k_ids _ _ (registrations_keeps _ _ RS) _ _ X N) as (y & Y & E2).
  split.
  - unfold get_or_create_internal. unfold mbind at 1, gets at 1.
    assert (RG := znth_some_range _ _ _ Y).
    destruct (zlen (v_extfuncs s2) <=? e) eqn:L; [lia|].
    unfold mbind at 1, lift at 1, rd. rewrite Y. rewrite E2, E.
    destruct (i =? INVALID) eqn:I; [exfalso; apply N; lia|]. reflexivity.
  - rewrite <- E2 in N. destruct (r_attach _ OK2 _ _ Y N) as (f & F & Q). exists f. split; [|exact Q]. congruence.
Qed.
Print Assumptions C48_internal_again.

Theorem C48_internal_distinct s e e' i s1 s2 s3 :
  registered s ->
  get_or_create_internal e s = Ok (i, s1) -> i <> INVALID ->
  registrations s1 s2 ->
  get_or_create_internal e' s2 = Ok (i, s3) ->
  e' = e.
Proof.
  intros R H N RS H'.
  destruct (C48_internal_again _ _ _ _ _ R H N RS) as (_ & f & F & Q).
  assert (RR : registered s2).
  { apply (registrations_app _ s1); [|exact RS]. apply (registrations_snoc _ s); [exact R|]. econstructor; exact H. }
  destruct (C48_internal_again _ _ _ _ _ RR H' N (RS_none _)) as (_ & f' & F' & Q').
  assert (KF : exists g, znth (v_funcs s3) i = Some g /\ f_ext g = e).
  { destruct (internal_inv _ _ _ _ H') as [[_ [t ->]]|[(x & -> & _)|(x & _ & _ & -> & _ & ->)]]; vs; eauto.
    apply znth_some_range in F. lia. }
  destruct KF as (g & G & QG). congruence.
Qed.
Print Assumptions C48_internal_distinct.

(** A registered type is found under its name and under no other, for ever. *)
Theorem C48_type_found s n a b c i s1 s2 :
  registered s ->
  register_external_type n a b c s = Ok (i, s1) -> i <> INVALID ->
  registrations s1 s2 ->
  external_type_name s2 i = Ok n /\
  forall m, find_external_type s2 m = i <-> m = n.
Proof.
  intros R H N RS.
  assert (OK2 : reg_ok s2).
  { apply (registrations_ok _ _ RS). apply (registration_ok s); [econstructor; exact H|apply registered_ok; exact R]. }
  destruct (type_inv _ _ _ _ _ _ _ H) as [[K _]|(Hi & _ & -> & _)]; [contradiction|].
  assert (X : znth (v_exttypes s ++ [mkET n a b c]) i = Some (mkET n a b c)).
  { rewrite Hi, znth_app_r by lia. rewrite Z.sub_diag. reflexivity. }
  destruct (extends_nth _ _ _ _ _ (k_types _ _ (registrations_keeps _ _ RS)) X) as (y & Y & E). cbv beta in E. subst y.
  split.
  - unfold external_type_name. assert (RG := znth_some_range _ _ _ Y).
    destruct (zlen (v_exttypes s2) <=? i) eqn:L; [lia|]. unfold rd. rewrite Y. reflexivity.
  - intro m. unfold find_external_type. split.
    + destruct (find_idx _ _ 0) as [j|] eqn:J; [|intro; congruence]. intros ->.
      destruct (find_idx_some _ _ _ _ J) as (_ & z & Z & P & _). rewrite Z.sub_0_r in Z.
      apply bytes_eqb_eq in P. rewrite Y in Z. injection Z as <-. exact (eq_sym P).
    + intros ->. destruct (find_idx_ex (fun t => bytes_eqb (et_name t) n) _ _ _ Y) as [j J].
      { apply bytes_eqb_refl. }
      rewrite J. destruct (find_idx_some _ _ _ _ J) as (_ & z & Z & P & _). rewrite Z.sub_0_r in Z.
      apply bytes_eqb_eq in P. apply (r_types _ OK2 j i z (mkET n a b c) Z Y). exact P.
Qed.
Print Assumptions C48_type_found.

(** Registering a type again is refused: one error is recorded and nothing
    else changes. *)
Theorem C48_type_twice s n a b c a' b' c' i s1 s2 r s3 :
  registered s ->
  register_external_type n a b c s = Ok (i, s1) -> i <> INVALID ->
  registrations s1 s2 ->
  register_external_type n a' b' c' s2 = Ok (r, s3) ->
  r = INVALID /\ exists e, s3 = set_errs (v_errs s2 ++ [e]) s2.
Proof.
  intros R H N RS H'. destruct (C48_type_found _ _ _ _ _ _ _ _ R H N RS) as [_ F].
  destruct (type_inv _ _ _ _ _ _ _ H') as [K|(_ & _ & _ & Q)]; [exact K|].
  exfalso. apply N. rewrite <- Q. symmetry. apply F. reflexivity.
Qed.
Print Assumptions C48_type_twice.

(** A source file keeps its index; different files have different ones. *)
Theorem C48_file_again s n i s1 s2 :
  registered s -> add_source_file n s = Ok (i, s1) -> registrations s1 s2 ->
  znth (v_files s2) i = Some n /\ add_source_file n s2 = Ok (i, s2) /\
  forall m j s3, add_source_file m s2 = Ok (j, s3) -> m <> n -> j <> i.
Proof.
  intros R H RS.
  assert (OK2 : reg_ok s2).
  { apply (registrations_ok _ _ RS). apply (registration_ok s); [econstructor; exact H|apply registered_ok; exact R]. }
  assert (X : znth (v_files s1) i = Some n).
  { destruct (file_inv _ _ _ _ H) as [[-> X]|(-> & -> & _)]; [exact X|]. vs.
    rewrite znth_app_r by lia. rewrite Z.sub_diag. reflexivity. }
  destruct (extends_nth _ _ _ _ _ (k_files _ _ (registrations_keeps _ _ RS)) X) as (y & Y & E). cbv beta in E. subst y.
  split; [exact Y|]. split.
  - unfold add_source_file, mbind, gets. rewrite find_file_idx.
    destruct (find_idx_ex (bytes_eqb n) _ _ _ Y) as [j J]; [apply bytes_eqb_refl|]. rewrite J. unfold ret.
    destruct (find_idx_some _ _ _ _ J) as (_ & z & Z & P & _). rewrite Z.sub_0_r in Z.
    apply bytes_eqb_eq in P. rewrite (r_files _ OK2 j i z n Z Y); [reflexivity|auto].
  - intros m j s3 Hm D ->. destruct (file_inv _ _ _ _ Hm) as [[_ M]|(_ & -> & _)]; [congruence|].
    apply znth_some_range in Y. lia.
Qed.
Print Assumptions C48_file_again.

(** A subsystem's data is what it was last initialised with, whatever else is
    registered; names that were never initialised have none; and each name
    has one entry. *)
Lemma get_sub_set s n l' m : zlen (v_subsys s) = 16 -> n <> m \/ True ->
  get_subsystem_data (set_subsys (zupd (v_subsys s) (sub_bucket n) l') s) m =
  if sub_bucket n =? sub_bucket m
  then Ok (match find_sub l' m with Some x => Some (sub_data x) | None => None end)
  else get_subsystem_data s m.
Proof.
  intros L _. unfold get_subsystem_data, rd. vs. rewrite znth_zupd.
  pose proof (bucket_range n). destruct (sub_bucket n =? sub_bucket m) eqn:E.
  - destruct ((0 <=? sub_bucket n) && (sub_bucket n <? zlen (v_subsys s))) eqn:B; [|lia].
    rewrite <- andb_assoc, B. reflexivity.
  - cbn [andb]. reflexivity.
Qed.

Lemma init_sub_get s n d a b s1 : zlen (v_subsys s) = 16 ->
  init_subsystem n d a b s = Ok (true, s1) -> get_subsystem_data s1 n = Ok (Some d).
Proof.
  intros L H. destruct (sub_inv _ _ _ _ _ _ _ H) as [[K _]|(_ & l & X & ->)]; [discriminate|].
  rewrite get_sub_set by auto. rewrite Z.eqb_refl. destruct (find_sub l n) as [x|] eqn:F.
  - destruct (find_sub_some _ _ _ F) as [Q _].
    rewrite (find_set_same _ _ _ _ F); [reflexivity|exact Q].
  - cbn [find_sub sub_name]. rewrite bytes_eqb_refl. reflexivity.
Qed.

Lemma init_sub_other s n m d a b r s1 : zlen (v_subsys s) = 16 -> m <> n ->
  init_subsystem m d a b s = Ok (r, s1) -> get_subsystem_data s1 n = get_subsystem_data s n.
Proof.
  intros L D H. destruct (sub_inv _ _ _ _ _ _ _ H) as [(_ & e & ->)|(_ & l & X & ->)]; [reflexivity|].
  rewrite get_sub_set by auto. destruct (sub_bucket m =? sub_bucket n) eqn:E; [|reflexivity].
  unfold get_subsystem_data, rd. replace (sub_bucket n) with (sub_bucket m) by lia. rewrite X. cbn [bind].
  destruct (find_sub l m) as [x|] eqn:F.
  - destruct (find_sub_some _ _ _ F) as [Q _]. rewrite find_set_other by (auto; exact Q). reflexivity.
  - cbn [find_sub sub_name]. assert (B : bytes_eqb m n = false) by (apply bytes_eqb_neq; exact D).
    rewrite B. reflexivity.
Qed.

Lemma except_get n s s' : registrations_except n s s' -> reg_ok s -> get_subsystem_data s' n = get_subsystem_data s n.
Proof.
  assert (ST : forall a b, registration a b -> reg_ok a -> v_subsys b = v_subsys a ->
            reg_ok b /\ get_subsystem_data b n = get_subsystem_data a n).
  { intros a b RG OK E. split; [exact (registration_ok _ _ RG OK)|]. unfold get_subsystem_data. rewrite E. reflexivity. }
  induction 1 as [s|f cb s i s1 s2 H _ IH|e s i s1 s2 H _ IH|t a b c s i s1 s2 H _ IH
                 |m d a b s i s1 s2 D H _ IH|f s i s1 s2 H _ IH]; intro OK; [reflexivity|..].
  - destruct (ST s s1) as [OK1 E]; [econstructor; exact H|exact OK| |rewrite IH; auto].
    destruct (register_inv _ _ _ _ _ H) as [[_ [e ->]]|[(x & -> & _)|(-> & _)]]; reflexivity.
  - destruct (ST s s1) as [OK1 E]; [econstructor; exact H|exact OK| |rewrite IH; auto].
    destruct (internal_inv _ _ _ _ H) as [[_ [t ->]]|[(x & -> & _)|(x & _ & _ & _ & _ & ->)]]; reflexivity.
  - destruct (ST s s1) as [OK1 E]; [econstructor; exact H|exact OK| |rewrite IH; auto].
    destruct (type_inv _ _ _ _ _ _ _ H) as [[_ [e ->]]|(_ & _ & -> & _)]; reflexivity.
  - rewrite IH; [|apply (registration_ok s); [econstructor; exact H|exact OK]].
    exact (init_sub_other _ _ _ _ _ _ _ _ (r_subs _ OK) D H).
  - destruct (ST s s1) as [OK1 E]; [econstructor; exact H|exact OK| |rewrite IH; auto].
    destruct (file_inv _ _ _ _ H) as [[-> _]|(-> & _)]; reflexivity.
Qed.

Theorem C48_subsystem_data s n d a b s1 s2 :
  registered s ->
  init_subsystem n d a b s = Ok (true, s1) ->
  registrations_except n s1 s2 ->
  get_subsystem_data s2 n = Ok (Some d).
Proof.
  intros R H RE. rewrite (except_get _ _ _ RE).
  - exact (init_sub_get _ _ _ _ _ _ (r_subs _ (registered_ok _ R)) H).
  - apply (registration_ok s); [econstructor; exact H|apply registered_ok; exact R].
Qed.
Print Assumptions C48_subsystem_data.

Theorem C48_subsystem_missing s n : registrations_except n vm_init s -> get_subsystem_data s n = Ok None.
Proof.
  intro RE. rewrite (except_get _ _ _ RE init_reg_ok). unfold get_subsystem_data, rd.
  cbn [vm_init v_subsys]. pose proof (bucket_range n).
  rewrite znth_repeat by lia. reflexivity.
Qed.
Print Assumptions C48_subsystem_missing.

Theorem C48_subsystem_once s : registered s -> NoDup (subsystem_names s).
Proof.
  intro R. apply registered_ok in R. destruct R as [_ _ _ _ _ _ _ P C].
  unfold subsystem_names. revert P C. generalize (v_subsys s). intros t P C.
  assert (G : forall t, (forall i j l r x y, znth t i = Some l -> znth t j = Some r -> In x l -> In y r ->
                     sub_name x = sub_name y -> i = j) ->
                   (forall i l, znth t i = Some l -> NoDup (map sub_name l)) ->
                   NoDup (map sub_name (concat t))).
  { clear. induction t as [|l t IH]; intros A B; cbn [concat map]; [constructor|].
    rewrite map_app. apply NoDup_app2.
    - apply (B 0). apply znth_cons_0.
    - apply IH.
      + intros i j a b x y I J X Y E. assert (RI := znth_some_range _ _ _ I). assert (RJ := znth_some_range _ _ _ J).
        assert (i + 1 = j + 1); [|lia].
        apply (A _ _ a b x y); auto; rewrite znth_cons_S by lia; rewrite Z.add_simpl_r; auto.
      + intros i a I. assert (RI := znth_some_range _ _ _ I). apply (B (i + 1)).
        rewrite znth_cons_S by lia. rewrite Z.add_simpl_r. exact I.
    - intros n X Y. apply in_map_iff in X, Y. destruct X as (x & <- & X). destruct Y as (y & E & Y).
      apply in_concat in Y. destruct Y as (r & RT & Y). apply In_znth in RT. destruct RT as [j J].
      assert (RJ := znth_some_range _ _ _ J).
      assert (0 = j + 1); [|lia]. apply (A _ _ l r x y (znth_cons_0 _ _)); auto.
      rewrite znth_cons_S by lia. rewrite Z.add_simpl_r. exact J. }
  apply G; [|exact C]. intros i j l r x y I J X Y E. rewrite <- (P _ _ _ I X), <- (P _ _ _ J Y), E. reflexivity.
Qed.
Print Assumptions C48_subsystem_once.

(** Non-vacuity: three functions, a type, subsystems and files. *)
Definition ex_reg : res vm :=
  do p1 <- register_external_function (bs "print") (Some 1) vm_init;
  do p2 <- register_external_function (bs "print") (Some 2) (snd p1);
  do p3 <- register_external_type (bs "window") true true true (snd p2);
  do p4 <- init_subsystem (bs "ui") 77 true true (snd p3);
  do p5 <- get_or_create_internal 1 (snd p4);
  do p6 <- add_source_file (bs "main.nks") (snd p5);
  Ok (snd p6).
Example C48_example : exists s, ex_reg = Ok s /\ registered s /\
  register_external_function (bs "print") (Some 2) s = Ok (1, s) /\
  get_or_create_internal 1 s = Ok (0, s) /\
  find_external_type s (bs "window") = 1 /\
  get_subsystem_data s (bs "ui") = Ok (Some 77) /\
  add_source_file (bs "main.nks") s = Ok (0, s).
Proof.
  eexists. split; [vm_compute; reflexivity|].
  split; [|repeat split; vm_compute; reflexivity].
  eapply RS_more; [eapply (R_function (bs "print") (Some 1)); vm_compute; reflexivity|].
  eapply RS_more; [eapply (R_function (bs "print") (Some 2)); vm_compute; reflexivity|].
  eapply RS_more; [eapply (R_type (bs "window") true true true); vm_compute; reflexivity|].
  eapply RS_more; [eapply (R_subsystem (bs "ui") 77 true true); vm_compute; reflexivity|].
  eapply RS_more; [eapply (R_internal 1); vm_compute; reflexivity|].
  eapply RS_more; [eapply (R_file (bs "main.nks")); vm_compute; reflexivity|].
  constructor.
Qed.

(** ** C46: the error report fits *)

(** With a buffer of at least the advertised length, whatever it held before,
    the report is every message in order followed by a newline, then the
    terminator, and nothing beyond the advertised length is touched. *)
Theorem C46_text_fits errs junk rest :
  Forall text errs -> zlen (report errs) < W32 - 1 ->
  zlen junk = get_error_length false errs ->
  get_error_length false errs = zlen (report errs) + 1 /\
  get_error_text false errs (junk ++ rest) = Ok (report errs ++ [0] ++ rest).
Proof.
  intros T L J. unfold get_error_length in *. pose proof (zlen_nonneg (report errs)).
  rewrite error_length_run in * by lia. split; [lia|].
  unfold get_error_text. destruct junk as [|x w].
  { change (zlen (@nil Z)) with 0 in J. lia. }
  rewrite zlen_cons in J. cbn [app].
  replace (wr (x :: w ++ rest) 0 0) with (Ok (0 :: w ++ rest)) by (symmetry; apply (wr_app [] x)). cbn [bind].
  change (0 :: w ++ rest) with ([] ++ 0 :: w ++ rest). rewrite error_text_run; [reflexivity| |tauto| |].
  - apply Forall_impl with (2 := T). intros e E K. unfold text in E. rewrite Forall_forall in E.
    specialize (E _ K). lia.
  - change (zlen (@nil Z)) with 0. lia.
  - unfold zlen in J. lia.
Qed.
Print Assumptions C46_text_fits.

(** After an allocation failure the report is that one message. *)
Theorem C46_failure_fits errs junk rest :
  zlen junk = get_error_length true errs ->
  get_error_length true errs = zlen (report [alloc_failure_text]) + 1 /\
  get_error_text true errs (junk ++ rest) = Ok (report [alloc_failure_text] ++ [0] ++ rest).
Proof.
  intro J. split; [vm_compute; reflexivity|].
  assert (L : length junk = 21%nat).
  { unfold get_error_length in J. assert (V : u32 (1 + u32 (str_len alloc_failure_text + 1)) = 21) by (vm_compute; reflexivity).
    rewrite V in J. unfold zlen in J. lia. }
  do 21 (destruct junk as [|? junk]; [discriminate L|]). destruct junk; [|discriminate L].
  unfold get_error_text. cbn [app].
  replace (wr _ 0 0) with (Ok ([] ++ 0 :: [z0;z1;z2;z3;z4;z5;z6;z7;z8;z9;z10;z11;z12;z13;z14;z15;z16;z17;z18] ++ (z19 :: rest)))
    by (symmetry; apply (wr_app [] z)).
  cbn [bind]. rewrite str_cat_run; [|tauto|vm_compute; reflexivity|reflexivity]. cbn [bind].
  change (z19 :: rest) with ([z19] ++ rest). rewrite str_cat_run; [reflexivity| |vm_compute; reflexivity|reflexivity].
  cbn. intuition discriminate.
Qed.
Print Assumptions C46_failure_fits.

(** The number of errors reported is the number of messages. *)
Theorem C46_count errs : zlen errs < W32 -> get_error_count false errs = zlen errs.
Proof.
  intro L. unfold get_error_count. rewrite Z.add_0_r. apply u32_id. split; [apply zlen_nonneg|exact L].
Qed.
Print Assumptions C46_count.

(** Without the bound on the total length the claim fails: the 32-bit length
    wraps, and a buffer of the advertised size is overrun. *)
Theorem C46_wrap_refuted : exists errs, Forall text errs /\
  get_error_text false errs (repeat 0 (Z.to_nat (get_error_length false errs))) = Ub UbOob.
Proof.
  assert (K : exists m, Z.to_nat 2147483647 = S (S m)).
  { exists (Z.to_nat 2147483645). lia. }
  destruct K as [m K]. set (t := repeat 97 (S (S m))).
  assert (TL : zlen t = 2147483647) by (unfold t; rewrite zlen_repeat, <- K; lia).
  exists [t; t]. split.
  - assert (X : text t).
    { unfold text. apply Forall_forall. intros c C. apply repeat_spec in C. lia. }
    auto.
  - unfold get_error_length. cbn [error_length_from]. unfold str_len. rewrite !TL.
    set (n := u32 _). assert (N : n = 1) by (vm_compute; reflexivity). rewrite N.
    change (repeat 0 (Z.to_nat 1)) with [0]. unfold get_error_text. change (wr [0] 0 0) with (Ok [0]).
    cbn [bind error_text_from]. unfold str_cat. change (buf_len (S (length [0])) [0] 0) with (Ok 0).
    cbn [bind]. unfold t. cbn [repeat cat_loop]. reflexivity.
Qed.
Print Assumptions C46_wrap_refuted.

Example C46_example :
  Forall text [bs "a:1: x"; bs "b:2: y"] /\ get_error_length false [bs "a:1: x"; bs "b:2: y"] = 15 /\
  get_error_text false [bs "a:1: x"; bs "b:2: y"] (repeat 7 20) =
    Ok (bs "a:1: x" ++ [10] ++ bs "b:2: y" ++ [10; 0] ++ repeat 7 5).
Proof.
  split; [|split; vm_compute; reflexivity].
  unfold text. apply Forall_forall. intros e [<-|[<-|[]]]; apply Forall_forall; cbn; intuition lia.
Qed.

(** ** C47: positions *)

(** The position found for an instruction is the last one recorded at or
    before it; if all are later, it is the first one; none only if none was
    recorded. *)
Theorem C47_position s i :
  in_code_order (v_markers s) ->
  match find_source_marker s i with
  | Some m => last_at_or_before (v_markers s) i m \/
              ((forall x, In x (v_markers s) -> i < mk_instr x) /\ hd_error (v_markers s) = Some m)
  | None => v_markers s = []
  end.
Proof.
  intro O. unfold find_source_marker. destruct (v_markers s) as [|m r]; [reflexivity|].
  destruct (find_marker_spec r m i O) as (pre & post & E & B & A).
  destruct (Z_le_gt_dec (mk_instr (find_marker m r i)) i) as [L|G].
  - left. exists pre, post. auto.
  - right. destruct B as [->|B]; [|lia]. cbn [app] in E. rewrite E. split; [|reflexivity].
    intros x [<-|X]; [lia|]. rewrite Forall_forall in A. exact (A _ X).
Qed.
Print Assumptions C47_position.

(** The message recorded for a run-time error names that position. *)
Theorem C47_message s c m f msg :
  znth (v_ctxs s) (v_cur s) = Some (Some c) ->
  find_source_marker s (Z.land (c_ip c) (v_cmask s)) = Some m ->
  znth (v_files s) (mk_file m) = Some f -> mk_line m <> INVALID ->
  add_error msg s =
    Ok (tt, set_errs (v_errs s ++ [f ++ bs ":" ++ u_to_str (mk_line m) ++ bs ": " ++ msg]) s).
Proof.
  intros C M F L. unfold add_error, add_error_ex. rewrite (bind_run _ _ _ _ _ (cur_ctx_ok _ _ C)).
  unfold mbind, gets, modify. rewrite !Z.eqb_refl. cbn [orb]. rewrite M, F.
  destruct (mk_line m =? INVALID) eqn:E; [exfalso; apply L; lia|]. reflexivity.
Qed.
Print Assumptions C47_message.

Definition ex_marked : vm :=
  set_files [bs "a.nks"] (set_markers [mkMk 0 0 3 3; mkMk 0 0 4 4; mkMk 2 0 9 9] vm_init).
Example C47_example : in_code_order (v_markers ex_marked) /\
  find_source_marker ex_marked 1 = Some (mkMk 0 0 4 4) /\
  exists s', add_error (bs "oops") ex_marked = Ok (tt, s') /\ v_errs s' = [bs "a.nks:4: oops"].
Proof.
  split; [cbn; lia|]. split; [reflexivity|]. eexists. split; vm_compute; reflexivity.
Qed.

(** ** C49: enumeration *)

Theorem C49_enumerates s ty : t_cap (v_objs s) <= INVALID ->
  exists ids, enumerates s ty 0 ids /\ (forall l, enumerates s ty 0 l -> l = ids) /\
    increasing ids /\
    forall i, In i ids <-> exists o, znth (t_slots (v_objs s)) i = Some (Some o) /\ o_ext o = ty.
Proof.
  intro CAP. set (cap := t_cap (v_objs s)).
  assert (CN : 0 <= cap) by (unfold cap, t_cap; apply zlen_nonneg).
  assert (FN : forall i, 0 <= i <= cap ->
    (Z.to_nat (cap - i) < S (Z.to_nat cap))%nat) by (intros; lia).
  assert (G : forall n i, 0 <= i <= cap -> (Z.to_nat (cap - i) < n)%nat ->
    exists ids, enumerates s ty i ids /\ (forall l, enumerates s ty i l -> l = ids) /\
      increasing ids /\ (forall j, In j ids -> i <= j) /\
      forall j, i <= j -> (In j ids <-> exists o, znth (t_slots (v_objs s)) j = Some (Some o) /\ o_ext o = ty)).
  { induction n as [|n IH]; intros i R N; [lia|].
    destruct (next_spec s ty CAP _ i R (FN i R)) as [(j & o & RJ & J & T & Q & B)|[Q B]];
      change (next_of_type (S (Z.to_nat cap)) s ty INVALID i) with (get_next_object s ty i) in Q.
    - destruct (IH (j + 1)) as (ids & E & U & I & LB & M); [fold cap in RJ; lia|fold cap in RJ; lia|].
      exists (j :: ids). split; [econstructor; eassumption|]. split; [|split; [|split]].
      + intros l E'. inversion E' as [? ? ? Q'|? ? ? ? Q' E'']; subst; rewrite Q in Q'; [discriminate|].
        injection Q' as <- <-. f_equal. apply U. exact E''.
      + destruct ids as [|k ids]; [exact Logic.I|]. split; [|exact I]. specialize (LB k (or_introl eq_refl)). lia.
      + intros k [<-|K]; [lia|]. specialize (LB k K). lia.
      + intros k K. split.
        * intros [<-|H]; [eauto|]. apply M; [specialize (LB k H); lia|exact H].
        * intros (p & P & TP). destruct (Z.eq_dec k j) as [->|D]; [left; reflexivity|].
          destruct (Z_lt_ge_dec k j) as [KL|KG]; [exfalso; apply (B k p); auto; lia|].
          right. apply M; [lia|eauto].
    - exists []. split; [econstructor; exact Q|]. split; [|split; [exact Logic.I|split; [intros j []|]]].
      + intros l E'. inversion E' as [|? ? ? ? Q' E'']; subst; [reflexivity|]. rewrite Q in Q'. discriminate.
      + intros j K. split; [intros []|]. intros (p & P & TP). exfalso. exact (B j p K P TP). }
  destruct (G (S (Z.to_nat cap)) 0) as (ids & E & U & I & LB & M); [lia|lia|].
  exists ids. repeat split; auto.
  - intro H. apply M; [exact (LB i H)|exact H].
  - intros (o & O & T). apply M; [apply znth_some_range in O; lia|eauto].
Qed.
Print Assumptions C49_enumerates.

(** Three objects, two of type 7, and a free slot between. *)
Definition ex_objects : vm :=
  let o t := Some (mkO 0 0 0 [] 0 t None) in
  set_objs (TableModel.mkT [o 7; None; o 8; o 7] [1]) vm_init.
Example C49_example : t_cap (v_objs ex_objects) <= INVALID /\ enumerates ex_objects 7 0 [0; 3].
Proof.
  split; [vm_compute; discriminate|].
  eapply En_more; [vm_compute; reflexivity|]. eapply En_more; [vm_compute; reflexivity|].
  eapply En_end. vm_compute. reflexivity.
Qed.
