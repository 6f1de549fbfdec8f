(** * RegProofs: lemmas about the registries and reports *)
From Verif Require Import Base BaseFacts TableModel State MonadFacts StrModel TokenModel TokenProofs RegModel RegSpec.

Ltac Zify.zify_post_hook ::= Z.div_mod_to_equations.

(** ** Searching *)

Lemma find_idx_some {A} (p : A -> bool) l : forall i j, find_idx p l i = Some j ->
  i <= j /\ exists x, znth l (j - i) = Some x /\ p x = true /\
  forall k y, k < j - i -> znth l k = Some y -> p y = false.
Proof.
  induction l as [|a l IH]; intros i j H; cbn [find_idx] in H; [discriminate|].
  destruct (p a) eqn:E.
  - injection H as <-. rewrite Z.sub_diag. split; [lia|]. exists a. split; [apply znth_cons_0|].
    split; [exact E|]. intros k y K Hy. apply znth_some_range in Hy. lia.
  - destruct (IH _ _ H) as (L & x & X & P & F). split; [lia|]. exists x.
    assert (0 <= j - (i + 1)) by (apply znth_some_range in X; lia).
    split; [rewrite znth_cons_S by lia; replace (j - i - 1) with (j - (i + 1)) by lia; exact X|].
    split; [exact P|]. intros k y K Hy. assert (0 <= k) by (apply znth_some_range in Hy; lia).
    destruct (Z.eq_dec k 0) as [->|N].
    + rewrite znth_cons_0 in Hy. injection Hy as <-. exact E.
    + rewrite znth_cons_S in Hy by lia. apply (F (k - 1) y); [lia|exact Hy].
Qed.

Lemma find_idx_none {A} (p : A -> bool) l : forall i, find_idx p l i = None ->
  forall k y, znth l k = Some y -> p y = false.
Proof.
  induction l as [|a l IH]; intros i H k y K; cbn [find_idx] in H.
  - apply znth_some_range in K. change (zlen (@nil A)) with 0 in K. lia.
  - destruct (p a) eqn:E; [discriminate|]. assert (0 <= k) by (apply znth_some_range in K; lia).
    destruct (Z.eq_dec k 0) as [->|N].
    + rewrite znth_cons_0 in K. injection K as <-. exact E.
    + rewrite znth_cons_S in K by lia. exact (IH _ H _ _ K).
Qed.

Lemma find_idx_ex {A} (p : A -> bool) l k y : znth l k = Some y -> p y = true ->
  exists j, find_idx p l 0 = Some j.
Proof.
  intros K P. destruct (find_idx p l 0) eqn:E; [eauto|].
  rewrite (find_idx_none _ _ _ E _ _ K) in P. discriminate.
Qed.

Lemma find_file_idx fs n : forall i, find_file fs n i = find_idx (bytes_eqb n) fs i.
Proof. induction fs as [|f fs IH]; intro i; cbn; [reflexivity|]. now rewrite IH. Qed.

(** ** What a registration leaves alone *)

(** [l'] extends [l] without changing the keys of its entries. *)
Definition extends {A K} (key : A -> K) (l l' : list A) : Prop :=
  exists r, map key l' = map key l ++ r.

Lemma extends_refl {A K} (key : A -> K) l : extends key l l.
Proof. exists []. now rewrite app_nil_r. Qed.
Lemma extends_trans {A K} (key : A -> K) a b c : extends key a b -> extends key b c -> extends key a c.
Proof. intros [r R] [q Q]. exists (r ++ q). rewrite Q, R, app_assoc. reflexivity. Qed.
Lemma extends_app {A K} (key : A -> K) l r : extends key l (l ++ r).
Proof. exists (map key r). apply map_app. Qed.

Lemma znth_map {A K} (f : A -> K) l i : znth (map f l) i = option_map f (znth l i).
Proof.
  rewrite !znth_def. destruct (i <? 0); [reflexivity|]. apply nth_error_map.
Qed.

Lemma extends_nth {A K} (key : A -> K) l l' i x : extends key l l' -> znth l i = Some x ->
  exists y, znth l' i = Some y /\ key y = key x.
Proof.
  intros [r R] X. assert (Y : znth (map key l') i = Some (key x)).
  { rewrite R. rewrite znth_app_l; [rewrite znth_map, X; reflexivity|].
    apply znth_some_range in X. unfold zlen in *. rewrite map_length. apply X. }
  rewrite znth_map in Y. destruct (znth l' i) as [y|]; [|discriminate].
  injection Y as Y. eauto.
Qed.

Lemma map_zupd {A K} (f : A -> K) l i x y : znth l i = Some x -> f y = f x -> map f (zupd l i y) = map f l.
Proof.
  intros X E. apply list_ext_znth. intro j. rewrite !znth_map, znth_zupd.
  destruct ((i =? j) && (0 <=? i) && (i <? zlen l)) eqn:B; [|reflexivity].
  replace j with i by lia. rewrite X. cbn. now rewrite E.
Qed.

Definition fkey (x : extfunc) := (x_name x, x_cb x).

(** Every registered function, type and file keeps its place, and every
    internal function stays attached. *)
Record keeps (s s' : vm) : Prop := {
  k_funcs : extends fkey (v_extfuncs s) (v_extfuncs s');
  k_types : extends (fun t => t) (v_exttypes s) (v_exttypes s');
  k_files : extends (fun t => t) (v_files s) (v_files s');
  k_ids : forall e x, znth (v_extfuncs s) e = Some x -> x_func x <> INVALID ->
            exists y, znth (v_extfuncs s') e = Some y /\ x_func y = x_func x
}.

Lemma keeps_refl s : keeps s s.
Proof. split; try apply extends_refl. eauto. Qed.
Lemma keeps_trans a b c : keeps a b -> keeps b c -> keeps a c.
Proof.
  intros [A1 A2 A3 A4] [B1 B2 B3 B4]. split; try (eapply extends_trans; eassumption).
  intros e x X N. destruct (A4 e x X N) as (y & Y & E). rewrite <- E in N.
  destruct (B4 e y Y N) as (z & Z & E'). exists z. split; [exact Z|congruence].
Qed.

Lemma keeps_err s e : keeps s (set_errs e s).
Proof. split; vs; try apply extends_refl. eauto. Qed.

(** The state only changed by an error. *)
Lemma err_inv m s u s' : add_error m s = Ok (u, s') ->
  exists e, s' = set_errs (v_errs s ++ [e]) s.
Proof.
  unfold add_error, add_error_ex. intro H. apply bind_inv in H. destruct H as (c & s1 & C & H).
  assert (s1 = s).
  { unfold cur_ctx, mbind, gets, get_ctx in C. destruct (znth _ _) as [[?|]|]; try discriminate. now injection C. }
  subst s1. unfold mbind, gets, modify in H. injection H as _ <-. eexists. reflexivity.
Qed.

Lemma u32_succ_nz l : 0 <= l < W32 -> u32 (l + 1) =? 0 = false -> u32 (l + 1) = l + 1 /\ l < INVALID.
Proof.
  intros R H. assert (L : l < INVALID).
  { destruct (Z.eq_dec l INVALID) as [->|N]; [cbv in H; discriminate|]. unfold W32, INVALID in *. lia. }
  split; [|exact L]. apply u32_id. unfold is_u32, INVALID, W32 in *. lia.
Qed.

Lemma register_inv n cb s i s' : register_external_function n cb s = Ok (i, s') ->
  (i = INVALID /\ exists e, s' = set_errs (v_errs s ++ [e]) s) \/
  (exists x, s' = s /\ znth (v_extfuncs s) i = Some x /\ fkey x = (n, cb) /\
     find_idx (fun x => cb_eqb (x_cb x) cb && bytes_eqb (x_name x) n) (v_extfuncs s) 0 = Some i) \/
  (s' = set_extfuncs (v_extfuncs s ++ [mkXF n cb INVALID INVALID []]) s /\ i = zlen (v_extfuncs s) /\
     find_idx (fun x => cb_eqb (x_cb x) cb && bytes_eqb (x_name x) n) (v_extfuncs s) 0 = None).
Proof.
  unfold register_external_function, register_external_function_nosearch.
  unfold mbind at 1, gets at 1. intro H.
  destruct (find_idx _ (v_extfuncs s) 0) as [j|] eqn:F.
  - injection H as <- <-. right. left. destruct (find_idx_some _ _ _ _ F) as (_ & x & X & P & _).
    rewrite Z.sub_0_r in X. exists x. repeat split; auto.
    apply andb_true_iff in P. destruct P as [P Q]. apply bytes_eqb_eq in Q. unfold fkey. rewrite Q. f_equal.
    destruct (x_cb x), cb; cbn in P; try discriminate; auto. f_equal. lia.
  - unfold mbind, gets in H. destruct (u32 (zlen (v_extfuncs s) + 1) =? 0) eqn:U.
    + left. destruct (add_error _ s) as [[[] s1]|] eqn:E; [|discriminate]. injection H as <- <-.
      split; [reflexivity|]. exact (err_inv _ _ _ _ E).
    + right. right. unfold modify in H. injection H as <- <-. auto.
Qed.

Lemma rd_inv {A} (l : list A) i x : rd l i = Ok x -> znth l i = Some x.
Proof. unfold rd. destruct (znth l i); [|discriminate]. congruence. Qed.
Lemma wr_inv {A} (l : list A) i x l' : wr l i x = Ok l' -> l' = zupd l i x /\ exists y, znth l i = Some y.
Proof. unfold wr. destruct (znth l i) eqn:E; [|discriminate]. intro H. injection H as <-. eauto. Qed.

Lemma internal_inv e s i s' : get_or_create_internal e s = Ok (i, s') ->
  (i = INVALID /\ exists t, s' = set_errs (v_errs s ++ [t]) s) \/
  (exists x, s' = s /\ znth (v_extfuncs s) e = Some x /\ x_func x = i /\ i <> INVALID) \/
  (exists x, znth (v_extfuncs s) e = Some x /\ x_func x = INVALID /\ i = zlen (v_funcs s) /\
     zlen (v_funcs s) + 1 <> W32 /\
     s' = set_extfuncs (zupd (v_extfuncs s) e (set_x_func i x))
            (set_funcs (v_funcs s ++ [mkF INVALID 0 e]) s)).
Proof.
  unfold get_or_create_internal. unfold mbind at 1, gets at 1. intro H.
  destruct (zlen (v_extfuncs s) <=? e).
  - left. apply bind_inv in H. destruct H as ([] & s1 & E & H). injection H as <- <-.
    split; [reflexivity|]. exact (err_inv _ _ _ _ E).
  - right. unfold mbind at 1, lift at 1 in H. destruct (rd (v_extfuncs s) e) as [x|] eqn:X; [|discriminate].
    apply rd_inv in X. destruct (x_func x =? INVALID) eqn:I.
    + right. apply Z.eqb_eq in I. unfold create_function in H. unfold mbind, gets in H.
      destruct (u32 (zlen (v_funcs s) + 1) =? 0) eqn:U; [discriminate|].
      unfold modify, ret, lift in H. vsin H.
      destruct (wr (v_funcs s ++ [_]) (zlen (v_funcs s)) _) as [fs|] eqn:W; [|discriminate].
      destruct (wr (v_extfuncs s) e _) as [xs|] eqn:W2; [|discriminate].
      vsin H. injection H as <- <-. apply wr_inv in W2. destruct W2 as [-> _].
      exists x. repeat split; auto.
      * intro Q. rewrite Q in U. unfold u32 in U. rewrite Z.mod_same in U; [discriminate|discriminate].
      * apply wr_inv in W. destruct W as [-> _].
        assert (Q : forall (l : list func) a b, zupd (l ++ [a]) (zlen l) b = l ++ [b]).
        { intros l a b. unfold zupd, zlen. destruct (Z.of_nat (length l) <? 0) eqn:Z; [lia|].
          rewrite Nat2Z.id. clear. induction l; cbn; congruence. }
        rewrite Q. destruct s; reflexivity.
    + left. injection H as <- <-. exists x. repeat split; auto. lia.
Qed.

Lemma type_inv n a b c s i s' : register_external_type n a b c s = Ok (i, s') ->
  (i = INVALID /\ exists e, s' = set_errs (v_errs s ++ [e]) s) \/
  (i = zlen (v_exttypes s) /\ i <> INVALID /\ s' = set_exttypes (v_exttypes s ++ [mkET n a b c]) s /\
   find_external_type s n = INVALID).
Proof.
  unfold register_external_type. unfold mbind at 1, gets at 1. intro H.
  destruct (negb _) eqn:F.
  - left. apply bind_inv in H. destruct H as ([] & s1 & E & H). injection H as <- <-.
    split; [reflexivity|]. exact (err_inv _ _ _ _ E).
  - destruct (zlen (v_exttypes s) =? INVALID) eqn:L.
    + left. apply bind_inv in H. destruct H as ([] & s1 & E & H). injection H as <- <-.
      split; [reflexivity|]. exact (err_inv _ _ _ _ E).
    + right. unfold mbind, modify in H. injection H as <- <-. repeat split; [lia|].
      apply negb_false_iff in F. lia.
Qed.

Lemma sub_inv n d a b s i s' : init_subsystem n d a b s = Ok (i, s') ->
  (i = false /\ exists e, s' = set_errs (v_errs s ++ [e]) s) \/
  (i = true /\ exists l, znth (v_subsys s) (sub_bucket n) = Some l /\
   s' = set_subsys (zupd (v_subsys s) (sub_bucket n)
          (match find_sub l n with
           | Some x => set_sub l n (mkSub (sub_name x) d b a)
           | None => mkSub n d b a :: l end)) s).
Proof.
  unfold init_subsystem. unfold mbind at 1, gets at 1. intro H.
  destruct (has_errors s).
  - left. apply bind_inv in H. destruct H as ([] & s1 & E & H). injection H as <- <-.
    split; [reflexivity|]. exact (err_inv _ _ _ _ E).
  - right. unfold mbind, lift, modify, ret in H.
    destruct (rd (v_subsys s) (sub_bucket n)) as [l|] eqn:R; [|discriminate]. apply rd_inv in R.
    destruct (wr _ _ _) as [t|] eqn:W; [|discriminate]. apply wr_inv in W. destruct W as [-> _].
    injection H as <- <-. split; [reflexivity|]. eauto.
Qed.

Lemma file_inv n s i s' : add_source_file n s = Ok (i, s') ->
  (s' = s /\ znth (v_files s) i = Some n) \/
  (s' = set_files (v_files s ++ [n]) s /\ i = zlen (v_files s) /\ find_file (v_files s) n 0 = None).
Proof.
  unfold add_source_file, mbind, gets, modify, ret. intro H.
  destruct (find_file (v_files s) n 0) as [j|] eqn:F; injection H as <- <-.
  - left. rewrite find_file_idx in F. destruct (find_idx_some _ _ _ _ F) as (_ & x & X & P & _).
    rewrite Z.sub_0_r in X. apply bytes_eqb_eq in P. subst. auto.
  - right. auto.
Qed.

Lemma registration_keeps s s' : registration s s' -> keeps s s'.
Proof.
  intros [n cb s0 i s0' H|e s0 i s0' H|n a b c s0 i s0' H|n d a b s0 i s0' H|n s0 i s0' H].
  - destruct (register_inv _ _ _ _ _ H) as [[_ [e ->]]|[[x [-> _]]|[-> _]]];
      [apply keeps_err|apply keeps_refl|]. split; vs; try apply extends_refl.
    + apply extends_app.
    + intros e x X _. exists x. split; [|reflexivity]. rewrite znth_app_l; [exact X|].
      apply znth_some_range in X. lia.
  - destruct (internal_inv _ _ _ _ H) as [[_ [t ->]]|[[x [-> _]]|(x & X & I & Hi & _ & ->)]];
      [apply keeps_err|apply keeps_refl|]. split; vs; try apply extends_refl.
    + exists []. rewrite app_nil_r. apply (map_zupd _ _ _ x); [exact X|reflexivity].
    + intros e' x' X' N. rewrite znth_zupd. destruct ((e =? e') && _ && _) eqn:B; [|eauto].
      replace e' with e in X' by lia. congruence.
  - destruct (type_inv _ _ _ _ _ _ _ H) as [[_ [t ->]]|(_ & _ & -> & _)]; [apply keeps_err|].
    split; vs; try apply extends_refl; [apply extends_app|eauto].
  - destruct (sub_inv _ _ _ _ _ _ _ H) as [[_ [t ->]]|(_ & l & _ & ->)]; [apply keeps_err|].
    split; vs; try apply extends_refl. eauto.
  - destruct (file_inv _ _ _ _ H) as [[-> _]|[-> _]]; [apply keeps_refl|].
    split; vs; try apply extends_refl; [apply extends_app|eauto].
Qed.

Lemma registrations_keeps s s' : registrations s s' -> keeps s s'.
Proof.
  induction 1 as [|s s1 s2 H _ IH]; [apply keeps_refl|].
  eapply keeps_trans; [apply registration_keeps; exact H|exact IH].
Qed.

(** ** Uniqueness *)

(** No two entries agree on the key. *)
Definition unique {A K} (key : A -> K) (l : list A) : Prop :=
  forall i j x y, znth l i = Some x -> znth l j = Some y -> key x = key y -> i = j.

Lemma unique_snoc {A K} (key : A -> K) l a : unique key l ->
  (forall k y, znth l k = Some y -> key y <> key a) -> unique key (l ++ [a]).
Proof.
  intros U N i j x y X Y E.
  assert (C : forall k z, znth (l ++ [a]) k = Some z -> znth l k = Some z \/ (k = zlen l /\ z = a)).
  { intros k z Hk. assert (R := znth_some_range _ _ _ Hk). rewrite zlen_app in R.
    change (zlen [a]) with 1 in R. destruct (Z.eq_dec k (zlen l)) as [->|D].
    - right. rewrite znth_app_r in Hk by lia. rewrite Z.sub_diag in Hk. injection Hk as <-. auto.
    - left. rewrite znth_app_l in Hk by lia. exact Hk. }
  destruct (C _ _ X) as [X'|[-> ->]]; destruct (C _ _ Y) as [Y'|[-> ->]].
  - eapply U; eassumption.
  - exfalso. exact (N _ _ X' E).
  - exfalso. exact (N _ _ Y' (eq_sym E)).
  - reflexivity.
Qed.

Lemma unique_map {A K} (key : A -> K) l l' : map key l' = map key l -> unique key l -> unique key l'.
Proof.
  intros E U i j x y X Y H.
  assert (T : forall k z, znth l' k = Some z -> exists w, znth l k = Some w /\ key w = key z).
  { intros k z Z. assert (Q : znth (map key l) k = Some (key z)) by (rewrite <- E, znth_map, Z; reflexivity).
    rewrite znth_map in Q. destruct (znth l k) as [w|]; [|discriminate]. injection Q as Q. eauto. }
  destruct (T _ _ X) as (w & W & E1). destruct (T _ _ Y) as (v & V & E2).
  apply (U i j w v W V). congruence.
Qed.

Lemma unique_in {A} (key : A -> bytes) l : NoDup (map key l) <-> unique key l.
Proof.
  split.
  - intros N i j x y X Y E.
    assert (RI := znth_some_range _ _ _ X). assert (RJ := znth_some_range _ _ _ Y).
    assert (Xi : znth (map key l) i = Some (key x)) by (rewrite znth_map, X; reflexivity).
    assert (Yi : znth (map key l) j = Some (key x)) by (rewrite znth_map, Y, E; reflexivity).
    rewrite znth_def in Xi, Yi. destruct (i <? 0) eqn:A1; [lia|]. destruct (j <? 0) eqn:A2; [lia|].
    rewrite NoDup_nth_error in N. assert (Z.to_nat i = Z.to_nat j); [|lia].
    apply N; [|congruence]. apply nth_error_Some. congruence.
  - intro U. apply NoDup_nth_error. intros i j Hi E.
    destruct (nth_error (map key l) i) as [k|] eqn:K; [|apply nth_error_Some in Hi; congruence].
    rewrite nth_error_map in K. symmetry in E. rewrite nth_error_map in E.
    destruct (nth_error l i) as [x|] eqn:X; [|discriminate].
    destruct (nth_error l j) as [y|] eqn:Y; [|discriminate]. cbn in K, E.
    assert (T : forall n z, nth_error l n = Some z -> znth l (Z.of_nat n) = Some z).
    { intros n z Z. rewrite znth_def. destruct (Z.of_nat n <? 0) eqn:Q; [lia|]. rewrite Nat2Z.id. exact Z. }
    assert (Z.of_nat i = Z.of_nat j); [|lia]. apply (U _ _ x y (T _ _ X) (T _ _ Y)). congruence.
Qed.

(** What holds in every machine reached by registrations from the start. *)
Record reg_ok (s : vm) : Prop := {
  r_funcs : unique fkey (v_extfuncs s);
  r_fcount : zlen (v_extfuncs s) <= INVALID;
  r_types : unique et_name (v_exttypes s);
  r_tcount : zlen (v_exttypes s) <= INVALID;
  r_files : unique (fun f => f) (v_files s);
  r_attach : forall e x, znth (v_extfuncs s) e = Some x -> x_func x <> INVALID ->
     exists f, znth (v_funcs s) (x_func x) = Some f /\ f_ext f = e;
  r_subs : zlen (v_subsys s) = 16;
  r_place : forall k l x, znth (v_subsys s) k = Some l -> In x l -> sub_bucket (sub_name x) = k;
  r_chain : forall k l, znth (v_subsys s) k = Some l -> NoDup (map sub_name l)
}.

Lemma reg_ok_err e s : reg_ok s -> reg_ok (set_errs e s).
Proof. intros [H1 H2 H3 H4 H5 H6 H7 H8 H9]. split; vs; assumption. Qed.

Lemma cb_eqb_refl a : cb_eqb a a = true.
Proof. destruct a; cbn; [apply Z.eqb_refl|reflexivity]. Qed.

Lemma bucket_range n : 0 <= sub_bucket n < 16.
Proof. unfold sub_bucket. change 15 with (Z.ones 4). rewrite Z.land_ones by lia. change (2 ^ 4) with 16. lia. Qed.

Lemma find_sub_some l n x : find_sub l n = Some x -> sub_name x = n /\ In x l.
Proof.
  induction l as [|a l IH]; cbn [find_sub]; [discriminate|].
  destruct (bytes_eqb (sub_name a) n) eqn:E; intro H.
  - injection H as <-. apply bytes_eqb_eq in E. split; [exact E|left; reflexivity].
  - destruct (IH H). split; [assumption|right; assumption].
Qed.
Lemma find_sub_none l n : find_sub l n = None -> ~ In n (map sub_name l).
Proof.
  induction l as [|a l IH]; cbn [find_sub map In]; [tauto|].
  destruct (bytes_eqb (sub_name a) n) eqn:E; intro H; [discriminate|].
  apply bytes_eqb_neq in E. intros [K|K]; [contradiction|exact (IH H K)].
Qed.
Lemma set_sub_names l n y : sub_name y = n -> map sub_name (set_sub l n y) = map sub_name l.
Proof.
  intro Y. induction l as [|a l IH]; cbn [set_sub map]; [reflexivity|].
  destruct (bytes_eqb (sub_name a) n) eqn:E; cbn [map].
  - apply bytes_eqb_eq in E. congruence.
  - congruence.
Qed.
Lemma find_set_same l n x y : find_sub l n = Some x -> sub_name y = n -> find_sub (set_sub l n y) n = Some y.
Proof.
  intros F Y. induction l as [|a l IH]; cbn [find_sub set_sub] in *; [discriminate|].
  destruct (bytes_eqb (sub_name a) n) eqn:E; cbn [find_sub].
  - rewrite Y, bytes_eqb_refl. reflexivity.
  - rewrite E. auto.
Qed.
Lemma find_set_other l n m y : m <> n -> sub_name y = m -> find_sub (set_sub l m y) n = find_sub l n.
Proof.
  intros D Y. induction l as [|a l IH]; cbn [find_sub set_sub]; [reflexivity|].
  destruct (bytes_eqb (sub_name a) m) eqn:E; cbn [find_sub].
  - apply bytes_eqb_eq in E.
    assert (F : bytes_eqb m n = false) by (apply bytes_eqb_neq; exact D).
    rewrite Y, E, F. reflexivity.
  - rewrite IH. reflexivity.
Qed.

Lemma registration_ok s s' : registration s s' -> reg_ok s -> reg_ok s'.
Proof.
  intros [n cb s0 i s0' H|e s0 i s0' H|n a b c s0 i s0' H|n d a b s0 i s0' H|n s0 i s0' H] R;
    pose proof R as [H1 H2 H3 H4 H5 H6 H7 H8 H9].
  - unfold register_external_function, register_external_function_nosearch in H.
    pose proof (register_inv _ _ _ _ _ H) as [[_ [e ->]]|[[x [-> _]]|(-> & _ & F)]];
      [apply reg_ok_err; exact R|exact R|].
    split; vs; auto.
    + apply unique_snoc; [exact H1|]. intros k y K Q. generalize (find_idx_none _ _ _ F _ _ K).
      unfold fkey in Q. cbn in Q. injection Q as -> ->. rewrite cb_eqb_refl, bytes_eqb_refl. discriminate.
    + rewrite zlen_app. change (zlen [_]) with 1.
      unfold mbind, gets, modify, ret in H. rewrite F in H.
      destruct (u32 (zlen (v_extfuncs s0) + 1) =? 0) eqn:U.
      * destruct (add_error _ s0) as [[[] s1]|] eqn:E; [|discriminate]. injection H as _ H.
        apply err_inv in E. destruct E as [e ->]. apply (f_equal v_extfuncs) in H. vsin H.
        apply (f_equal zlen) in H. rewrite zlen_app in H. change (zlen [_]) with 1 in H. lia.
      * destruct (u32_succ_nz (zlen (v_extfuncs s0))) as [_ L]; [|exact U|lia].
        split; [apply zlen_nonneg|]. unfold INVALID, W32 in *. lia.
    + intros e x X N. apply (H6 e x); [|exact N].
      assert (RG := znth_some_range _ _ _ X). rewrite zlen_app in RG. change (zlen [_]) with 1 in RG.
      destruct (Z.eq_dec e (zlen (v_extfuncs s0))) as [->|D].
      * rewrite znth_app_r in X by lia. rewrite Z.sub_diag in X. injection X as <-. cbn in N. congruence.
      * rewrite znth_app_l in X by lia. exact X.
  - destruct (internal_inv _ _ _ _ H) as [[_ [t ->]]|[[x [-> _]]|(x & X & I & Hi & _ & ->)]];
      [apply reg_ok_err; exact R|exact R|].
    split; vs; auto.
    + apply (unique_map _ (v_extfuncs s0)); [|exact H1]. apply (map_zupd _ _ _ x); [exact X|reflexivity].
    + rewrite zlen_zupd. exact H2.
    + intros e' x' X' N. rewrite znth_zupd in X'.
      destruct ((e =? e') && _ && _) eqn:B.
      * injection X' as <-. cbn [set_x_func x_func] in *. rewrite Hi. rewrite znth_app_r by lia.
        rewrite Z.sub_diag. exists (mkF INVALID 0 e). split; [reflexivity|cbn; lia].
      * destruct (H6 e' x' X' N) as (f & F & E). exists f. split; [|exact E].
        rewrite znth_app_l; [exact F|]. apply znth_some_range in F. lia.
  - destruct (type_inv _ _ _ _ _ _ _ H) as [[_ [t ->]]|(Hi & Ni & -> & F)]; [apply reg_ok_err; exact R|].
    assert (F' : find_idx (fun t => bytes_eqb (et_name t) n) (v_exttypes s0) 0 = None).
    { unfold find_external_type in F. destruct (find_idx _ _ 0) as [j|] eqn:J; [|reflexivity]. subst j.
      destruct (find_idx_some _ _ _ _ J) as (_ & x & X & _). apply znth_some_range in X. lia. }
    split; vs; auto.
    + apply unique_snoc; [exact H3|]. intros k y K Q. generalize (find_idx_none _ _ _ F' _ _ K).
      cbn in Q. cbv beta. rewrite Q, bytes_eqb_refl. discriminate.
    + rewrite zlen_app. change (zlen [_]) with 1. lia.
  - destruct (sub_inv _ _ _ _ _ _ _ H) as [[_ [t ->]]|(_ & l & L & ->)]; [apply reg_ok_err; exact R|].
    split; vs; auto.
    + rewrite zlen_zupd. exact H7.
    + intros k l' x K Hx. rewrite znth_zupd in K.
      destruct ((sub_bucket n =? k) && _ && _) eqn:B; [|exact (H8 _ _ _ K Hx)].
      injection K as <-. destruct (find_sub l n) as [y|] eqn:F.
      * apply find_sub_some in F. destruct F as [Y _].
        assert (Q : In (sub_name x) (map sub_name l)).
        { rewrite <- (set_sub_names l n (mkSub (sub_name y) d b a)) by exact Y.
          apply in_map. exact Hx. }
        apply in_map_iff in Q. destruct Q as (z & E & Hz). rewrite <- E.
        rewrite (H8 _ _ _ L Hz). lia.
      * destruct Hx as [<-|Hx]; [cbn; lia|]. rewrite (H8 _ _ _ L Hx). lia.
    + intros k l' K. rewrite znth_zupd in K.
      destruct ((sub_bucket n =? k) && _ && _) eqn:B; [|exact (H9 _ _ K)].
      injection K as <-. destruct (find_sub l n) as [y|] eqn:F.
      * apply find_sub_some in F. destruct F as [Y _]. rewrite set_sub_names by exact Y. exact (H9 _ _ L).
      * cbn [map]. constructor; [apply find_sub_none; exact F|exact (H9 _ _ L)].
  - destruct (file_inv _ _ _ _ H) as [[-> _]|(-> & _ & F)]; [exact R|].
    split; vs; auto. apply unique_snoc; [exact H5|]. intros k y K Q. cbn in Q. subst y.
    rewrite find_file_idx in F. generalize (find_idx_none _ _ _ F _ _ K). rewrite bytes_eqb_refl. discriminate.
Qed.

Lemma registrations_ok s s' : registrations s s' -> reg_ok s -> reg_ok s'.
Proof. induction 1; [auto|]. intro R. apply IHregistrations. eapply registration_ok; eassumption. Qed.

(** ** The error report *)

Lemma buf_len_at t : forall p a r fuel, ~ In 0 t -> zlen p + zlen t < W32 - 1 ->
  (length t < fuel)%nat -> a = zlen p ->
  buf_len fuel (p ++ t ++ 0 :: r) a = Ok (zlen p + zlen t).
Proof.
  induction t as [|c t IH]; intros p a r fuel N L F ->; destruct fuel as [|f]; try (cbn in F; lia);
    cbn [buf_len app]; rewrite rd_app.
  - cbn [bind]. change (zlen (@nil Z)) with 0. rewrite Z.add_0_r. reflexivity.
  - cbn [bind]. destruct (c =? 0) eqn:E; [exfalso; apply N; left; lia|].
    rewrite zlen_cons in *. pose proof (zlen_nonneg t).
    destruct (zlen p =? W32 - 2) eqn:E2; [lia|].
    replace (p ++ c :: t ++ 0 :: r) with ((p ++ [c]) ++ t ++ 0 :: r) by (rewrite <- app_assoc; reflexivity).
    rewrite (IH (p ++ [c])).
    + rewrite zlen_app. change (zlen [c]) with 1. f_equal. lia.
    + intro K. apply N. right. exact K.
    + rewrite zlen_app. change (zlen [c]) with 1. lia.
    + cbn in F. lia.
    + rewrite zlen_app. reflexivity.
Qed.

(** Appending [src] to a buffer that holds [t], room for it being left. *)
Lemma cat_loop_run src : forall p w r, zlen p + zlen src < W32 - 1 -> length w = S (length src) ->
  cat_loop (p ++ w ++ r) (zlen p) src = Ok (p ++ src ++ 0 :: r).
Proof.
  induction src as [|c src IH]; intros p w r L W; destruct w as [|x w]; try (cbn in W; lia).
  - destruct w; [|cbn in W; lia]. cbn [cat_loop app]. apply wr_app.
  - cbn [cat_loop app]. rewrite zlen_cons in L. pose proof (zlen_nonneg src). pose proof (zlen_nonneg p).
    destruct (zlen p =? INVALID) eqn:E; [unfold INVALID, W32 in *; lia|].
    rewrite wr_app. cbn [bind].
    replace (p ++ c :: w ++ r) with ((p ++ [c]) ++ w ++ r) by (rewrite <- app_assoc; reflexivity).
    replace (zlen p + 1) with (zlen (p ++ [c])) by (rewrite zlen_app; reflexivity).
    rewrite IH.
    + rewrite <- app_assoc. reflexivity.
    + rewrite zlen_app. change (zlen [c]) with 1. lia.
    + cbn in W. lia.
Qed.

Lemma str_cat_run t src w r : ~ In 0 t -> zlen t + zlen src < W32 - 1 -> length w = length src ->
  str_cat (t ++ 0 :: w ++ r) src = Ok ((t ++ src) ++ 0 :: r).
Proof.
  intros N L W. unfold str_cat. pose proof (zlen_nonneg t). pose proof (zlen_nonneg src).
  change (t ++ 0 :: w ++ r) with ([] ++ t ++ 0 :: w ++ r) at 2. rewrite (buf_len_at t [] 0).
  - cbn [bind app]. change (zlen (@nil Z)) with 0. rewrite Z.add_0_l.
    replace (t ++ 0 :: w ++ r) with (t ++ (0 :: w) ++ r) by reflexivity.
    rewrite cat_loop_run; [rewrite app_assoc; reflexivity|exact L|cbn; congruence].
  - exact N.
  - change (zlen (@nil Z)) with 0. lia.
  - rewrite app_length. cbn. lia.
  - reflexivity.
Qed.

Lemma report_app_len l : zlen (report l) = fold_right (fun e n => zlen e + 1 + n) 0 l.
Proof.
  induction l as [|e l IH]; cbn [report map concat fold_right]; [reflexivity|].
  fold (report l). rewrite !zlen_app, IH. change (zlen [10]) with 1. lia.
Qed.

Lemma report_no_zero l : Forall (fun e => ~ In 0 e) l -> ~ In 0 (report l).
Proof.
  induction 1 as [|e l N _ IH]; cbn [report map concat]; [tauto|]. fold (report l).
  rewrite !in_app_iff. cbn [In]. intros [[K|[K|[]]]|K]; [tauto|discriminate|tauto].
Qed.

Lemma error_text_run l : forall t w r, Forall (fun e => ~ In 0 e) l -> ~ In 0 t ->
  zlen t + zlen (report l) < W32 - 1 -> length w = length (report l) ->
  error_text_from (t ++ 0 :: w ++ r) l = Ok (t ++ report l ++ 0 :: r).
Proof.
  induction l as [|e l IH]; intros t w r F N L W.
  - cbn in *. destruct w; [reflexivity|discriminate].
  - inversion_clear F as [|? ? E F']. change (report (e :: l)) with ((e ++ [10]) ++ report l) in *.
    rewrite !zlen_app in L. change (zlen [10]) with 1 in L.
    pose proof (zlen_nonneg t). pose proof (zlen_nonneg e). pose proof (zlen_nonneg (report l)).
    rewrite !app_length in W. cbn [length] in W.
    assert (S1 : exists w1 x w2, w = w1 ++ x :: w2 /\ length w1 = length e /\ length w2 = length (report l)).
    { exists (firstn (length e) w). destruct (skipn (length e) w) as [|x w2] eqn:K.
      - apply (f_equal (@length Z)) in K. rewrite skipn_length in K. cbn in K. lia.
      - exists x, w2. rewrite <- K, firstn_skipn. split; [reflexivity|].
        rewrite firstn_length. split; [lia|].
        apply (f_equal (@length Z)) in K. rewrite skipn_length in K. cbn in K. lia. }
    destruct S1 as (w1 & x & w2 & -> & W1 & W2). cbn [error_text_from].
    replace (t ++ 0 :: (w1 ++ x :: w2) ++ r) with (t ++ 0 :: w1 ++ (x :: w2 ++ r))
      by (rewrite <- app_assoc; reflexivity).
    rewrite str_cat_run by (auto; lia). cbn [bind].
    replace ((t ++ e) ++ 0 :: x :: w2 ++ r) with ((t ++ e) ++ 0 :: [x] ++ (w2 ++ r)) by reflexivity.
    rewrite str_cat_run; cbn [bind].
    + rewrite (IH ((t ++ e) ++ [10]) w2 r F').
      * rewrite <- !app_assoc. reflexivity.
      * rewrite !in_app_iff. cbn. intuition discriminate.
      * rewrite !zlen_app. change (zlen [10]) with 1. lia.
      * exact W2.
    + rewrite in_app_iff. tauto.
    + rewrite zlen_app. change (zlen [10]) with 1. lia.
    + reflexivity.
Qed.

Lemma error_length_run l : forall n, 0 <= n -> n + zlen (report l) < W32 ->
  error_length_from n l = n + zlen (report l).
Proof.
  induction l as [|e l IH]; intros n N L.
  - cbn. change (zlen (report [])) with 0. lia.
  - change (report (e :: l)) with ((e ++ [10]) ++ report l) in *.
    rewrite !zlen_app in *. change (zlen [10]) with 1 in *. cbn [error_length_from].
    pose proof (zlen_nonneg e). pose proof (zlen_nonneg (report l)).
    unfold str_len. rewrite Z.min_l by lia.
    rewrite (u32_id (zlen e + 1)) by (unfold is_u32; lia). rewrite u32_id by (unfold is_u32; lia).
    rewrite IH; lia.
Qed.

(** ** Source positions *)

Lemma find_marker_spec rest : forall m i, in_code_order (m :: rest) ->
  exists pre post, m :: rest = pre ++ find_marker m rest i :: post /\
    (pre = [] \/ mk_instr (find_marker m rest i) <= i) /\ Forall (fun x => i < mk_instr x) post.
Proof.
  induction rest as [|n rest IH]; intros m i O; cbn [find_marker].
  - exists [], []. auto.
  - destruct O as [O1 O2]. destruct (i <? mk_instr n) eqn:E.
    + exists [], (n :: rest). split; [reflexivity|]. split; [auto|].
      constructor; [lia|]. clear IH. assert (i < mk_instr n) by lia. clear E O1.
      revert n O2 H. induction rest as [|k rest IH]; intros n O2 H; [constructor|].
      destruct O2 as [O1 O2]. constructor; [lia|]. apply (IH k O2). lia.
    + destruct (IH n i O2) as (pre & post & EQ & B & A). exists (m :: pre), post.
      split; [cbn; rewrite EQ; reflexivity|]. split; [|exact A]. right.
      destruct B as [->|B]; [|exact B]. cbn in EQ. injection EQ as EQ _. rewrite <- EQ. lia.
Qed.

(** ** Enumeration *)

Lemma next_spec s ty : t_cap (v_objs s) <= INVALID -> forall fuel i,
  0 <= i <= t_cap (v_objs s) -> (Z.to_nat (t_cap (v_objs s) - i) < fuel)%nat ->
  (exists j o, i <= j < t_cap (v_objs s) /\ znth (t_slots (v_objs s)) j = Some (Some o) /\ o_ext o = ty /\
    next_of_type fuel s ty INVALID i = Ok (true, j, j + 1) /\
    forall k p, i <= k < j -> znth (t_slots (v_objs s)) k = Some (Some p) -> o_ext p <> ty) \/
  (next_of_type fuel s ty INVALID i = Ok (false, INVALID, t_cap (v_objs s)) /\
    forall k p, i <= k -> znth (t_slots (v_objs s)) k = Some (Some p) -> o_ext p <> ty).
Proof.
  intro CAP. induction fuel as [|f IH]; intros i R F; [lia|]. cbn [next_of_type].
  destruct (i <? t_cap (v_objs s)) eqn:E.
  - destruct (rd_ok (t_slots (v_objs s)) i) as [ob OB]; [unfold t_cap in *; lia|].
    rewrite OB. cbn [bind]. apply rd_inv in OB.
    assert (U : u32 (i + 1) = i + 1) by (apply u32_id; unfold is_u32, INVALID, W32 in *; lia).
    assert (REC : (forall p, ob = Some p -> o_ext p <> ty) ->
      (exists j o, i <= j < t_cap (v_objs s) /\ znth (t_slots (v_objs s)) j = Some (Some o) /\ o_ext o = ty /\
    next_of_type f s ty INVALID (i + 1) = Ok (true, j, j + 1) /\
    forall k p, i <= k < j -> znth (t_slots (v_objs s)) k = Some (Some p) -> o_ext p <> ty) \/
      (next_of_type f s ty INVALID (i + 1) = Ok (false, INVALID, t_cap (v_objs s)) /\
    forall k p, i <= k -> znth (t_slots (v_objs s)) k = Some (Some p) -> o_ext p <> ty)).
    { intro NO. destruct (IH (i + 1)) as [(j & o & RJ & J & T & Q & B)|[Q B]]; [lia|lia| |].
      - left. exists j, o. split; [lia|]. repeat split; auto. intros k p K P.
        destruct (Z.eq_dec k i) as [->|D]; [apply NO; congruence|apply (B k p); [lia|exact P]].
      - right. split; [exact Q|]. intros k p K P.
        destruct (Z.eq_dec k i) as [->|D]; [apply NO; congruence|apply (B k p); [lia|exact P]]. }
    rewrite U. destruct ob as [o|].
    + destruct (o_ext o =? ty) eqn:T.
      * left. exists i, o. split; [lia|]. split; [exact OB|]. split; [lia|].
        destruct (i =? INVALID) eqn:I; [lia|]. cbn [negb]. split; [reflexivity|]. intros; lia.
      * rewrite Z.eqb_refl. cbn [negb]. apply REC. intros p P. injection P as <-. lia.
    + rewrite Z.eqb_refl. cbn [negb]. apply REC. discriminate.
  - right. replace i with (t_cap (v_objs s)) by lia. split; [reflexivity|]. intros k p K P.
    apply znth_some_range in P. unfold t_cap in *. lia.
Qed.
