(** * CallbackProofs: proofs for C69 *)
From Verif Require Import Base BaseFacts TableModel State MonadFacts StrModel ValueModel ObjsModel VmModel VmSpec
  CallSpec RegModel RegSpec RegProofs CallbackModel CallbackSpec.

Lemma add_error_noted s m : live_ctx s (v_cur s) -> exists s', add_error m s = Ok (tt, s') /\ noted s m s'.
Proof.
  intros [c H]. unfold add_error, add_error_ex.
  rewrite (bind_run _ _ _ _ _ (cur_ctx_ok _ _ H)).
  unfold mbind, gets, modify, format_error. eexists. split; [reflexivity|].
  match goal with |- noted _ _ (set_errs (_ ++ [?f ++ bs ":" ++ ?l ++ _]) _) => exists (f ++ bs ":" ++ l) end.
  rewrite <- !app_assoc. reflexivity.
Qed.

Lemma noted_complained s m s' : noted s m s' -> complained s s'.
Proof. intros (a & ->). exists (a ++ bs ": " ++ m), []. reflexivity. Qed.

Lemma complained_trans a b c : complained a b -> complained b c -> complained a c.
Proof.
  intros (e & l & ->) (e' & l' & ->). exists e, (l ++ e' :: l'). vs. rewrite <- app_assoc. cbn [app].
  reflexivity.
Qed.

Lemma noted_live s m s' : noted s m s' -> live_ctx s (v_cur s) -> live_ctx s' (v_cur s').
Proof. intros (a & ->) [c H]. exists c. exact H. Qed.

(** An error, then a result. *)
Lemma error_then {A} (r : A) s m : live_ctx s (v_cur s) ->
  exists s', (add_error m ;;; ret r) s = Ok (r, s') /\ noted s m s'.
Proof.
  intro L. destruct (add_error_noted s m L) as (s' & E & N). exists s'.
  rewrite (bind_run _ _ _ _ _ E). auto.
Qed.

Lemma check_types_run args fname s : live_ctx s (v_cur s) -> forall types i,
  0 <= i -> i + zlen types = zlen args ->
  (check_types args fname i (length types) types s = Ok (true, s) /\
   forall j a t, znth args (i + j) = Some a -> znth types j = Some t -> v_type a = t) \/
  (exists s' j a t, check_types args fname i (length types) types s = Ok (false, s') /\
   znth args (i + j) = Some a /\ znth types j = Some t /\ v_type a <> t /\
   (forall k b u, 0 <= k < j -> znth args (i + k) = Some b -> znth types k = Some u -> v_type b = u) /\
   noted s (fname ++ bs ": Argument " ++ u_to_str (i + j) ++ bs ": Expected " ++ type_name t
            ++ bs " but passed " ++ type_name (v_type a) ++ bs ".") s').
Proof.
  intros L types. induction types as [|t r IH]; intros i P Hz; cbn [length check_types].
  { left. split; [reflexivity|]. intros j a t _ H. apply znth_some_range in H. change (zlen (@nil Z)) with 0 in H. lia. }
  rewrite zlen_cons in Hz. pose proof (zlen_nonneg r).
  destruct (znth_in_range args i) as [a Ha]; [lia|].
  unfold mbind, lift, rd. rewrite Ha.
  destruct (Z.eqb_spec (v_type a) t) as [E|E]; cbn [negb]; cbv iota.
  - destruct (IH (i + 1)) as [(R & Q)|(s' & j & b & u & R & B & U & N & F & D)]; [lia|lia| |].
    + left. split; [exact R|]. intros j b u B U. pose proof (znth_some_range _ _ _ U).
      destruct (Z.eq_dec j 0) as [->|Nj].
      * rewrite Z.add_0_r in B. rewrite znth_cons_0 in U. congruence.
      * apply (Q (j - 1)); [replace (i + 1 + (j - 1)) with (i + j) by lia; exact B|].
        rewrite znth_cons_S in U by lia. exact U.
    + right. pose proof (znth_some_range _ _ _ U).
      exists s', (j + 1), b, u. replace (i + (j + 1)) with (i + 1 + j) by lia.
      split; [exact R|]. split; [exact B|]. split; [rewrite znth_cons_S by lia; replace (j + 1 - 1) with j by lia; exact U|].
      split; [exact N|]. split; [|exact D].
      intros k c w K C W. destruct (Z.eq_dec k 0) as [->|Nk].
      * rewrite Z.add_0_r in C. rewrite znth_cons_0 in W. congruence.
      * apply (F (k - 1)); [lia|replace (i + 1 + (k - 1)) with (i + k) by lia; exact C|].
        rewrite znth_cons_S in W by lia. exact W.
  - right. destruct (error_then false s (fname ++ bs ": Argument " ++ u_to_str i ++ bs ": Expected " ++ type_name t
          ++ bs " but passed " ++ type_name (v_type a) ++ bs ".") L) as (s' & R & D).
    exists s', 0, a, t. rewrite Z.add_0_r. split; [exact R|]. split; [exact Ha|]. split; [apply znth_cons_0|].
    split; [exact E|]. split; [intros; lia|exact D].
Qed.

Lemma setup_types_len l : zlen (setup_types l) = zlen l.
Proof. induction l; cbn [setup_types]; rewrite ?zlen_cons; [reflexivity|lia]. Qed.

Lemma setup_types_nth l : forall i, znth (setup_types l) i =
  match znth l i with Some d => Some (d_type d, if d_type d =? T_OBJ then d_ext d else INVALID) | None => None end.
Proof.
  induction l as [|d r IH]; intro i; cbn [setup_types].
  { rewrite !znth_def. destruct (i <? 0), (Z.to_nat i); reflexivity. }
  destruct (Z.eq_dec i 0) as [->|N]; [rewrite !znth_cons_0; reflexivity|].
  destruct (Z_lt_dec i 0).
  - rewrite !znth_def. destruct (Z.ltb_spec i 0); [reflexivity|lia].
  - rewrite !znth_cons_S by lia. apply IH.
Qed.

Lemma mismatch_wanted s d a : mismatch s (d_type d, if d_type d =? T_OBJ then d_ext d else INVALID) a <-> ~ wanted s d a.
Proof.
  unfold mismatch, wanted. cbn [fst snd]. destruct (Z.eqb_spec (d_type d) T_OBJ) as [O|O].
  - split.
    + intros (N & [T|(_ & M)]); intros [W|(W & X)]; try congruence. destruct (X O) as (o & G & Y). rewrite G in M.
      destruct M, Y; congruence.
    + intro W. split; [intro N; apply W; auto|].
      destruct (Z.eq_dec (v_type a) (d_type d)) as [T|T]; [|auto]. right. split; [exact O|].
      destruct (get_obj s (v_data a)) as [o|] eqn:G; [|exact I].
      split; intro Y; apply W; right; (split; [exact T|]); intros _; exists o; auto.
  - split.
    + intros (N & [T|(M & _)]); [|congruence]. intros [W|(W & _)]; congruence.
    + intro W. split; [intro N; apply W; auto|]. left. intro T. apply W. right. split; [exact T|]. intro; congruence.
Qed.

Lemma wf_set_extfuncs b x s l : wf b x s ->
  (forall j xf, znth l j = Some xf -> x_argc xf <> INVALID -> zlen (x_types xf) = x_argc xf) ->
  wf b x (set_extfuncs l s).
Proof. intros [] H. constructor; auto. Qed.

Lemma wf_set_errs b x s l : wf b x s -> l <> [] -> wf b x (set_errs l s).
Proof. intros [] H. constructor; auto. intros _. unfold has_errors. vs. destruct l; [congruence|reflexivity]. Qed.

(** The declarations in the table after a set-up. *)
Definition declared (x : extfunc) (ds : option (list decl)) : extfunc :=
  match ds with
  | None => set_x_args INVALID (x_types x) x
  | Some ds => set_x_args (zlen ds) (setup_types ds) x
  end.

Lemma setup_run n cb ds s : zlen (v_extfuncs s) < INVALID ->
  exists i l x, setup_external_function n cb ds s = Ok (i, set_extfuncs (zupd l i (declared x ds)) s) /\
    znth l i = Some x /\ fkey x = (n, cb) /\
    (l = v_extfuncs s \/ (l = v_extfuncs s ++ [x] /\ i = zlen (v_extfuncs s) /\ x = mkXF n cb INVALID INVALID [])).
Proof.
  intro Lt. unfold setup_external_function.
  assert (exists i l x, register_external_function n cb s = Ok (i, set_extfuncs l s) /\ znth l i = Some x /\ fkey x = (n, cb) /\
    (l = v_extfuncs s \/ (l = v_extfuncs s ++ [x] /\ i = zlen (v_extfuncs s) /\ x = mkXF n cb INVALID INVALID [])) /\ i <> INVALID) as
    (i & l & x & R & X & K & C & Ni).
  { pose proof (zlen_nonneg (v_extfuncs s)).
    unfold register_external_function, register_external_function_nosearch.
    unfold mbind at 1, gets at 1.
    destruct (find_idx _ (v_extfuncs s) 0) as [j|] eqn:F.
    - destruct (find_idx_some _ _ _ _ F) as (_ & x & X & P & _). rewrite Z.sub_0_r in X.
      exists j, (v_extfuncs s), x. pose proof (znth_some_range _ _ _ X). split; [|split; [exact X|split; [|split; [auto|lia]]]].
      + unfold ret. destruct s; reflexivity.
      + apply andb_prop in P. destruct P as (P1 & P2). apply bytes_eqb_eq in P2. unfold fkey. rewrite P2.
        f_equal. destruct (x_cb x), cb; cbn in P1; try discriminate; [|reflexivity]. apply Z.eqb_eq in P1. congruence.
    - unfold mbind at 1, gets at 1.
      rewrite u32_id by (unfold is_u32, INVALID, W32 in *; lia).
      destruct (Z.eqb_spec (zlen (v_extfuncs s) + 1) 0); [lia|].
      exists (zlen (v_extfuncs s)), (v_extfuncs s ++ [mkXF n cb INVALID INVALID []]), (mkXF n cb INVALID INVALID []).
      split; [reflexivity|]. split; [rewrite znth_app_r by lia; rewrite Z.sub_diag; apply znth_cons_0|].
      split; [reflexivity|]. split; [right; auto|lia]. }
  exists i, l, x. split; [|auto].
  rewrite (bind_run _ _ _ _ _ R). destruct (Z.eqb_spec i INVALID); [contradiction|].
  unfold mbind at 1, gets at 1. vs. unfold mbind at 1, lift, rd. rewrite X.
  pose proof (znth_some_range _ _ _ X). fold (declared x ds).
  unfold mbind at 1, lift. rewrite wr_ok by lia. unfold mbind, modify, ret. destruct s; reflexivity.
Qed.

Lemma nth_error_ext {A} (l r : list A) : (forall k, nth_error l k = nth_error r k) -> l = r.
Proof.
  revert r. induction l as [|a l IH]; intros [|b r] H; [reflexivity|specialize (H 0%nat); discriminate H|
    specialize (H 0%nat); discriminate H|].
  f_equal; [specialize (H 0%nat); injection H; auto|]. apply IH. intro k. exact (H (S k)).
Qed.
Lemma nth_error_firstn {A} (l : list A) : forall n k, (k < n)%nat -> nth_error (firstn n l) k = nth_error l k.
Proof.
  induction l as [|a l IH]; intros [|n] k H; try lia; [destruct k; reflexivity|].
  destruct k as [|k]; [reflexivity|]. cbn. apply IH. lia.
Qed.
