(** * SaveProofs: loading arbitrary bytes *)
From Verif Require Import Base BaseFacts TableModel TableProofs State MonadFacts StackModel StackProofs
  StrModel StrProofs ObjsModel ObjsProofs VmModel VmSpec VmInv RegModel RegSpec RegProofs RegProperties SaveModel SaveSpec.

Ltac Zify.zify_post_hook ::= Z.div_mod_to_equations.

(** ** Reasoning about reading steps *)

(** From any bytes and a state with [P], the step touches nothing it should not
    and, if it returns true, leaves a state with [Q]. *)
Definition good {A} (P : vm -> Prop) (m : L A) (Q : A -> vm -> Prop) : Prop :=
  forall b s, any_bytes b -> P s ->
    match m b s with
    | Ok (LDone a b' s') => any_bytes b' /\ Q a s'
    | Ok (LFail _ _) => True
    | Ok LCat => True
    | Ub _ => False
    end.

Lemma g_ret {A} (a : A) (P : vm -> Prop) (Q : A -> vm -> Prop) : (forall s, P s -> Q a s) -> good P (lret a) Q.
Proof. intros H b s B Hs. cbn. auto. Qed.
Lemma g_fail {A} (P : vm -> Prop) (Q : A -> vm -> Prop) : good P lfail Q.
Proof. intros b s B Hs. exact I. Qed.
Lemma g_bind {A B} (m : L A) (f : A -> L B) P R Q :
  good P m R -> (forall a, good (R a) (f a) Q) -> good P (lbind m f) Q.
Proof.
  intros H K b s B0 Hs. unfold lbind. specialize (H b s B0 Hs). destruct (m b s) as [[a b' s'|b' s'|]|u]; auto.
  destruct H as [B1 R1]. exact (K a b' s' B1 R1).
Qed.
Lemma g_pre {A} (m : L A) (P P' : vm -> Prop) Q : good P' m Q -> (forall s, P s -> P' s) -> good P m Q.
Proof. intros H K b s B Hs. apply H; auto. Qed.
Lemma g_post {A} (m : L A) (P : vm -> Prop) (Q Q' : A -> vm -> Prop) :
  good P m Q' -> (forall a s, Q' a s -> Q a s) -> good P m Q.
Proof.
  intros H K b s B Hs. specialize (H b s B Hs). destruct (m b s) as [[a b' s'|b' s'|]|u]; auto.
  destruct H. auto.
Qed.
Lemma g_if {A} (c : bool) (m n : L A) (P : vm -> Prop) Q :
  good (fun s => P s /\ c = true) m Q -> good (fun s => P s /\ c = false) n Q -> good P (if c then m else n) Q.
Proof.
  destruct c; intros H K.
  - apply (g_pre _ _ _ _ H). auto.
  - apply (g_pre _ _ _ _ K). auto.
Qed.
Lemma g_mod f (P : vm -> Prop) (Q : unit -> vm -> Prop) : (forall s, P s -> Q tt (f s)) -> good P (lmod f) Q.
Proof. intros H b s B Hs. cbn. auto. Qed.
Lemma g_get {A} (f : vm -> A) (P : vm -> Prop) : good P (lget f) (fun a s => P s /\ a = f s).
Proof. intros b s B Hs. cbn. auto. Qed.
Lemma g_get_any {A} (f : vm -> A) (P : vm -> Prop) : good P (lget f) (fun _ => P).
Proof. intros b s B Hs. cbn. auto. Qed.
Lemma g_vm {A} (m : M A) (P : vm -> Prop) Q :
  (forall s, P s -> exists a s', m s = Ok (a, s') /\ Q a s') -> good P (lvm m) Q.
Proof. intros H b s B Hs. unfold lvm. destruct (H s Hs) as (a & s' & -> & K). auto. Qed.
Lemma g_lift {A} (r : res A) (P : vm -> Prop) : (forall s, P s -> exists a, r = Ok a) ->
  good P (llift r) (fun a s => P s /\ r = Ok a).
Proof. intros H b s B Hs. unfold llift, lvm, lift. destruct (H s Hs) as [a ->]. auto. Qed.
Lemma g_error {A} t (P : vm -> Prop) (Q : A -> vm -> Prop) : (forall s, P s -> live_ctx s (v_cur s)) ->
  good P (lerror t) Q.
Proof.
  intros H. unfold lerror. eapply g_bind with (R := fun _ _ => True); [|intro; apply g_fail].
  apply g_vm. intros s Hs. destruct (add_error_ok s t (H s Hs)) as (e & E). eauto.
Qed.
Lemma g_false {A} (m : L A) (P : vm -> Prop) Q : (forall s, P s -> False) -> good P m Q.
Proof. intros H b s B Hs. destruct (H s Hs). Qed.
Lemma g_ex {A X} (m : L A) (P : X -> vm -> Prop) Q :
  (forall x, good (P x) m Q) -> good (fun s => exists x, P x s) m Q.
Proof. intros H b s B [x Hs]. exact (H x b s B Hs). Qed.
Lemma g_and {A} (m : L A) (P : vm -> Prop) (X : Prop) Q :
  (X -> good P m Q) -> good (fun s => P s /\ X) m Q.
Proof. intros H b s B [Hs HX]. exact (H HX b s B Hs). Qed.

Lemma any_firstn n b : any_bytes b -> any_bytes (firstn n b).
Proof. intro H. rewrite <- (firstn_skipn n b) in H. apply Forall_app in H. apply H. Qed.
Lemma any_skipn n b : any_bytes b -> any_bytes (skipn n b).
Proof. intro H. rewrite <- (firstn_skipn n b) in H. apply Forall_app in H. apply H. Qed.

Lemma g_take n (P : vm -> Prop) : 0 <= n -> good P (take n) (fun a s => P s /\ any_bytes a /\ zlen a = n).
Proof.
  intros Hn b s B Hs. unfold take. destruct (Z.leb_spec n (zlen b)); [|exact I].
  split; [now apply any_skipn|]. split; [exact Hs|]. split; [now apply any_firstn|].
  unfold zlen in *. rewrite firstn_length. lia.
Qed.

Lemma unword_range b : any_bytes b -> is_u32 (unword b).
Proof.
  intro B. unfold is_u32, W32, unword. destruct b as [|b0 [|b1 [|b2 [|b3 [|]]]]]; try lia.
  inversion_clear B as [|? ? B0 R]. inversion_clear R as [|? ? B1 R0]. inversion_clear R0 as [|? ? B2 R].
  inversion_clear R as [|? ? B3 _]. lia.
Qed.

Lemma g_r32 (P : vm -> Prop) : good P r32 (fun a s => P s /\ is_u32 a).
Proof.
  unfold r32. eapply g_bind; [apply g_take; lia|]. intro a. apply g_ret. intros s (Hs & B & _).
  split; [exact Hs|now apply unword_range].
Qed.
Lemma g_r8 (P : vm -> Prop) : good P r8 (fun a s => P s).
Proof. unfold r8. eapply g_bind; [apply g_take; lia|]. intro a. apply g_ret. intros. tauto. Qed.

Definition raw (v : value) : Prop := is_u32 (v_type v) /\ is_u32 (v_data v).
Lemma g_value (P : vm -> Prop) : good P rvalue (fun v s => P s /\ raw v).
Proof.
  unfold rvalue. eapply g_bind; [apply g_r32|]. intro t. eapply g_bind; [apply g_r32|]. intro d.
  apply g_ret. unfold raw. cbn [v_type v_data]. intros. tauto.
Qed.

(** Facts about values read earlier stay known. *)
Lemma g_keep {A} (m : L A) (P : vm -> Prop) Q (X : Prop) :
  good P m Q -> good (fun s => P s /\ X) m (fun a s => Q a s /\ X).
Proof. intro H. apply g_and. intro HX. eapply g_post; [exact H|]. auto. Qed.

Lemma g_times {A} n (m : L A) (P : vm -> Prop) (R : A -> Prop) : good P m (fun a s => P s /\ R a) ->
  good P (times n m) (fun l s => P s /\ Forall R l /\ length l = n).
Proof.
  intro H. induction n as [|k IH]; cbn [times].
  - apply g_ret. auto.
  - eapply g_bind; [exact H|]. intro a. apply g_and. intro Ra.
    eapply g_bind; [exact IH|]. intro r. apply g_ret. intros s (Hs & F & Ln).
    split; [exact Hs|]. split; [now constructor|]. cbn. congruence.
Qed.
Lemma g_times_inv {A} n (m : L A) (P : vm -> Prop) : good P m (fun _ s => P s) ->
  good P (times n m) (fun l s => P s).
Proof.
  intro H. eapply g_post; [apply (g_times n m P (fun _ => True)); eapply g_post; [exact H|]; auto|]. cbn beta. intros. tauto.
Qed.
Lemma g_each n (m : Z -> L unit) (P : Z -> vm -> Prop) : forall i,
  (forall j, i <= j < i + Z.of_nat n -> good (P j) (m j) (fun _ s => P (j + 1) s)) ->
  good (P i) (each n i m) (fun _ s => P (i + Z.of_nat n) s).
Proof.
  induction n as [|k IH]; intros i H; cbn [each].
  - apply g_ret. intros s. rewrite Z.add_0_r. auto.
  - eapply g_bind; [apply H; lia|]. intro. replace (i + Z.of_nat (S k)) with (i + 1 + Z.of_nat k) by lia.
    apply IH. intros j Hj. apply H. lia.
Qed.

Lemma g_alloc size count (P : vm -> Prop) : 0 < size ->
  good P (alloc_array size count) (fun _ s => P s /\ count < INVALID / size).
Proof.
  intro Hs. unfold alloc_array. destruct (Z.leb_spec (INVALID / size) count).
  - intros b s B Hp. exact I.
  - apply g_ret. auto.
Qed.

Lemma cstr_text b : any_bytes b -> is_text (cstr b).
Proof.
  unfold is_text. induction 1 as [|c r Hc _ IH]; cbn [cstr]; [constructor|].
  destruct (Z.eqb_spec c 0); [constructor|]. constructor; [unfold is_byte; lia|exact IH].
Qed.
Lemma g_string (P : vm -> Prop) : (forall s, P s -> live_ctx s (v_cur s)) ->
  good P load_string (fun t s => P s /\ is_text t).
Proof.
  intro Lv. unfold load_string. eapply g_bind; [apply g_r32|]. intro n. apply g_if.
  - apply g_error. intros s ((Hs & _) & _). auto.
  - apply g_and. intros ?. apply g_and. intro Hn. eapply g_bind; [apply g_take; apply Hn|]. intro b.
    apply g_ret. intros s (Hs & B & _). split; [exact Hs|now apply cstr_text].
Qed.
Lemma g_string_in max (P : vm -> Prop) : (forall s, P s -> live_ctx s (v_cur s)) ->
  good P (load_string_in max) (fun t s => P s).
Proof.
  intro Lv. unfold load_string_in. eapply g_bind; [apply g_r32|]. intro n. apply g_if.
  - apply g_error. intros s ((Hs & _) & _). auto.
  - apply g_and. intros ?. apply g_and. intro Hn. eapply g_bind; [apply g_take; apply Hn|]. intro b.
    apply g_ret. intros. tauto.
Qed.

(** ** Powers of two *)
Lemma is_pow2_spec x : 0 < x < W32 -> is_pow2 x = true -> pow2 x.
Proof.
  intros R H. unfold is_pow2 in H. destruct (Z.eqb_spec x 0); [lia|]. cbn [orb] in H. apply Z.eqb_eq in H.
  set (k := Z.log2 x). destruct (Z.log2_spec x ltac:(lia)) as [L1 L2]. fold k in L1, L2.
  assert (0 <= k) by apply Z.log2_nonneg.
  assert (k < 32). { apply (Z.pow_lt_mono_r_iff 2); [lia|lia|]. change (2 ^ 32) with W32. lia. }
  exists k. split; [lia|]. destruct (Z.eq_dec x (2 ^ k)) as [E|N]; [exact E|exfalso].
  assert (B : Z.testbit (Z.land x (x - 1)) k = true).
  { rewrite Z.land_spec. apply andb_true_iff. split.
    - apply Z.bit_log2. lia.
    - replace k with (Z.log2 (x - 1)); [apply Z.bit_log2; lia|]. apply Z.log2_unique; lia. }
  rewrite H, Z.bits_0 in B. discriminate.
Qed.

(** ** What each step establishes *)

(** Properties of the parts of a machine. *)
Definition i_code (s : vm) : Prop := zlen (v_code s) = v_cmask s + 1 /\ pow2 (zlen (v_code s)).
Definition i_static (s : vm) : Prop := zlen (v_static s) = v_smask s + 1 /\ pow2 (zlen (v_static s)).
(** Only the root context is there. *)
Definition i_root (s : vm) : Prop := v_cur s = 0 /\
  exists c, v_ctxs s = [Some c] /\ c_parent c = None /\ c_obj c = vnil.
Definition i_rootk (s : vm) : Prop := v_cur s = 0 /\
  exists c, v_ctxs s = [Some c] /\ c_parent c = None /\ c_obj c = vnil /\ kwf (c_stack c).

Lemma root_live s : i_root s -> live_ctx s (v_cur s).
Proof. intros (E & c & E2 & _). unfold live_ctx. rewrite E, E2. exists c. reflexivity. Qed.
Lemma rootk_root s : i_rootk s -> i_root s.
Proof. intros (C & c & H & ? & ? & _). split; eauto. Qed.

Section Steps.
(** Whatever else is known about the machine and does not concern the parts a
    step changes. *)
Variable X : vm -> Prop.
Hypothesis Xlive : forall s, X s -> live_ctx s (v_cur s).

Lemma g_instructions :
  (forall s m, X s -> X (set_cmask m s)) -> (forall s l, X s -> X (set_code l s)) ->
  good X load_instructions (fun _ s => X s /\ i_code s).
Proof.
  intros X1 X2. unfold load_instructions. eapply g_bind; [apply g_r32|]. intro k. apply g_and. intro Hk.
  eapply g_bind; [apply g_r32|]. intro m. apply g_and. intro Hm.
  eapply g_bind with (R := fun _ s => X s /\ v_cmask s = m); [apply g_mod; intros s Hs; split; auto|].
  intros ?. apply g_if; [apply g_error; intros s [[H _] _]; auto|].
  apply g_and. intro H0. apply g_if; [apply g_error; intros s [[H _] _]; auto|]. apply g_and. intro H1.
  apply g_if; [apply g_error; intros s [[H _] _]; auto|]. apply g_and. intro H2.
  eapply g_bind; [apply g_alloc; lia|]. intros ?. apply g_and. intro H3.
  eapply g_bind with (R := fun _ s => X s /\ v_cmask s = m);
    [apply g_mod; intros s [Hs E]; split; [auto|exact E]|]. intros ?.
  eapply g_bind; [apply (g_times _ _ _ (fun _ => True)); eapply g_post; [apply g_r32|]; cbn beta; intros; tauto|].
  intro ws. apply g_mod. intros s ((Hs & E) & _ & Ln). split; [auto|].
  apply negb_false_iff in H1. unfold is_u32 in Hk, Hm. apply Z.eqb_neq in H0. apply Z.ltb_ge in H2.
  assert (m < INVALID) by (unfold INVALID, W32 in *; lia).
  apply is_pow2_spec in H1; [|unfold INVALID, W32 in *; lia].
  unfold i_code. vs. rewrite zlen_app, zlen_repeat, E. unfold zlen. rewrite Ln.
  replace (Z.of_nat (S (Z.to_nat k)) + Z.of_nat (Z.to_nat (m - k))) with (m + 1) by lia. auto.
Qed.

Lemma g_errors : (forall s l, X s -> X (set_errs l s)) -> good X load_errors (fun _ s => X s).
Proof.
  intro X1. unfold load_errors. eapply g_bind; [apply g_r32|]. intro n. apply g_and. intros ?.
  eapply g_bind.
  - apply (g_times _ _ _ (fun _ => True)). eapply g_post; [apply g_string; auto|]. cbn beta. intros. tauto.
  - intros [|e l]; [apply g_ret|apply g_mod]; intros s (Hs & _); auto.
Qed.

Lemma g_statics :
  (forall s m, X s -> X (set_smask m s)) -> (forall s l, X s -> X (set_static l s)) ->
  good X load_statics (fun _ s => X s /\ i_static s).
Proof.
  intros X1 X2. unfold load_statics. eapply g_bind; [apply g_r32|]. intro m. apply g_and. intro Hm.
  apply g_if; [apply g_error; intros s [H _]; auto|]. apply g_and. intro H1.
  apply g_if; [apply g_error; intros s [H _]; auto|]. apply g_and. intro H2.
  eapply g_bind with (R := fun _ s => X s /\ v_smask s = m); [apply g_mod; intros s Hs; split; auto|].
  intros ?. eapply g_bind; [apply g_alloc; lia|]. intros ?. apply g_and. intro H3.
  eapply g_bind; [apply (g_times _ _ _ (fun _ => True)); eapply g_post; [apply g_value|]; cbn beta; intros; tauto|].
  intro l. apply g_mod. intros s ((Hs & E) & _ & Ln). split; [auto|].
  apply negb_false_iff in H1. unfold is_u32 in Hm. apply Z.leb_gt in H2.
  rewrite u32_id in H1 by (unfold is_u32, INVALID, W32 in *; lia).
  apply is_pow2_spec in H1; [|unfold INVALID, W32 in *; lia].
  unfold i_static. vs. rewrite E. unfold zlen. rewrite Ln.
  replace (Z.of_nat (Z.to_nat (m + 1))) with (m + 1) by lia. auto.
Qed.

End Steps.

(** ** Execution contexts *)

(** The same with a property of the state the step leaves when it returns
    false. *)
Definition goodf {A} (P : vm -> Prop) (m : L A) (Q : A -> vm -> Prop) (F : vm -> Prop) : Prop :=
  forall b s, any_bytes b -> P s ->
    match m b s with
    | Ok (LDone a b' s') => any_bytes b' /\ Q a s'
    | Ok (LFail b' s') => any_bytes b' /\ F s'
    | Ok LCat => True
    | Ub _ => False
    end.
Lemma goodf_good {A} P (m : L A) Q F : goodf P m Q F -> good P m Q.
Proof. intros H b s B Hs. specialize (H b s B Hs). destruct (m b s) as [[| |]|]; auto. Qed.

Section Fail.
Variable F : vm -> Prop.
Lemma f_ret {A} (a : A) (P : vm -> Prop) (Q : A -> vm -> Prop) : (forall s, P s -> Q a s) -> goodf P (lret a) Q F.
Proof. intros H b s B Hs. cbn. auto. Qed.
Lemma f_fail {A} (P : vm -> Prop) (Q : A -> vm -> Prop) : (forall s, P s -> F s) -> goodf P lfail Q F.
Proof. intros H b s B Hs. cbn. auto. Qed.
Lemma f_bind {A B} (m : L A) (f : A -> L B) P R Q :
  goodf P m R F -> (forall a, goodf (R a) (f a) Q F) -> goodf P (lbind m f) Q F.
Proof.
  intros H K b s B0 Hs. unfold lbind. specialize (H b s B0 Hs). destruct (m b s) as [[a b' s'|b' s'|]|u]; auto.
  destruct H as [B1 R1]. exact (K a b' s' B1 R1).
Qed.
Lemma f_pre {A} (m : L A) (P P' : vm -> Prop) Q : goodf P' m Q F -> (forall s, P s -> P' s) -> goodf P m Q F.
Proof. intros H K b s B Hs. apply H; auto. Qed.
Lemma f_if {A} (c : bool) (m n : L A) (P : vm -> Prop) Q :
  goodf (fun s => P s /\ c = true) m Q F -> goodf (fun s => P s /\ c = false) n Q F ->
  goodf P (if c then m else n) Q F.
Proof.
  destruct c; intros H K.
  - apply (f_pre _ _ _ _ H). auto.
  - apply (f_pre _ _ _ _ K). auto.
Qed.
Lemma f_get {A} (f : vm -> A) (P : vm -> Prop) : goodf P (lget f) (fun a s => P s /\ a = f s) F.
Proof. intros b s B Hs. cbn. auto. Qed.
Lemma f_vm {A} (m : M A) (P : vm -> Prop) Q :
  (forall s, P s -> exists a s', m s = Ok (a, s') /\ Q a s') -> goodf P (lvm m) Q F.
Proof. intros H b s B Hs. unfold lvm. destruct (H s Hs) as (a & s' & -> & K). auto. Qed.
Lemma f_error {A} t (P : vm -> Prop) (Q : A -> vm -> Prop) :
  (forall s, P s -> live_ctx s (v_cur s) /\ forall e, F (set_errs (v_errs s ++ [e]) s)) -> goodf P (lerror t) Q F.
Proof.
  intros H b s B Hs. destruct (H s Hs) as [Lv HF]. unfold lerror, lbind, lvm.
  destruct (add_error_ok s t Lv) as (e & ->). cbn. auto.
Qed.
Lemma f_and {A} (m : L A) (P : vm -> Prop) (X : Prop) Q :
  (X -> goodf P m Q F) -> goodf (fun s => P s /\ X) m Q F.
Proof. intros H b s B [Hs HX]. exact (H HX b s B Hs). Qed.
Lemma f_take n (P : vm -> Prop) : 0 <= n -> (forall s, P s -> F s) ->
  goodf P (take n) (fun a s => P s /\ any_bytes a /\ zlen a = n) F.
Proof.
  intros Hn HF b s B Hs. unfold take. destruct (Z.leb_spec n (zlen b)); [|split; [constructor|auto]].
  split; [now apply any_skipn|]. split; [exact Hs|]. split; [now apply any_firstn|].
  unfold zlen in *. rewrite firstn_length. lia.
Qed.
Lemma f_r32 (P : vm -> Prop) : (forall s, P s -> F s) -> goodf P r32 (fun a s => P s /\ is_u32 a) F.
Proof.
  intro HF. unfold r32. eapply f_bind; [apply f_take; [lia|exact HF]|]. intro a. apply f_ret. intros s (Hs & B & _).
  split; [exact Hs|now apply unword_range].
Qed.
Lemma f_value (P : vm -> Prop) : (forall s, P s -> F s) -> goodf P rvalue (fun v s => P s /\ raw v) F.
Proof.
  intro HF. unfold rvalue. eapply f_bind; [apply f_r32; exact HF|]. intro t. apply f_and. intro T.
  eapply f_bind; [apply f_r32; exact HF|]. intro d.
  apply f_ret. unfold raw. cbn [v_type v_data]. intros. tauto.
Qed.
Lemma f_times {A} n (m : L A) (P : vm -> Prop) (R : A -> Prop) : goodf P m (fun a s => P s /\ R a) F ->
  goodf P (times n m) (fun l s => P s /\ Forall R l /\ length l = n) F.
Proof.
  intro H. induction n as [|k IH]; cbn [times].
  - apply f_ret. auto.
  - eapply f_bind; [exact H|]. intro a. apply f_and. intro Ra.
    eapply f_bind; [exact IH|]. intro r. apply f_ret. intros s (Hs & Fo & Ln).
    split; [exact Hs|]. split; [now constructor|]. cbn. congruence.
Qed.
Lemma f_alloc size count (P : vm -> Prop) : 0 < size ->
  goodf P (alloc_array size count) (fun _ s => P s /\ count < INVALID / size) F.
Proof.
  intro Hs. unfold alloc_array. destruct (Z.leb_spec (INVALID / size) count).
  - intros b s B Hp. exact I.
  - apply f_ret. auto.
Qed.
End Fail.

(** A stack whose buffer matches its capacity, but which may be overfull. *)
Record kweak (k : stack) : Prop := {
  kk_len : zlen (k_vals k) = k_cap k;
  kk_mask : k_cap k = k_mask k + 1;
  kk_pow : pow2 (k_cap k);
  kk_size : 0 <= k_size k
}.
Lemma kwf_weak k : kwf k -> kweak k.
Proof. intros [A B C D]. split; auto. lia. Qed.
Lemma weak_kwf k : kweak k -> k_size k <= k_cap k -> kwf k.
Proof. intros [A B C D] E. split; auto. Qed.

(** The context numbered [i], as it was, but with another instruction pointer,
    stack and state. *)
Definition at_ctx (i : Z) (c0 : ctx) (K : stack -> Prop) (s : vm) : Prop :=
  exists c, znth (v_ctxs s) i = Some (Some c) /\ c_parent c = c_parent c0 /\ c_obj c = c_obj c0 /\ K (c_stack c).

Section Context.
Variable X : vm -> Prop.
Variable i : Z.
Variable c0 : ctx.
Hypothesis Xlive : forall s, X s -> live_ctx s (v_cur s).
Hypothesis Xerr : forall s e, X s -> X (set_errs (v_errs s ++ [e]) s).
Hypothesis Xctx : forall s c c', X s -> znth (v_ctxs s) i = Some (Some c) -> c_parent c' = c_parent c ->
  c_obj c' = c_obj c -> X (set_ctxs (zupd (v_ctxs s) i (Some c')) s).

Let XK K s := X s /\ at_ctx i c0 K s.

Lemma mod_ctx_run (K K' : stack -> Prop) f :
  (forall c, c_parent (f c) = c_parent c /\ c_obj (f c) = c_obj c) ->
  (forall c, K (c_stack c) -> K' (c_stack (f c))) ->
  forall s, XK K s -> exists a s', mod_ctx i f s = Ok (a, s') /\ XK K' s'.
Proof.
  intros Hf HK s [Hs (c & E & P & O & Kc)]. unfold mod_ctx. rewrite E. eexists _, _. split; [reflexivity|].
  destruct (Hf c) as [P' O']. split.
  - eapply Xctx; eauto.
  - exists (f c). vs. rewrite znth_zupd_same; [|eapply znth_some_range; exact E]. repeat split; auto; congruence.
Qed.

Lemma f_stack : goodf (XK kweak) (load_stack i) (fun _ => XK kwf) (XK kweak).
Proof.
  unfold load_stack. eapply f_bind; [apply f_r32; auto|]. intro n. apply f_and. intro Hn.
  eapply f_bind; [apply f_r32; auto|]. intro c. apply f_and. intro Hc.
  assert (Er : forall s, XK kweak s -> live_ctx s (v_cur s) /\ forall e, XK kweak (set_errs (v_errs s ++ [e]) s)).
  { intros s [Hs Hk]. split; [auto|]. intro l. split; [auto|exact Hk]. }
  apply f_if; [apply f_error; intros s [Hs _]; auto|]. apply f_and. intro H1.
  eapply f_bind; [apply f_get|]. intro m. cbn beta.
  apply f_if; [apply f_error; intros s [[Hs _] _]; auto|].
  apply f_if; [apply f_error; intros s [[[Hs _] _] _]; auto|].
  apply f_and. intro H2. apply f_and. intro H3.
  apply negb_false_iff in H1. apply Z.ltb_ge in H2. unfold is_u32 in Hn, Hc.
  apply is_pow2_spec in H1; [|lia].
  eapply f_bind; [apply f_alloc; lia|]. intros ?. apply f_and. intro H4.
  eapply f_bind with (R := fun _ => XK kweak).
  { apply f_vm. intros s [Hs _]. eapply mod_ctx_run with (K := kweak); [intro; split; reflexivity| |exact Hs].
    intros c' _. cs. split; cs; [rewrite zlen_repeat| | |]; auto; lia. }
  intros ?. apply f_if; [apply f_fail; intros s [Hs _]; exact Hs|]. apply f_and. intro H5. apply Z.ltb_ge in H5.
  eapply f_bind.
  { apply (f_times _ _ _ _ (fun _ => True)). intros b s B Hs.
    assert (G := f_value (XK kweak) (XK kweak) (fun s H => H) b s B Hs). destruct (rvalue b s) as [[| |]|]; tauto. }
  intro l. apply f_vm. intros s (Hs & _ & Ln).
  eapply mod_ctx_run with (K := kweak); [intro; split; reflexivity| |exact Hs].
  intros c' _. cs. split; cs; auto; [|lia|lia].
  rewrite zlen_app, zlen_repeat. unfold zlen. rewrite Ln. lia.
Qed.

Lemma f_context co : goodf (XK kweak) (load_context i co) (fun _ => XK kwf) (XK kweak).
Proof.
  unfold load_context. eapply f_bind; [apply f_r32; auto|]. intro p. apply f_and. intro Hp.
  eapply f_bind with (R := fun _ => XK kweak).
  { apply f_vm. intros s Hs. eapply mod_ctx_run; [intro; split; reflexivity| |exact Hs]. auto. }
  intros ?. eapply f_bind; [apply f_stack|]. intros ?. destruct co; [|apply f_ret; auto].
  assert (W : forall s, XK kwf s -> XK kweak s).
  { intros s [Hs (c & E & P & O & Kc)]. split; [exact Hs|]. exists c. repeat split; auto; apply (kwf_weak _ Kc). }
  eapply f_bind; [apply f_r32; exact W|]. intro t. apply f_vm. intros s [Hs _].
  eapply mod_ctx_run; [intro; split; reflexivity| |exact Hs]. auto.
Qed.
End Context.

(** The root context. *)
Lemma g_root (Y : vm -> Prop) : (forall s l, Y s -> Y (set_errs l s)) -> (forall s l, Y s -> Y (set_ctxs l s)) ->
  good (fun s => Y s /\ i_rootk s) (load_context 0 false) (fun _ s => Y s /\ i_rootk s).
Proof.
  intros Ye Yc b s B [Hs (C & c & E & P & O & K)].
  assert (G := f_context (fun s => Y s /\ i_root s) 0 c
    (fun s H => root_live s (proj2 H)) (fun s e H => conj (Ye s _ (proj1 H)) (proj2 H))).
  assert (G' := goodf_good _ _ _ _ (G ltac:(
    intros s1 d d' [H1 (C1 & e & E1 & P1 & O1)] Z1 P2 O2; split; [auto|]; rewrite E1 in *; injection Z1 as ->;
    split; [exact C1|]; exists d'; repeat split; congruence) false)).
  assert (Hp : (Y s /\ i_root s) /\ at_ctx 0 c kweak s).
  { split; [split; [exact Hs|]; split; eauto|]. exists c. rewrite E. repeat split; apply kwf_weak in K; apply K. }
  specialize (G' b s B Hp). destruct (load_context 0 false b s) as [[a b' s'|b' s'|]|u]; auto.
  destruct G' as [B' [[Y' (C' & c1 & E1 & P1 & O1)] (d & E2 & _ & _ & K2)]]. split; [exact B'|]. split; [exact Y'|].
  split; [exact C'|]. exists c1. rewrite E1 in E2. injection E2 as ->. auto.
Qed.

(** ** Strings *)

(** A string table that need not have room for another string or keep equal
    strings together. *)
Record str_pre (l : list (option nkstr)) (bh : list (list Z)) : Prop := {
  sp_len : zlen bh = STR_BUCKETS;
  sp_ent : forall i e, znth l i = Some (Some e) ->
             s_idx e = i /\ s_hash e = str_hash (s_str e) /\ is_text (s_str e) /\ is_u32 (s_gc e);
  sp_in : forall i e, znth l i = Some (Some e) ->
             exists c, znth bh (str_bucket (s_str e)) = Some c /\ In i c;
  sp_chain : forall b c i, znth bh b = Some c -> In i c ->
             exists e, znth l i = Some (Some e) /\ str_bucket (s_str e) = b;
  sp_nodup : forall b c, znth bh b = Some c -> NoDup c
}.

Lemma str_pre_add l bh i e c : str_pre l bh -> znth l i = Some None ->
  s_idx e = i -> s_hash e = str_hash (s_str e) -> is_text (s_str e) -> is_u32 (s_gc e) ->
  znth bh (str_bucket (s_str e)) = Some c ->
  str_pre (zupd l i (Some e)) (zupd bh (str_bucket (s_str e)) (i :: c)).
Proof.
  intros [H1 H2 H3 H4 H5] E I1 I2 I3 I4 C.
  assert (Ri := znth_some_range _ _ _ E). assert (Rb := znth_some_range _ _ _ C).
  split.
  - now rewrite zlen_zupd.
  - intros j f J. destruct (Z.eq_dec j i) as [->|N].
    + rewrite znth_zupd_same in J by lia. injection J as <-. auto.
    + rewrite znth_zupd_other in J by lia. auto.
  - intros j f J. destruct (Z.eq_dec j i) as [->|N].
    + rewrite znth_zupd_same in J by lia. injection J as <-. exists (i :: c).
      rewrite znth_zupd_same by lia. split; [reflexivity|now left].
    + rewrite znth_zupd_other in J by lia. destruct (H3 _ _ J) as (d & D & In1).
      destruct (Z.eq_dec (str_bucket (s_str f)) (str_bucket (s_str e))) as [Eb|Nb].
      * rewrite Eb in *. exists (i :: c). rewrite znth_zupd_same by lia. split; [reflexivity|right; congruence].
      * exists d. rewrite znth_zupd_other by lia. auto.
  - intros b d j D J. destruct (Z.eq_dec b (str_bucket (s_str e))) as [->|Nb].
    + rewrite znth_zupd_same in D by lia. injection D as <-. destruct J as [<-|J].
      * exists e. now rewrite znth_zupd_same by lia.
      * destruct (H4 _ _ _ C J) as (f & Fj & Bf). exists f. split; [|exact Bf].
        rewrite znth_zupd_other; [exact Fj|]. intro; subst j. congruence.
    + rewrite znth_zupd_other in D by lia. destruct (H4 _ _ _ D J) as (f & Fj & Bf). exists f. split; [|exact Bf].
      rewrite znth_zupd_other; [exact Fj|]. intro; subst j. congruence.
  - intros b d D. destruct (Z.eq_dec b (str_bucket (s_str e))) as [->|Nb].
    + rewrite znth_zupd_same in D by lia. injection D as <-. constructor; [|eauto].
      intro J. destruct (H4 _ _ _ C J) as (f & Fj & _). congruence.
    + rewrite znth_zupd_other in D by lia. eauto.
Qed.

Lemma str_pre_empty n : str_pre (repeat None n) (repeat [] (Z.to_nat STR_BUCKETS)).
Proof.
  assert (N : forall i e, znth (repeat (@None nkstr) n) i = Some (Some e) -> False).
  { intros i e H. assert (Q := znth_some_range _ _ _ H). rewrite zlen_repeat in Q. rewrite znth_repeat in H by lia. discriminate. }
  assert (K : forall b c, znth (repeat (@nil Z) (Z.to_nat STR_BUCKETS)) b = Some c -> c = []).
  { intros b c H. assert (Q := znth_some_range _ _ _ H). rewrite zlen_repeat in Q. rewrite znth_repeat in H by lia. congruence. }
  split.
  - rewrite zlen_repeat. reflexivity.
  - intros i e H. destruct (N _ _ H).
  - intros i e H. destruct (N _ _ H).
  - intros b c i H J. rewrite (K _ _ H) in J. destruct J.
  - intros b c H. rewrite (K _ _ H). constructor.
Qed.

(** A table whose list of holes is right. *)
Definition holes_ok {A} (t : table A) : Prop :=
  NoDup (t_holes t) /\ forall i, In i (t_holes t) <-> znth (t_slots t) i = Some None.
Lemma holes_rebuilt {A} (l : list (option A)) : holes_ok (mkT l (rev (empty_from 0 l))).
Proof.
  split; cbn [t_holes t_slots].
  - apply NoDup_rev, empty_from_NoDup.
  - intro i. rewrite <- in_rev. rewrite empty_from_In. rewrite Z.sub_0_r. split; [tauto|].
    intro H. split; [|exact H]. apply znth_some_range in H. lia.
Qed.

Definition i_strs (s : vm) : Prop :=
  str_pre (t_slots (v_strs s)) (v_byhash s) /\ holes_ok (v_strs s) /\ (t_cap (v_strs s) = 0 \/ pow2 (t_cap (v_strs s))).

Section Strings.
Variable X : vm -> Prop.
Hypothesis Xlive : forall s, X s -> live_ctx s (v_cur s).
Hypothesis Xstrs : forall s t, X s -> X (set_strs t s).
Hypothesis Xhash : forall s t, X s -> X (set_byhash t s).

Definition loading_strs (c : Z) (s : vm) : Prop :=
  X s /\ str_pre (t_slots (v_strs s)) (v_byhash s) /\ t_cap (v_strs s) = c.

Lemma g_string_entry c : good (loading_strs c) load_string_entry (fun _ => loading_strs c).
Proof.
  assert (Lv : forall s, loading_strs c s -> live_ctx s (v_cur s)) by (intros s [H _]; auto).
  unfold load_string_entry. eapply g_bind; [apply g_r32|]. intro i. apply g_and. intro Hi.
  eapply g_bind; [apply g_get|]. intro s0. cbn beta.
  apply g_if; [apply g_error; intros s [[Hs _] _]; auto|].
  eapply g_bind; [apply g_string; intros s [[Hs _] _]; auto|]. intro t. apply g_and. intro Ht.
  apply g_if; [apply g_error; intros s [[[Hs _] _] _]; auto|].
  eapply g_bind.
  { apply g_lift. intros s [[[[_ [_ Hc]] E] C] _]. apply rd_ok. subst s0. unfold t_cap in *. unfold is_u32 in *. lia. }
  intro old. destruct old as [e|]; [apply g_error; intros s [[[[Hs _] _] _] _]; auto|].
  unfold set_str_slot.
  eapply g_bind with (R := fun _ s => X s /\ exists l0, znth l0 i = Some None /\
    str_pre l0 (v_byhash s) /\ zlen l0 = c /\ t_slots (v_strs s) = zupd l0 i (Some (mkS 0 0 false 0 t))).
  { eapply g_bind; [apply g_get|]. intro s1. cbn beta. eapply g_bind.
    { apply g_lift. intros s [[[[[[_ [_ Hc]] E] C] _] _] E1]. subst s1. unfold wr.
      destruct (znth_in_range (t_slots (v_strs s)) i) as [a ->]; [|eauto].
      subst s0. unfold t_cap, is_u32 in *. lia. }
    intro l. apply g_mod. intros s [[[[[[[Hs [Hp Hc]] E] C] _] R] E1] W]. subst s1 s0.
    apply wr_inv in W. destruct W as [-> _]. apply rd_inv in R. split; [auto|].
    exists (t_slots (v_strs s)). vs. cbn [t_slots]. auto. }
  intros ?. eapply g_bind; [apply g_r32|]. intro g. apply g_and. intro Hg.
  eapply g_bind; [apply g_r8|]. intro k.
  eapply g_bind with (R := fun _ s => X s /\ exists l0, znth l0 i = Some None /\
    str_pre l0 (v_byhash s) /\ zlen l0 = c /\
    t_slots (v_strs s) = zupd l0 i (Some (mkS i g (negb (k =? 0)) (str_hash t) t))).
  { eapply g_bind; [apply g_get|]. intro s1. cbn beta. eapply g_bind.
    { apply g_lift. intros s [[Hs (l0 & N & Hp & Hc & Hl)] E1]. subst s1. unfold wr. rewrite Hl.
      destruct (znth_in_range (zupd l0 i (Some (mkS 0 0 false 0 t))) i) as [aa ->]; [|eauto].
      rewrite zlen_zupd. eapply znth_some_range; exact N. }
    intro l. apply g_mod. intros s [[[Hs (l0 & N & Hp & Hc & Hl)] E1] W]. subst s1.
    apply wr_inv in W. destruct W as [-> _]. split; [auto|].
    exists l0. vs. cbn [t_slots]. rewrite Hl, zupd_zupd. auto. }
  intros ?. eapply g_bind; [apply g_get|]. intro s1. cbn beta.
  set (bk := Z.land (str_hash t) (STR_BUCKETS - 1)).
  assert (Rb : 0 <= bk < STR_BUCKETS) by apply str_bucket_range.
  eapply g_bind.
  { apply g_lift. intros s [[Hs (l0 & N & Hp & Hc & Hl)] E1]. subst s1. apply rd_ok. rewrite (sp_len _ _ Hp). exact Rb. }
  intro ch. eapply g_bind.
  { apply g_lift. intros s [[[Hs (l0 & N & Hp & Hc & Hl)] E1] R]. subst s1. eexists. apply wr_ok. rewrite (sp_len _ _ Hp). exact Rb. }
  intro h. apply g_mod. intros s [[[[Hs (l0 & N & Hp & Hc & Hl)] E1] R] W]. subst s1. apply rd_inv in R.
  apply wr_inv in W. destruct W as [-> _]. split; [auto|]. vs. split.
  - rewrite Hl. apply (str_pre_add l0 (v_byhash s) i (mkS i g (negb (k =? 0)) (str_hash t) t) ch); auto.
  - unfold t_cap. rewrite Hl, zlen_zupd. exact Hc.
Qed.

Lemma g_strings : good X load_strings (fun _ s => X s /\ i_strs s).
Proof.
  unfold load_strings. eapply g_bind; [apply g_r32|]. intro c. apply g_and. intro Hc.
  eapply g_bind with (R := fun _ s => X s /\ v_byhash s = repeat [] (Z.to_nat STR_BUCKETS)).
  { apply g_mod. intros s Hs. split; auto. }
  intros ?. apply g_if; [apply g_error; intros s [[Hs _] _]; auto|]. apply g_and. intro H1.
  eapply g_bind; [apply g_alloc; lia|]. intros ?. apply g_and. intro H2.
  eapply g_bind with (R := fun _ => loading_strs c).
  { apply g_mod. intros s [Hs Eb]. split; [auto|]. vs. cbn [t_slots]. rewrite Eb. split; [apply str_pre_empty|].
    unfold t_cap. cbn [t_slots]. rewrite zlen_repeat. unfold is_u32 in Hc. lia. }
  intros ?. apply g_if; [apply g_error; intros s [[Hs _] _]; auto|]. apply g_and. intro H3.
  eapply g_bind; [apply g_r32|]. intro n. apply g_and. intro Hn.
  eapply g_bind; [apply g_times_inv, g_string_entry|]. intros ?.
  apply g_mod. intros s (Hs & Hp & Ec). split; [auto|]. unfold i_strs. vs. cbn [t_slots]. split; [exact Hp|].
  split; [apply holes_rebuilt|]. unfold t_cap in *. cbn [t_slots]. rewrite Ec. unfold is_u32 in Hc.
  apply negb_false_iff in H3. destruct (Z.eq_dec c 0); [now left|right]. apply is_pow2_spec; [lia|exact H3].
Qed.
End Strings.

(** ** The collector's state *)
Definition i_gc (s : vm) : Prop := is_u32 (v_gcpass s).
Lemma g_gc (X : vm -> Prop) : (forall s g, X s -> X (set_gcpass g s)) -> (forall s g, X s -> X (set_gcint g s)) ->
  (forall s g, X s -> X (set_gccount g s)) -> (forall s g, X s -> X (set_newint g s)) ->
  (forall s g, X s -> X (set_newcount g s)) -> good X load_gc (fun _ s => X s /\ i_gc s).
Proof.
  intros X1 X2 X3 X4 X5. unfold load_gc.
  eapply g_bind; [apply g_r32|]. intro p. apply g_and. intro Hp.
  eapply g_bind with (R := fun _ s => X s /\ i_gc s); [apply g_mod; split; auto|]. intros ?.
  eapply g_bind; [apply g_r32|]. intro i. eapply g_bind with (R := fun _ s => X s /\ i_gc s);
    [apply g_mod; intros s [[Hs Hg] _]; split; auto|]. intros ?.
  eapply g_bind; [apply g_r32|]. intro c. eapply g_bind with (R := fun _ s => X s /\ i_gc s);
    [apply g_mod; intros s [[Hs Hg] _]; split; auto|]. intros ?.
  eapply g_bind; [apply g_r32|]. intro n. eapply g_bind with (R := fun _ s => X s /\ i_gc s);
    [apply g_mod; intros s [[Hs Hg] _]; split; auto|]. intros ?.
  eapply g_bind; [apply g_r32|]. intro m. apply g_mod. intros s [[Hs Hg] _]. split; auto.
Qed.

(** ** Functions *)
(** The argument checks of host functions are well-formed. *)
Definition shaped (l : list extfunc) : Prop :=
  forall j xf, znth l j = Some xf -> x_argc xf <> INVALID -> zlen (x_types xf) = x_argc xf.
Definition i_ext (s : vm) : Prop := shaped (v_extfuncs s).

Lemma shaped_cons x l : shaped (x :: l) <-> (x_argc x <> INVALID -> zlen (x_types x) = x_argc x) /\ shaped l.
Proof.
  split.
  - intro H. split; [apply (H 0); apply znth_cons_0|]. intros j xf J. assert (R := znth_some_range _ _ _ J).
    apply (H (j + 1)). rewrite znth_cons_S by lia. now replace (j + 1 - 1) with j by lia.
  - intros [H K] j xf J. assert (R := znth_some_range _ _ _ J). destruct (Z.eq_dec j 0) as [->|N].
    + rewrite znth_cons_0 in J. injection J as <-. exact H.
    + rewrite znth_cons_S in J by lia. eauto.
Qed.
Lemma match_name_shaped l n id : forall p l' q, match_name l n id p = (l', q) -> shaped l -> shaped l'.
Proof.
  induction l as [|x l IH]; intros p l' q H Sh; cbn [match_name] in H; [injection H as <- _; exact Sh|].
  apply shaped_cons in Sh. destruct Sh as [S1 S2]. destruct (bytes_eqb n (x_name x)).
  - injection H as <- _. apply shaped_cons. auto.
  - destruct (match_name l n id (p + 1)) as [r k] eqn:E. injection H as <- _. apply shaped_cons. split; [exact S1|]. eauto.
Qed.

Lemma g_functions (X : vm -> Prop) : (forall s, X s -> live_ctx s (v_cur s)) ->
  (forall s l, X s -> X (set_extfuncs l s)) -> (forall s l, X s -> X (set_funcs l s)) ->
  good (fun s => X s /\ i_ext s) load_functions (fun _ s => X s /\ i_ext s).
Proof.
  intros Lv X1 X2. unfold load_functions. eapply g_bind; [apply g_r32|]. intro n. apply g_and. intro Hn.
  eapply g_bind; [apply g_alloc; lia|]. intros ?. apply g_and. intro H1.
  eapply g_bind.
  { apply (g_times _ _ _ (fun _ => True)). unfold load_extfunc.
    eapply g_bind; [apply g_r32|]. intro id. apply g_and. intros ?.
    eapply g_bind; [apply g_string; intros s [Hs _]; auto|]. intro name. apply g_and. intros ?.
    eapply g_bind; [apply g_get|]. intro l. cbn beta. destruct (match_name l name id 0) as [l' p] eqn:E.
    eapply g_bind with (R := fun _ s => X s /\ i_ext s).
    - apply g_mod. intros s [[Hs He] ->]. split; [auto|]. exact (match_name_shaped _ _ _ _ _ _ E He).
    - intros ?. apply g_ret. auto. }
  intro map. apply g_pre with (P' := fun s => (X s /\ i_ext s) /\ zlen map = n);
    [|intros s (Hs & _ & Ln); split; [exact Hs|]; unfold zlen; rewrite Ln; unfold is_u32 in Hn; lia].
  apply g_and. intro Ln.
  eapply g_bind; [apply g_r32|]. intro m. apply g_and. intro Hm. unfold is_u32 in Hm.
  eapply g_bind; [apply g_alloc; lia|]. intros ?. apply g_and. intro H2.
  apply g_if; [apply g_fail|]. apply g_and. intro H3.
  eapply g_bind with (R := fun _ s => (X s /\ i_ext s) /\ zlen (v_funcs s) = m).
  { apply g_mod. intros s [Hs He]. split; [split; auto|]. vs. rewrite zlen_repeat. lia. }
  intros ?. eapply g_post.
  - apply (g_each (Z.to_nat m) (load_function map) (fun _ s => (X s /\ i_ext s) /\ zlen (v_funcs s) = m)).
    intros j Hj. unfold load_function.
    eapply g_bind; [apply g_r32|]. intro ac. apply g_and. intros ?.
    eapply g_bind; [apply g_r32|]. intro f. apply g_and. intros ?.
    eapply g_bind; [apply g_r32|]. intro e. apply g_and. intro He.
    assert (Gp : forall f0, good (fun s => (X s /\ i_ext s) /\ zlen (v_funcs s) = m) (put_function j f0)
                   (fun _ s => (X s /\ i_ext s) /\ zlen (v_funcs s) = m)).
    { intro f0. unfold put_function. eapply g_bind; [apply g_get|]. intro t. cbn beta. eapply g_bind.
      - apply g_lift. intros s [[_ Lf] ->]. eexists. apply wr_ok. rewrite Lf. lia.
      - intro t'. apply g_mod. intros s [[[[Hs Hx] Lf] ->] W]. apply wr_inv in W. destruct W as [-> _].
        split; [split; auto|]. vs. now rewrite zlen_zupd. }
    apply g_if; [eapply g_pre; [apply Gp|intros s [Hs _]; exact Hs]|]. apply g_and. intros ?.
    apply g_if.
    + apply g_and. intro Hlt. eapply g_bind.
      { apply g_lift. intros s ?. apply rd_ok. unfold is_u32 in He. lia. }
      intro e'. apply g_and. intros ?. eapply g_bind; [apply Gp|]. intros ?. apply g_if.
      * apply g_error. intros s [[[Hs _] _] _]. auto.
      * apply g_ret. intros s [Hs _]. exact Hs.
    + apply g_and. intros ?. eapply g_bind; [apply Gp|]. intros ?. apply g_error. intros s [[Hs _] _]. auto.
  - intros ? s [Hs _]. exact Hs.
Qed.

(** ** Objects *)

(** An object; [ex]: its element count is exact. *)
Record opre (ex : Prop) (i : Z) (o : nkobj) : Prop := {
  op_idx : o_idx o = i;
  op_len : zlen (o_buckets o) = OBJ_BUCKETS;
  op_size : ex -> o_size o = zlen (concat (o_buckets o));
  op_max : 0 <= o_size o < W32;
  op_gc : is_u32 (o_gc o);
  op_hnd : is_u32 (o_handles o);
  op_ext : is_u32 (o_ext o)
}.

(** All objects; [D] what is known of their external data. *)
Definition objs_pre (D : Z -> nkobj -> Prop) (s : vm) : Prop :=
  (forall i o, get_obj s i = Some o -> opre (has_errors s = false) i o /\ D i o) /\
  NoDup (v_hlist s) /\
  (forall i, In i (v_hlist s) <-> exists o, get_obj s i = Some o /\ o_handles o <> 0).

Lemma opre_weaken (e e' : Prop) i o : (e' -> e) -> opre e i o -> opre e' i o.
Proof. intros H [A B C D E F G]. split; auto. Qed.
Lemma has_errors_more es s : has_errors (set_errs (v_errs s ++ es) s) = false -> has_errors s = false.
Proof. unfold has_errors. vs. destruct (v_errs s); [auto|]. discriminate. Qed.
Lemma objs_pre_errs D es s : objs_pre D s -> objs_pre D (set_errs (v_errs s ++ es) s).
Proof.
  intros (H & N & K). split; [|split; [exact N|exact K]]. intros i o G. destruct (H i o G) as [O Dd].
  split; [|exact Dd]. eapply opre_weaken; [|exact O]. apply has_errors_more.
Qed.

Lemma get_put s i o o' j : get_obj s i = Some o -> get_obj (put_obj i o' s) j = if j =? i then Some o' else get_obj s j.
Proof.
  unfold get_obj, put_obj. vs. rewrite !tab_get_znth. cbn [t_slots]. intro H.
  assert (E : znth (t_slots (v_objs s)) i = Some (Some o)) by (destruct (znth _ i) as [[|]|]; congruence).
  assert (R := znth_some_range _ _ _ E). destruct (Z.eqb_spec j i) as [->|N].
  - now rewrite znth_zupd_same by lia.
  - now rewrite znth_zupd_other by lia.
Qed.
Lemma cap_put s i o : t_cap (v_objs (put_obj i o s)) = t_cap (v_objs s).
Proof. unfold put_obj, t_cap. vs. cbn [t_slots]. apply zlen_zupd. Qed.

(** Replacing an object by one with the same handles. *)
Lemma objs_pre_put (D D' : Z -> nkobj -> Prop) s i o o' : objs_pre D s -> get_obj s i = Some o ->
  opre (has_errors s = false) i o' -> o_handles o' = o_handles o -> D' i o' ->
  (forall j p, j <> i -> get_obj s j = Some p -> D j p -> D' j p) -> objs_pre D' (put_obj i o' s).
Proof.
  intros (H & N & K) G O Eh Di Do. split; [|split].
  - intros j p. rewrite (get_put s i o o' j G). destruct (Z.eqb_spec j i) as [->|Nj].
    + intro Q. injection Q as <-. auto.
    + intro Q. destruct (H _ _ Q). split; eauto.
  - exact N.
  - intro j. change (v_hlist (put_obj i o' s)) with (v_hlist s). rewrite K. split; intros (p & P & Hp).
    + rewrite (get_put s i o o' j G). destruct (Z.eqb_spec j i) as [->|Nj]; [|eauto].
      exists o'. split; [reflexivity|]. congruence.
    + rewrite (get_put s i o o' j G) in P. destruct (Z.eqb_spec j i) as [->|Nj]; [|eauto].
      injection P as <-. exists o. split; [exact G|]. congruence.
Qed.

Section Objects.
Variable X : vm -> Prop.
Hypothesis Xlive : forall s, X s -> live_ctx s (v_cur s).
Hypothesis Xerr : forall s l, X s -> X (set_errs l s).
Hypothesis Xobjs : forall s t, X s -> X (set_objs t s).
Hypothesis Xhl : forall s l, X s -> X (set_hlist l s).

Let no_data : Z -> nkobj -> Prop := fun _ o => o_data o = None.
Definition loading_objs (c : Z) (s : vm) : Prop := X s /\ t_cap (v_objs s) = c /\ objs_pre no_data s.
Definition with_obj (c i : Z) (s : vm) : Prop := loading_objs c s /\ exists o, get_obj s i = Some o.

(** The element found or added. *)
Lemma find_add_run c i key s : with_obj c i s -> exists r s', find_or_add_entry i key false s = Ok (r, s') /\
  with_obj c i s' /\
  forall q, r = Some q -> exists o ch kv, get_obj s' i = Some o /\ znth (o_buckets o) (fst q) = Some ch /\
    znth ch (snd q) = Some kv.
Proof.
  intros [(HX & Hc & HO) (o & G)]. pose proof HO as (Hob & HN & HK). destruct (Hob i o G) as [Op Dn].
  destruct (znth_in_range (o_buckets o) (key_bucket s key)) as [ch Hch].
  { rewrite (op_len _ _ _ Op). apply key_bucket_range. }
  destruct (find_key_run key ch s 0 (Xlive s HX)) as (r & es & E & R).
  unfold find_or_add_entry. unfold mbind at 1, gets. rewrite (bind_run _ _ _ _ _ (rd_obj_ok _ _ _ G)).
  unfold mbind at 1, lift at 1, rd at 1. rewrite Hch. rewrite (bind_run _ _ _ _ _ E).
  set (s1 := set_errs (v_errs s ++ es) s) in *.
  assert (H1 : objs_pre no_data s1) by (apply objs_pre_errs; exact HO).
  assert (X1 : X s1) by (apply Xerr; exact HX).
  assert (G1 : get_obj s1 i = Some o) by exact G.
  destruct r as [p|].
  - eexists _, s1. split; [reflexivity|]. split; [split; [split; [exact X1|split; [exact Hc|exact H1]]|eauto]|].
    intros q Q. injection Q as <-. cbn [fst snd]. destruct (R p eq_refl) as [R1 R2].
    destruct (znth_in_range ch p) as [kv Kv]; [lia|]. eauto 8.
  - cbv zeta. set (o1 := set_o_buckets _ o).
    assert (Ln : zlen (concat (o_buckets o1)) = zlen (concat (o_buckets o)) + 1).
    { unfold o1. os. rewrite (concat_zupd _ _ ch) by exact Hch. rewrite zlen_cons. lia. }
    assert (Ob1 : opre (has_errors s1 = false) i o) by (apply (proj1 H1 i o G1)).
    destruct ((u32 (o_size o + 1) =? 0) || (v_maxfields s <? u32 (o_size o + 1))) eqn:Lim.
    + assert (Sz : u32 (u32 (o_size o + 1) - 1) = o_size o).
      { destruct Ob1 as [_ _ _ M _ _ _]. unfold u32, W32 in *. lia. }
      rewrite (bind_run _ _ _ _ _ (wr_obj_ok _ _ _ _ G1)). rewrite Sz.
      set (s2 := put_obj i _ s1).
      assert (Lv2 : live_ctx s2 (v_cur s2)) by (apply Xlive, Xobjs; exact X1).
      destruct (add_error_ok s2 (bs "Reached object field count limit.") Lv2) as (e & Ee).
      rewrite (bind_run _ _ _ _ _ Ee). eexists _, _. split; [reflexivity|]. split; [|discriminate].
      assert (G2 : forall j, get_obj s2 j = if j =? i then Some (set_o_size (o_size o) o1) else get_obj s1 j)
        by (intro j; apply (get_put s1 i o _ j G1)).
      split; [split; [|split]|].
      * apply Xerr, Xobjs. exact X1.
      * change (t_cap (v_objs s2) = c). unfold s2. rewrite cap_put. exact Hc.
      * destruct H1 as (H1a & H1b & H1c). split; [|split; [exact H1b|]].
        -- intros j p Q. change (get_obj s2 j = Some p) in Q. rewrite G2 in Q. destruct (Z.eqb_spec j i) as [->|Nj].
           ++ injection Q as <-. split; [|exact Dn].
              destruct Ob1 as [A1 A2 A3 A4 A5 A6 A7]. split; auto.
              ** unfold o1. os. now rewrite zlen_zupd.
              ** intro Er. rewrite has_errors_app in Er. discriminate.
           ++ destruct (H1a j p Q) as [P1 P2]. split; [|exact P2]. eapply opre_weaken; [|exact P1].
              intro Er. rewrite has_errors_app in Er. discriminate.
        -- intro j. change (v_hlist _) with (v_hlist s1). rewrite H1c. split; intros (p & P & Hp).
           ++ change (exists o0, get_obj s2 j = Some o0 /\ o_handles o0 <> 0). rewrite G2.
              destruct (Z.eqb_spec j i) as [->|Nj]; [|eauto]. eexists. split; [reflexivity|]. unfold o1. os. congruence.
           ++ change (get_obj s2 j = Some p) in P. rewrite G2 in P. destruct (Z.eqb_spec j i) as [->|Nj]; [|eauto].
              injection P as <-. exists o. split; [exact G1|exact Hp].
      * exists (set_o_size (o_size o) o1). change (get_obj s2 i = Some (set_o_size (o_size o) o1)).
        rewrite G2, Z.eqb_refl. reflexivity.
    + apply orb_false_iff in Lim. destruct Lim as [L1 _].
      assert (Sz : u32 (o_size o + 1) = o_size o + 1 /\ o_size o + 1 < W32).
      { destruct Ob1 as [_ _ _ M _ _ _]. apply Z.eqb_neq in L1. unfold u32, W32 in *. lia. }
      destruct Sz as [Sz Sm]. rewrite (bind_run _ _ _ _ _ (wr_obj_ok _ _ _ _ G1)). rewrite Sz.
      eexists _, _. split; [reflexivity|].
      assert (G2 : get_obj (put_obj i (set_o_size (o_size o + 1) o1) s1) i = Some (set_o_size (o_size o + 1) o1))
        by (rewrite (get_put s1 i o _ i G1), Z.eqb_refl; reflexivity).
      split; [split; [split; [|split]|]|].
      * apply Xobjs. exact X1.
      * rewrite cap_put. exact Hc.
      * eapply objs_pre_put; [exact H1|exact G1| |reflexivity|exact Dn|auto].
        destruct Ob1 as [A1 A2 A3 A4 A5 A6 A7]. split; os; auto; [unfold o1; os; now rewrite zlen_zupd| |lia].
        intro Er. unfold o1 in Ln |- *. os. osin Ln. rewrite Ln, (A3 Er). reflexivity.
      * eauto.
      * intros q Q. injection Q as <-. cbn [fst snd]. eexists _, _, _. split; [exact G2|].
        unfold o1. os. rewrite znth_zupd_same by (eapply znth_some_range; exact Hch).
        split; [reflexivity|apply znth_cons_0].
Qed.

Lemma g_element c i : good (with_obj c i) (load_element i) (fun _ => with_obj c i).
Proof.
  unfold load_element. eapply g_bind; [apply g_value|]. intro k. apply g_and. intro Hk.
  eapply g_bind; [apply g_vm; intros s Hs; apply (find_add_run c i k s Hs)|]. cbn beta. intros [q|].
  - eapply g_bind; [apply g_value|]. intro v. apply g_vm. intros s [[[(HX & Hc & HO) _] Hq] _].
    destruct (Hq q eq_refl) as (o & ch & kv & G & C & K). unfold el_set.
    rewrite (bind_run _ _ _ _ _ (rd_obj_ok _ _ _ G)). unfold mbind at 1, lift, rd. rewrite C.
    unfold mbind at 1, lift, rd. rewrite K. rewrite (wr_obj_ok _ _ _ _ G). eexists _, _. split; [reflexivity|].
    destruct (proj1 HO i o G) as [[A1 A2 A3 A4 A5 A6 A7] Dn]. split; [split; [|split]|].
    + apply Xobjs, HX.
    + rewrite cap_put. exact Hc.
    + eapply objs_pre_put; [exact HO|exact G| |reflexivity|exact Dn|auto].
      split; os; auto; [now rewrite zlen_zupd|]. intro Er. rewrite (concat_zupd _ _ ch) by exact C.
      rewrite zlen_zupd, (A3 Er). lia.
    + eexists. rewrite (get_put s i o _ i G), Z.eqb_refl. reflexivity.
  - apply g_ret. intros s [Hs _]. exact Hs.
Qed.

(** While the fixed part of object [i] is read: the object is [o], and it is in
    the list of objects with handles if [h]. *)
Definition stage (c i : Z) (o : nkobj) (h : bool) (s : vm) : Prop :=
  X s /\ t_cap (v_objs s) = c /\ get_obj s i = Some o /\
  (forall j p, j <> i -> get_obj s j = Some p -> opre (has_errors s = false) j p /\ no_data j p) /\
  NoDup (v_hlist s) /\ (In i (v_hlist s) <-> h = true) /\
  (forall j, j <> i -> In j (v_hlist s) <-> exists p, get_obj s j = Some p /\ o_handles p <> 0).

Lemma g_stage c i o h f : good (stage c i o h) (lvm (mod_obj i f)) (fun _ => stage c i (f o) h).
Proof.
  apply g_vm. intros s (HX & Hc & G & Ho & N & Hi & Hl). unfold mod_obj.
  rewrite (bind_run _ _ _ _ _ (rd_obj_ok _ _ _ G)). rewrite (wr_obj_ok _ _ _ _ G). eexists _, _. split; [reflexivity|].
  assert (G2 : forall j, get_obj (put_obj i (f o) s) j = if j =? i then Some (f o) else get_obj s j)
    by (intro j; apply (get_put s i o _ j G)).
  split; [apply Xobjs, HX|]. split; [rewrite cap_put; exact Hc|]. split; [rewrite G2, Z.eqb_refl; reflexivity|].
  split; [|split; [exact N|split; [exact Hi|]]].
  - intros j p Nj. rewrite G2. destruct (Z.eqb_spec j i); [contradiction|]. apply Ho. exact Nj.
  - intros j Nj. rewrite G2. destruct (Z.eqb_spec j i); [contradiction|]. apply Hl. exact Nj.
Qed.

Lemma g_object c i : good (stage c i (new_obj i) false) (load_object i) (fun _ => loading_objs c).
Proof.
  unfold load_object. eapply g_bind; [apply g_r32|]. intro n. apply g_and. intro Hn.
  eapply g_bind; [apply g_stage|]. intros ?.
  eapply g_bind; [apply g_r32|]. intro h. apply g_and. intro Hh.
  eapply g_bind; [apply g_stage|]. intros ?.
  set (o2 := set_o_handles h (set_o_size n (new_obj i))).
  eapply g_bind with (R := fun _ => stage c i o2 (negb (h =? 0))).
  { apply g_if.
    - apply g_and. intro E. rewrite E. apply g_ret. auto.
    - apply g_and. intro E. rewrite E. apply g_mod. intros s (HX & Hc & G & Ho & N & Hi & Hl).
      split; [apply Xhl, HX|]. split; [exact Hc|]. split; [exact G|]. split; [exact Ho|]. vs. split; [|split].
      + constructor; [|exact N]. rewrite Hi. discriminate.
      + split; [reflexivity|now left].
      + intros j Nj. change (get_obj (set_hlist (i :: v_hlist s) s) j) with (get_obj s j).
        rewrite <- (Hl j Nj). cbn [In]. intuition congruence. }
  intros ?. eapply g_bind; [apply g_r32|]. intro g. apply g_and. intro Hg.
  eapply g_bind; [apply g_stage|]. intros ?. eapply g_bind; [apply g_r32|]. intro t. apply g_and. intro Ht.
  eapply g_bind; [apply g_stage|]. intros ?. eapply g_bind; [apply g_stage|]. intros ?.
  eapply g_bind with (R := fun _ => with_obj c i); [|intros ?; apply g_ret; intros s [Hs _]; exact Hs].
  eapply g_pre; [apply g_times_inv, g_element|].
  intros s (HX & Hc & G & Ho & N & Hi & Hl).
  match type of G with _ = Some ?x => set (o3 := x) in * end.
  split; [|eauto]. split; [exact HX|]. split; [exact Hc|]. split; [|split; [exact N|]].
  - intros j p P. destruct (Z.eq_dec j i) as [->|Nj]; [|auto]. rewrite G in P. injection P as <-.
    split; [|reflexivity]. split; try reflexivity; try assumption.
    unfold W32. change (o_size o3) with 0. lia.
  - intro j. destruct (Z.eq_dec j i) as [->|Nj]; [|auto]. rewrite Hi. split.
    + intro E. exists o3. split; [exact G|]. change (h <> 0). destruct (Z.eqb_spec h 0); [discriminate|auto].
    + intros (p & P & Hp). rewrite G in P. injection P as <-. change (h <> 0) in Hp. destruct (Z.eqb_spec h 0); [contradiction|reflexivity].
Qed.

Lemma g_object_entry c : good (loading_objs c) load_object_entry (fun _ => loading_objs c).
Proof.
  unfold load_object_entry. eapply g_bind; [apply g_r32|]. intro i. apply g_and. intro Hi. unfold is_u32 in Hi.
  eapply g_bind; [apply g_get|]. intro s0. cbn beta.
  apply g_if; [apply g_error; intros s [[[Hs _] _] _]; auto|].
  eapply g_bind.
  { apply g_lift. intros s [[_ E] C]. apply rd_ok. subst s0. unfold t_cap in C. lia. }
  intro old. destruct old as [e|]; [apply g_error; intros s [[[[Hs _] _] _] _]; auto|].
  eapply g_bind.
  { apply g_lift. intros s [[[_ E] C] R]. eexists. apply wr_ok. subst s0. unfold t_cap in C. lia. }
  intro l. eapply g_bind with (R := fun _ => stage c i (new_obj i) false); [|intros ?; apply g_object].
  apply g_mod. intros s [[[[(HX & Hc & (Ho & N & Hl)) E] C] R] W]. subst s0.
  apply wr_inv in W. destruct W as [-> _]. apply rd_inv in R.
  assert (Ri := znth_some_range _ _ _ R).
  assert (G0 : get_obj s i = None) by (unfold get_obj; rewrite tab_get_znth, R; reflexivity).
  set (s1 := set_objs _ s).
  assert (G : forall j, get_obj s1 j = if j =? i then Some (new_obj i) else get_obj s j).
  { intro j. unfold get_obj, s1. vs. rewrite !tab_get_znth. cbn [t_slots]. destruct (Z.eqb_spec j i) as [->|Nj].
    - now rewrite znth_zupd_same by lia.
    - now rewrite znth_zupd_other by lia. }
  split; [apply Xobjs, HX|]. split; [unfold s1, t_cap; vs; cbn [t_slots]; rewrite zlen_zupd; exact Hc|].
  split; [rewrite G, Z.eqb_refl; reflexivity|]. split; [|split; [exact N|split]].
  - intros j p Nj. rewrite G. destruct (Z.eqb_spec j i); [contradiction|]. apply Ho.
  - change (v_hlist s1) with (v_hlist s). rewrite Hl. split; [|discriminate]. intros (p & P & _). congruence.
  - intros j Nj. rewrite G. destruct (Z.eqb_spec j i); [contradiction|]. apply Hl.
Qed.

Definition i_objs (D : Z -> nkobj -> Prop) (s : vm) : Prop :=
  objs_pre D s /\ holes_ok (v_objs s) /\ (t_cap (v_objs s) = 0 \/ pow2 (t_cap (v_objs s))).

Lemma g_objects : good (fun s => X s /\ v_hlist s = []) load_objects (fun _ s => X s /\ i_objs no_data s).
Proof.
  unfold load_objects. eapply g_bind; [apply g_r32|]. intro c. apply g_and. intro Hc. unfold is_u32 in Hc.
  apply g_if; [apply g_error; intros s [[Hs _] _]; auto|]. apply g_and. intro H1.
  eapply g_bind; [apply g_alloc; lia|]. intros ?. apply g_and. intro H2.
  eapply g_bind with (R := fun _ => loading_objs c).
  { apply g_mod. intros s [HX Hl]. split; [apply Xobjs, HX|].
    split; [unfold t_cap; vs; cbn [t_slots]; rewrite zlen_repeat; lia|].
    assert (N : forall i, get_obj (set_objs (mkT (repeat None (Z.to_nat c)) []) s) i = None).
    { intro i. unfold get_obj. vs. rewrite tab_get_znth. cbn [t_slots]. destruct (znth _ i) as [x|] eqn:E; [|reflexivity].
      assert (Q := znth_some_range _ _ _ E). rewrite zlen_repeat in Q. rewrite znth_repeat in E by lia. congruence. }
    split; [|split].
    - intros i o Q. rewrite N in Q. discriminate.
    - vs. rewrite Hl. constructor.
    - intro i. vs. rewrite Hl. split; [intros []|]. intros (o & Q & _). rewrite N in Q. discriminate. }
  intros ?. eapply g_bind; [apply g_r32|]. intro n. apply g_and. intro Hn.
  apply g_if; [apply g_error; intros s [[Hs _] _]; auto|]. apply g_and. intro H3.
  eapply g_bind; [apply g_times_inv, g_object_entry|]. intros ?.
  apply g_mod. intros s (HX & Ec & Ho). split; [apply Xobjs, HX|]. split; [|split].
  - exact Ho.
  - vs. apply holes_rebuilt.
  - vs. unfold t_cap in *. cbn [t_slots]. rewrite Ec. apply negb_false_iff in H1.
    destruct (Z.eq_dec c 0); [now left|right]. apply is_pow2_spec; [lia|exact H1].
Qed.
End Objects.

(** ** Globals, types, subsystems, source positions *)

Lemma g_globals (X : vm -> Prop) : (forall s, X s -> live_ctx s (v_cur s)) -> (forall s l, X s -> X (set_globals l s)) ->
  good X load_globals (fun _ => X).
Proof.
  intros Lv X1. unfold load_globals. eapply g_bind with (R := fun _ => X); [apply g_mod; auto|]. intros ?.
  eapply g_bind; [apply g_r32|]. intro n. apply g_and. intros ?.
  eapply g_bind; [apply g_alloc; lia|]. intros ?. apply g_and. intros ?.
  eapply g_bind; [apply g_times_inv|].
  - eapply g_bind; [apply g_string; exact Lv|]. intro t. apply g_and. intros ?.
    eapply g_bind; [apply g_r32|]. intro p. apply g_ret. intros s [Hs _]. exact Hs.
  - intro l. apply g_mod. auto.
Qed.

Lemma find_type_spec l name : forall pos i t, znth l i = Some t -> et_name t = name -> 
  (forall j u, znth l j = Some u -> et_name u = name -> j = i) -> find_type l name pos = pos + i.
Proof.
  induction l as [|t0 l IH]; intros pos i t H E U.
  - apply znth_some_range in H. unfold zlen in H. cbn in H. lia.
  - assert (R := znth_some_range _ _ _ H). cbn [find_type]. destruct (bytes_eqb (et_name t0) name) eqn:B.
    + apply bytes_eqb_eq in B. specialize (U 0 t0 (znth_cons_0 _ _) B). lia.
    + destruct (Z.eq_dec i 0) as [->|N].
      * rewrite znth_cons_0 in H. injection H as ->. rewrite E, bytes_eqb_refl in B. discriminate.
      * rewrite znth_cons_S in H by lia. rewrite (IH (pos + 1) (i - 1) t H E); [lia|].
        intros j u J Eu. assert (R2 := znth_some_range _ _ _ J).
        assert (j + 1 = i); [|lia]. apply (U (j + 1) u); [|exact Eu]. rewrite znth_cons_S by lia.
        now replace (j + 1 - 1) with j by lia.
Qed.

Lemma g_types (X : vm -> Prop) tys : (forall s, X s -> live_ctx s (v_cur s) /\ v_exttypes s = tys) ->
  unique et_name tys -> good X load_types (fun _ => X).
Proof.
  intros Lv U. unfold load_types. eapply g_bind; [apply g_r32|]. intro n. apply g_and. intro Hn. unfold is_u32 in Hn.
  eapply g_bind; [apply g_get|]. intro l. cbn beta.
  apply g_pre with (P' := fun s => X s /\ l = tys); [|intros s [Hs ->]; split; [exact Hs|apply (Lv s Hs)]].
  apply g_and. intros ->.
  apply g_if; [apply g_error; intros s [Hs _]; apply (Lv s Hs)|]. apply g_and. intro H1.
  apply negb_false_iff in H1. apply Z.eqb_eq in H1.
  eapply g_bind with (R := fun _ => X); [apply g_if; [apply g_fail|apply g_ret; intros s [Hs _]; exact Hs]|]. intros ?.
  eapply g_bind with (R := fun _ => X).
  { apply (g_each (Z.to_nat n) load_type (fun _ => X)). intros j Hj. unfold load_type.
    eapply g_bind; [apply g_get|]. intro l. cbn beta.
    apply g_pre with (P' := fun s => X s /\ l = tys); [|intros s [Hs ->]; split; [exact Hs|apply (Lv s Hs)]].
    apply g_and. intros ->. eapply g_bind; [apply g_string_in; intros s Hs; apply (Lv s Hs)|]. intro name.
    eapply g_bind; [apply g_lift; intros s Hs; apply rd_ok; lia|]. intro t. apply g_and. intro R. apply rd_inv in R.
    apply g_if; [apply g_error; intros s [Hs _]; apply (Lv s Hs)|]. apply g_and. intro H2.
    apply g_if; [apply g_error; intros s [Hs _]; apply (Lv s Hs)|]. apply g_and. intro H3.
    apply negb_false_iff in H2. apply bytes_eqb_eq in H2.
    rewrite (find_type_spec tys name 0 j t R (eq_sym H2)).
    - replace (0 + j =? j) with true by lia. cbn [negb]. apply g_ret. auto.
    - intros k u K E. apply (U k j u t K R). congruence. }
  intros ?. eapply g_bind; [apply g_get_any|]. intro s0.
  apply (g_each _ (check_type n) (fun _ => X)). intros j Hj. unfold check_type.
  eapply g_bind; [apply g_get_any|]. intro s1.
  destruct (get_obj s1 j) as [o|]; [|apply g_ret; auto]. apply g_if; [apply g_ret; intros s [Hs _]; exact Hs|apply g_fail].
Qed.

Lemma g_subsystems sub_load (X : vm -> Prop) :
  (forall s, X s -> live_ctx s (v_cur s) /\ zlen (v_subsys s) = 16) -> good X (load_subsystems sub_load) (fun _ => X).
Proof.
  intro Lv. unfold load_subsystems. eapply g_bind; [apply g_r32|]. intro n. apply g_and. intros ?.
  eapply g_bind; [|intros ?; apply g_ret; intros s Hs; exact Hs]. apply g_times_inv. unfold load_subsystem.
  eapply g_bind; [apply g_string; intros s Hs; apply (Lv s Hs)|]. intro name. apply g_and. intros ?.
  eapply g_bind; [apply g_get|]. intro s0. cbn beta.
  eapply g_bind; [apply g_lift; intros s [Hs ->]; apply rd_ok; rewrite (proj2 (Lv s Hs)); apply bucket_range|].
  intro l. apply g_pre with (P' := X); [|intros s [[Hs _] _]; exact Hs]. destruct (find_sub l name) as [x|].
  - destruct (sub_ser x); [|apply g_ret; auto]. intros b s B Hs. cbn. split; [now apply any_skipn|exact Hs].
  - apply g_error. intros s Hs. apply (Lv s Hs).
Qed.

Lemma g_files (X : vm -> Prop) : (forall s, X s -> live_ctx s (v_cur s)) -> (forall s l, X s -> X (set_files l s)) ->
  good X load_files (fun _ => X).
Proof.
  intros Lv X1. unfold load_files. eapply g_bind; [apply g_r32|]. intro n. apply g_and. intros ?.
  eapply g_bind with (R := fun _ => X); [apply g_mod; auto|]. intros ?.
  eapply g_bind; [apply g_alloc; lia|]. intros ?. apply g_and. intros ?.
  eapply g_bind; [apply g_times_inv; eapply g_post; [apply g_string; exact Lv|]; cbn beta; intros; tauto|].
  intro l. apply g_mod. auto.
Qed.
Lemma g_markers (X : vm -> Prop) : (forall s l, X s -> X (set_markers l s)) -> good X load_markers (fun _ => X).
Proof.
  intros X1. unfold load_markers. eapply g_bind; [apply g_r32|]. intro n. apply g_and. intros ?.
  eapply g_bind with (R := fun _ => X); [apply g_mod; auto|]. intros ?.
  eapply g_bind; [apply g_alloc; lia|]. intros ?. apply g_and. intros ?.
  eapply g_bind; [apply g_times_inv|intro l; apply g_mod; auto]. unfold rmarker.
  eapply g_bind; [apply g_r32|]. intro i. apply g_and. intros ?. eapply g_bind; [apply g_r32|]. intro f. apply g_and. intros ?.
  eapply g_bind; [apply g_r32|]. intro l. apply g_and. intros ?. eapply g_bind; [apply g_r32|]. intro ac.
  apply g_ret. intros s [Hs _]. exact Hs.
Qed.

(** ** External objects *)

(** The contexts when the objects below [j] have been completed; context [x]
    (0: none) is being made. *)
Record ctxs_pre (j x : Z) (s : vm) : Prop := {
  cp_cur : v_cur s = 0;
  cp_root : exists c, znth (v_ctxs s) 0 = Some (Some c) /\ c_obj c = vnil;
  cp_par : forall i c, znth (v_ctxs s) i = Some (Some c) -> c_parent c = None;
  cp_stk : forall i c, i <> x -> znth (v_ctxs s) i = Some (Some c) -> kweak (c_stack c);
  cp_fit : has_errors s = false -> forall i c, i <> x -> znth (v_ctxs s) i = Some (Some c) -> kwf (c_stack c);
  cp_rootk : forall c, znth (v_ctxs s) 0 = Some (Some c) -> kwf (c_stack c);
  cp_co1 : forall i c, i <> 0 -> i <> x -> znth (v_ctxs s) i = Some (Some c) ->
             exists id o, id < j /\ c_obj c = vobj id /\ get_obj s id = Some o /\
                          o_ext o = v_corotype s /\ o_data o = Some i;
  cp_co2 : forall id o, id < j -> get_obj s id = Some o -> o_ext o = v_corotype s ->
             exists i c, o_data o = Some i /\ i <> 0 /\ i <> x /\
                         znth (v_ctxs s) i = Some (Some c) /\ c_obj c = vobj id
}.

(** Objects from [j] on have no data yet. *)
Definition data_from (j : Z) (i : Z) (o : nkobj) : Prop := j <= i -> o_data o = None.

Lemma holes_put s i o o' : get_obj s i = Some o -> holes_ok (v_objs s) -> holes_ok (v_objs (put_obj i o' s)).
Proof.
  intros G [N H]. unfold put_obj. vs. split; cbn [t_holes t_slots]; [exact N|]. intro j. rewrite H.
  unfold get_obj in G. apply tab_get_some in G. assert (R := znth_some_range _ _ _ G).
  destruct (Z.eq_dec j i) as [->|Nj].
  - rewrite znth_zupd_same by lia. rewrite G. split; discriminate.
  - rewrite znth_zupd_other by lia. tauto.
Qed.

Lemma i_objs_errs D es s : i_objs D s -> i_objs D (set_errs (v_errs s ++ es) s).
Proof. intros (H & K). split; [apply objs_pre_errs; exact H|exact K]. Qed.
Lemma i_objs_put (D D' : Z -> nkobj -> Prop) s i o o' : i_objs D s -> get_obj s i = Some o ->
  o_idx o' = o_idx o -> o_buckets o' = o_buckets o -> o_size o' = o_size o -> o_gc o' = o_gc o ->
  o_handles o' = o_handles o -> is_u32 (o_ext o') -> D' i o' ->
  (forall j p, j <> i -> get_obj s j = Some p -> D j p -> D' j p) -> i_objs D' (put_obj i o' s).
Proof.
  intros (H & K & C) G E1 E2 E3 E4 E5 E6 Di Do. split; [|split].
  - eapply objs_pre_put; eauto. destruct (proj1 H i o G) as [[A1 A2 A3 A4 A5 A6 A7] _].
    split; rewrite ?E1, ?E2, ?E3, ?E4, ?E5; auto.
  - eapply holes_put; eauto.
  - rewrite cap_put. exact C.
Qed.
Lemma i_objs_weaken (D D' : Z -> nkobj -> Prop) s : (forall i o, get_obj s i = Some o -> D i o -> D' i o) ->
  i_objs D s -> i_objs D' s.
Proof.
  intros H ((K & R) & C). split; [|exact C]. split; [|exact R]. intros i o G. destruct (K i o G). split; auto.
Qed.
Lemma ctxs_pre_errs j x es s : ctxs_pre j x s -> ctxs_pre j x (set_errs (v_errs s ++ es) s).
Proof.
  intros [A B C D E F G H]. split; auto. intro Er. apply has_errors_more in Er. exact (E Er).
Qed.

Lemma zupd_cases x s c c' : znth (v_ctxs s) x = Some c ->
  (forall i d, znth (zupd (v_ctxs s) x (Some c')) i = Some (Some d) ->
    (i = x /\ d = c') \/ (i <> x /\ znth (v_ctxs s) i = Some (Some d))) /\
  (forall i, i <> x -> znth (zupd (v_ctxs s) x (Some c')) i = znth (v_ctxs s) i) /\
  znth (zupd (v_ctxs s) x (Some c')) x = Some (Some c').
Proof.
  intro Z. assert (R := znth_some_range _ _ _ Z). split; [|split].
  - intros i d. destruct (Z.eq_dec i x) as [->|N].
    + rewrite znth_zupd_same by lia. intro Q. injection Q as <-. auto.
    + rewrite znth_zupd_other by lia. auto.
  - intros i N. apply znth_zupd_other. lia.
  - apply znth_zupd_same. lia.
Qed.

Section Externals.
Variable X : vm -> Prop.
Variable tys : list exttype.
Variable ct : Z.
Variable et : exttype.
Hypothesis Xfix : forall s, X s -> v_exttypes s = tys /\ v_corotype s = ct.
Hypothesis Hct : ct <> INVALID.
Hypothesis Hu : is_u32 ct.
Hypothesis Het : znth tys ct = Some et.
Hypothesis Hser : et_ser et = true.
Hypothesis Xerr : forall s l, X s -> X (set_errs l s).
Variable cap : Z.
Hypothesis Xcap : forall s, X s -> t_cap (v_objs s) = cap.
Hypothesis Xobjs : forall s t, X s -> t_cap t = cap -> X (set_objs t s).
Hypothesis Xctxs : forall s l, X s -> X (set_ctxs l s).

Definition ext_inv (j : Z) (s : vm) : Prop := X s /\ ctxs_pre j 0 s /\ i_objs (data_from j) s.

Lemma ctxs_live j x s : ctxs_pre j x s -> live_ctx s (v_cur s).
Proof. intros [C (c & R & _) _ _ _ _ _ _]. unfold live_ctx. rewrite C. eauto. Qed.

(** An object that is not a coroutine. *)
Lemma ext_skip j s : ext_inv j s -> (forall o, get_obj s j = Some o -> o_ext o <> ct) -> ext_inv (j + 1) s.
Proof.
  intros (HX & HC & HO) N. destruct (Xfix s HX) as [_ Ec]. split; [exact HX|]. split.
  - destruct HC as [A B C D E F G H]. split; auto.
    + intros i c I1 I2 Z. destruct (G i c I1 I2 Z) as (id & o & L & R). exists id, o. split; [lia|exact R].
    + intros id o L Q Ex. destruct (Z.eq_dec id j) as [->|Nj]; [|apply H; auto; lia].
      rewrite Ec in Ex. destruct (N o Q Ex).
  - eapply i_objs_weaken; [|exact HO]. intros i o _ Dd L. apply Dd. lia.
Qed.
Lemma ext_errs j es s : ext_inv j s -> ext_inv j (set_errs (v_errs s ++ es) s).
Proof. intros (HX & HC & HO). split; [auto|]. split; [apply ctxs_pre_errs; exact HC|apply i_objs_errs; exact HO]. Qed.

(** A coroutine whose context [x] is being read. *)
Definition half (j x : Z) (s : vm) : Prop :=
  X s /\ ctxs_pre j x s /\ i_objs (data_from (j + 1)) s /\ x <> 0 /\
  exists o, get_obj s j = Some o /\ o_ext o = ct /\ o_data o = Some x.

Lemma half_live j x s : half j x s -> live_ctx s (v_cur s).
Proof. intros (_ & H & _). exact (ctxs_live _ _ _ H). Qed.
Lemma half_errs j x e s : half j x s -> half j x (set_errs (v_errs s ++ [e]) s).
Proof.
  intros (H1 & H2 & H3 & H4 & H5). split; [auto|]. split; [apply ctxs_pre_errs; exact H2|].
  split; [apply i_objs_errs; exact H3|]. split; [exact H4|exact H5].
Qed.
Lemma half_ctx j x s c c' : half j x s -> znth (v_ctxs s) x = Some (Some c) -> c_parent c' = c_parent c ->
  half j x (set_ctxs (zupd (v_ctxs s) x (Some c')) s).
Proof.
  intros (H1 & H2 & H3 & H4 & H5) Z P. destruct (zupd_cases x s _ c' Z) as (Q & O & _).
  split; [auto|]. split; [|auto].
  destruct H2 as [A B C D E F G H].
  split; vs.
  - exact A.
  - rewrite O by auto. exact B.
  - intros i d Z1. destruct (Q i d Z1) as [[-> ->]|[N Z2]]; [rewrite P; eapply C; exact Z|eapply C; exact Z2].
  - intros i d N Z1. destruct (Q i d Z1) as [[-> ->]|[_ Z2]]; [contradiction|eapply D; eauto].
  - intros Er i d N Z1. destruct (Q i d Z1) as [[-> ->]|[_ Z2]]; [contradiction|eapply E; eauto].
  - intro d. rewrite O by auto. apply F.
  - intros i d I1 I2. rewrite O by auto. apply G; auto.
  - intros id o L Q1 Ex. destruct (H id o L Q1 Ex) as (i & d & D1 & D2 & D3 & D4 & D5).
    exists i, d. rewrite O by auto. auto.
Qed.

Lemma half_done j x s c : half j x s -> znth (v_ctxs s) x = Some (Some c) -> kweak (c_stack c) ->
  (has_errors s = false -> kwf (c_stack c)) ->
  ext_inv (j + 1) (set_ctxs (zupd (v_ctxs s) x (Some (set_c_obj (vobj j) c))) s).
Proof.
  intros (H1 & H2 & H3 & H4 & (o & Go & Eo & Do)) Z W K.
  destruct (Xfix s H1) as [_ Ec].
  split; [auto|]. split; [|exact H3].
  destruct H2 as [A B C D E F G H]. set (c' := set_c_obj (vobj j) c).
  destruct (zupd_cases x s _ c' Z) as (Q & O & Ox).
  split; vs.
  - exact A.
  - rewrite O by auto. exact B.
  - intros i d Z1. destruct (Q i d Z1) as [[-> ->]|[N Z2]]; [exact (C x c Z)|eapply C; exact Z2].
  - intros i d N Z1. destruct (Q i d Z1) as [[-> ->]|[Nx Z2]]; [exact W|eapply D; eauto].
  - intros Er i d N Z1. destruct (Q i d Z1) as [[-> ->]|[Nx Z2]]; [exact (K Er)|eapply E; eauto].
  - intro d. rewrite O by auto. apply F.
  - intros i d I1 _ Z1. destruct (Q i d Z1) as [[-> ->]|[Nx Z2]].
    + exists j, o. split; [lia|]. split; [reflexivity|]. split; [exact Go|]. rewrite Ec. auto.
    + destruct (G i d I1 Nx Z2) as (id & p & L & Rr). exists id, p. split; [lia|exact Rr].
  - intros id p L Q1 Ex. change (get_obj s id = Some p) in Q1. destruct (Z.eq_dec id j) as [->|Nj].
    + rewrite Go in Q1. injection Q1 as <-. exists x, c'. auto 6.
    + destruct (H id p ltac:(lia) Q1 Ex) as (i & d & D1 & D2 & D3 & D4 & D5).
      exists i, d. rewrite O by auto. auto.
Qed.

Lemma half_start j s o : ext_inv j s -> get_obj s j = Some o -> o_ext o = ct ->
  let x := zlen (v_ctxs s) in
  let s1 := set_ctxs (v_ctxs s ++ [Some ctx_init]) s in
  let s2 := put_obj j (set_o_ext ct (set_o_data (Some x) o)) s1 in
  half j x s2 /\ at_ctx x ctx_init kweak s2.
Proof.
  intros (HX & HC & HO) G Eo x s1. destruct (Xfix s HX) as [_ Ec].
  set (o2 := set_o_ext ct (set_o_data (Some x) o)). intro s2.
  assert (Nx : x <> 0).
  { destruct (cp_root _ _ _ HC) as (c & R & _). apply znth_some_range in R. unfold x. lia. }
  assert (G2 : forall i, get_obj s2 i = if i =? j then Some o2 else get_obj s i)
    by (intro i; apply (get_put s1 j o o2 i G)).
  assert (Zl : znth (v_ctxs s2) x = Some (Some ctx_init)).
  { unfold s2, put_obj, s1. vs. unfold x. rewrite znth_app_r by lia. rewrite Z.sub_diag. apply znth_cons_0. }
  assert (Zx : forall i d, znth (v_ctxs s2) i = Some (Some d) ->
      (i = x /\ d = ctx_init) \/ (i <> x /\ znth (v_ctxs s) i = Some (Some d))).
  { intros i d Z. destruct (Z.eq_dec i x) as [->|N].
    - rewrite Zl in Z. injection Z as <-. auto.
    - assert (R := znth_some_range _ _ _ Z). unfold s2, put_obj, s1 in Z, R. vsin Z. vsin R.
      rewrite zlen_app in R. change (zlen [Some ctx_init]) with 1 in R. fold x in R. unfold x in *.
      rewrite znth_app_l in Z by lia. auto. }
  assert (Zo : forall i d, znth (v_ctxs s) i = Some (Some d) -> i <> x /\ znth (v_ctxs s2) i = Some (Some d)).
  { intros i d Z. assert (R := znth_some_range _ _ _ Z). unfold x. split; [lia|]. unfold s2, put_obj, s1. vs.
    rewrite znth_app_l by lia. exact Z. }
  split.
  - split; [apply Xobjs; [apply Xctxs, HX|]; change (t_cap (v_objs (put_obj j o2 s1)) = cap); rewrite cap_put; exact (Xcap s HX)|]. split; [|split; [|split; [exact Nx|]]].
    + destruct HC as [A Br C D E F H K]. split.
      * exact A.
      * destruct Br as (c & Z & Oc). exists c. split; [apply (Zo 0 c Z)|exact Oc].
      * intros i d Z. destruct (Zx i d Z) as [[-> ->]|[N Z2]]; [reflexivity|eapply C; exact Z2].
      * intros i d N Z. destruct (Zx i d Z) as [[-> ->]|[_ Z2]]; [contradiction|].
        destruct (Z.eq_dec i 0) as [->|N0]; [apply kwf_weak, F, Z2|eapply D; eauto].
      * intros Er i d N Z. destruct (Zx i d Z) as [[-> ->]|[_ Z2]]; [contradiction|].
        destruct (Z.eq_dec i 0) as [->|N0]; [apply F, Z2|eapply (E Er); eauto].
      * intros d Z. destruct (Zx 0 d Z) as [[Q _]|[_ Z2]]; [congruence|apply F, Z2].
      * intros i d I1 I2 Z. destruct (Zx i d Z) as [[-> ->]|[_ Z2]]; [contradiction|].
        destruct (H i d I1 I1 Z2) as (id & p & L & Rr). exists id, p. rewrite G2.
        destruct (Z.eqb_spec id j) as [->|_]; [lia|]. auto.
      * intros id p L. rewrite G2. destruct (Z.eqb_spec id j) as [->|_]; [lia|]. intros Q Ex.
        destruct (K id p L Q Ex) as (i & d & D1 & D2 & D3 & D4 & D5). exists i, d. destruct (Zo i d D4). auto.
    + eapply i_objs_put with (D := data_from j) (o := o); try reflexivity.
      * exact HO.
      * exact G.
      * exact Hu.
      * intro L. lia.
      * intros i p N _ Dd L. apply Dd. lia.
    + exists o2. rewrite G2, Z.eqb_refl. auto.
  - exists ctx_init. repeat split; auto; apply kwf_weak, stack_init_wf.
Qed.

Lemma g_coroutine j : good (fun s => ext_inv j s /\ exists o, get_obj s j = Some o /\ o_ext o = ct)
  (load_coroutine j) (fun _ => ext_inv (j + 1)).
Proof.
  unfold load_coroutine. eapply g_bind; [apply g_get|]. intro s0. cbn beta.
  eapply g_bind with (R := fun o s => ext_inv j s /\ s0 = s /\ get_obj s j = Some o /\ o_ext o = ct).
  { apply g_vm. intros s [[He (o & G & Eo)] E]. exists o, s. split; [apply rd_obj_ok; exact G|]. auto. }
  intro o.
  eapply g_bind with (R := fun x s => half j x s /\ at_ctx x ctx_init kweak s).
  { intros b s B (He & -> & G & Eo).
    assert (Dn : o_data o = None). { destruct He as (_ & _ & (Hd & _)). apply (proj2 (proj1 Hd j o G)). lia. }
    rewrite Dn. unfold lbind at 1, lmod, lvm at 1, modify.
    assert (G1 : get_obj (set_ctxs (v_ctxs s ++ [Some ctx_init]) s) j = Some o) by exact G.
    unfold lbind, lvm, mod_obj. rewrite (bind_run _ _ _ _ _ (rd_obj_ok _ _ _ G1)). rewrite (wr_obj_ok _ _ _ _ G1).
    cbn [lret]. split; [exact B|]. destruct (Xfix s (proj1 He)) as [_ Ec]. rewrite Ec. apply half_start; auto. }
  intro x.
  eapply g_bind with (R := fun _ s => half j x s /\ exists c, znth (v_ctxs s) x = Some (Some c) /\ kweak (c_stack c) /\
     (has_errors s = false -> kwf (c_stack c))).
  { intros b s B Hs.
    assert (F := f_context (half j x) x ctx_init (half_live j x) (fun s e => half_errs j x e s)
              (fun s c c' H Z P _ => half_ctx j x s c c' H Z P) true b s B Hs).
    destruct (load_context x true b s) as [[u r s'|r s'|]|]; cbn beta iota; auto.
    - destruct F as (Br & (Hh & (c & Z & _ & _ & K))). split; [exact Br|]. split; [exact Hh|]. exists c.
      split; [exact Z|]. split; [apply kwf_weak, K|auto].
    - destruct F as (Br & (Hh & (c & Z & _ & _ & K))). unfold lvm.
      destruct (add_error_ok s' (bs "Coroutine serialization failed.") (half_live _ _ _ Hh)) as (e & ->).
      split; [exact Br|]. split; [apply half_errs, Hh|]. exists c. split; [exact Z|]. split; [exact K|].
      rewrite has_errors_app. discriminate. }
  intros ?. apply g_vm. intros s (Hh & (c & Z & K & Kf)). unfold mod_ctx. rewrite Z. eexists _, _. split; [reflexivity|].
  apply half_done; auto.
Qed.

Variable host_load : Z -> Z -> bytes -> option Z * nat.

Lemma g_external j : good (ext_inv j) (load_external host_load j) (fun _ => ext_inv (j + 1)).
Proof.
  unfold load_external. eapply g_bind; [apply g_get|]. intro s0. cbn beta.
  destruct (get_obj s0 j) as [o|] eqn:G.
  2: { apply g_ret. intros s [He ->]. apply ext_skip; [exact He|]. congruence. }
  apply g_if.
  { apply g_ret. intros s [[He ->] E]. apply ext_skip; [exact He|]. rewrite G. intros p Q. injection Q as <-. lia. }
  apply g_and. intro H1.
  destruct (znth (v_exttypes s0) (o_ext o)) as [e|] eqn:Z.
  2: { apply g_vm. intros s [He ->]. destruct (add_error_ok s (bs "External type value out of range.")) as (e & ->).
       - apply (ctxs_live j 0), (proj1 (proj2 He)).
       - eexists _, _. split; [reflexivity|]. apply ext_errs, ext_skip; [exact He|]. rewrite G. intros p Q. injection Q as <-.
         intro Q. destruct (Xfix s (proj1 He)) as [Et _]. rewrite Et, Q in Z. congruence. }
  apply g_if.
  { apply g_ret. intros s [[He ->] E]. apply ext_skip; [exact He|]. rewrite G. intros p Q. injection Q as <-.
    intro Q. destruct (Xfix s (proj1 He)) as [Et _]. rewrite Et, Q, Het in Z. injection Z as <-. rewrite Hser in E. discriminate. }
  apply g_and. intro H2. apply g_if.
  { eapply g_pre; [apply g_coroutine|]. intros s [[He ->] E]. split; [exact He|]. exists o. split; [exact G|].
    destruct (Xfix s (proj1 He)) as [_ Ec]. lia. }
  apply g_and. intro H3.
  eapply g_bind with (R := fun _ s => ext_inv j s /\ s0 = s).
  { intros b s B He. destruct (host_load (o_ext o) j b) as [d n]. split; [apply any_skipn, B|]. exact He. }
  intro d. apply g_vm. intros s [He ->]. unfold mod_obj. rewrite (bind_run _ _ _ _ _ (rd_obj_ok _ _ _ G)).
  rewrite (wr_obj_ok _ _ _ _ G). eexists _, _. split; [reflexivity|].
  destruct He as (HX & HC & HO). destruct (Xfix s HX) as [_ Ec]. set (o2 := set_o_data d o).
  assert (G2 : forall i, get_obj (put_obj j o2 s) i = if i =? j then Some o2 else get_obj s i)
    by (intro i; apply (get_put s j o o2 i G)).
  assert (Ne : o_ext o <> v_corotype s) by lia.
  split; [apply Xobjs; [exact HX|]; change (t_cap (v_objs (put_obj j o2 s)) = cap); rewrite cap_put; exact (Xcap s HX)|]. split.
  - destruct HC as [A Br C D E F H K]. split; auto.
    + intros i c I1 I2 Zc. destruct (H i c I1 I2 Zc) as (id & p & L & C1 & C2 & C3 & C4). exists id, p. split; [lia|].
      rewrite G2. destruct (Z.eqb_spec id j) as [->|_]; [lia|]. auto.
    + intros id p L. rewrite G2. destruct (Z.eqb_spec id j) as [->|N].
      * intro Q. injection Q as <-. intro Q. exfalso. apply Ne. exact Q.
      * intros Q Ex. apply (K id p); auto. lia.
  - eapply i_objs_put with (D := data_from j) (o := o); try reflexivity; auto.
    + exact (op_ext _ _ _ (proj1 (proj1 (proj1 HO) j o G))).
    + intro L. lia.
    + intros i p N _ Dd L. apply Dd. lia.
Qed.

Lemma g_externals : good (ext_inv 0) (load_externals host_load) (fun _ => ext_inv cap).
Proof.
  unfold load_externals. eapply g_bind; [apply g_get|]. intro s0. cbn beta.
  intros b s B [He ->]. rewrite (Xcap s (proj1 He)).
  assert (P := g_each (Z.to_nat cap) (load_external host_load) ext_inv 0 (fun j _ => g_external j) b s B He).
  assert (0 <= cap). { rewrite <- (Xcap s (proj1 He)). unfold t_cap. apply zlen_nonneg. }
  rewrite Z2Nat.id in P by lia. exact P.
Qed.
End Externals.

(** ** The active coroutines *)

(** The contexts before any parent is known. *)
Record ctxs_good (s : vm) : Prop := {
  cg_root : exists c, znth (v_ctxs s) 0 = Some (Some c) /\ c_obj c = vnil;
  cg_stk : forall i c, znth (v_ctxs s) i = Some (Some c) -> kweak (c_stack c);
  cg_fit : has_errors s = false -> forall i c, znth (v_ctxs s) i = Some (Some c) -> kwf (c_stack c);
  cg_co1 : forall i c, i <> 0 -> znth (v_ctxs s) i = Some (Some c) ->
             exists id o, c_obj c = vobj id /\ get_obj s id = Some o /\ o_ext o = v_corotype s /\ o_data o = Some i;
  cg_co2 : forall id o, get_obj s id = Some o -> o_ext o = v_corotype s ->
             exists i c, o_data o = Some i /\ i <> 0 /\ znth (v_ctxs s) i = Some (Some c) /\ c_obj c = vobj id
}.

Lemma ctxs_good_errs es s : ctxs_good s -> ctxs_good (set_errs (v_errs s ++ es) s).
Proof. intros [A B C D E]. split; auto. intro Er. apply has_errors_more in Er. exact (C Er). Qed.
Lemma ctxs_good_upd s i c c' : ctxs_good s -> znth (v_ctxs s) i = Some (Some c) ->
  c_obj c' = c_obj c -> c_stack c' = c_stack c -> ctxs_good (set_ctxs (zupd (v_ctxs s) i (Some c')) s).
Proof.
  intros [A B C D E] Z Eo Es. destruct (zupd_cases i s _ c' Z) as (Q & O & Oi). split; vs.
  - destruct A as (c0 & Z0 & N0). destruct (Z.eq_dec 0 i) as [<-|N].
    + exists c'. split; [exact Oi|]. rewrite Eo. rewrite Z in Z0. injection Z0 as <-. exact N0.
    + exists c0. rewrite O by exact N. auto.
  - intros k d Zk. destruct (Q k d Zk) as [[-> ->]|[N Zd]]; [rewrite Es; eapply B; exact Z|eapply B; exact Zd].
  - intros Er k d Zk. destruct (Q k d Zk) as [[-> ->]|[N Zd]]; [rewrite Es; eapply (C Er); exact Z|eapply (C Er); exact Zd].
  - intros k d K Zk. destruct (Q k d Zk) as [[-> ->]|[N Zd]]; [rewrite Eo; eapply (D i c K); exact Z|eapply (D k d K); exact Zd].
  - intros id o G Ex. destruct (E id o G Ex) as (k & d & E1 & E2 & E3 & E4).
    destruct (Z.eq_dec k i) as [->|N].
    + exists i, c'. rewrite Oi, Eo. rewrite Z in E3. injection E3 as <-. auto.
    + exists k, d. rewrite O by exact N. auto.
Qed.

(** The contexts [l], each the child of the next, the last the child of [x]. *)
Fixpoint linked (cs : list (option ctx)) (l : list Z) (x : Z) : Prop :=
  match l with
  | [] => True
  | i :: r => i <> 0 /\ (exists c, znth cs i = Some (Some c) /\ c_parent c = Some (hd x r)) /\ linked cs r x
  end.

Lemma linked_chain cs c0 l : znth cs 0 = Some (Some c0) -> c_parent c0 = None -> NoDup l -> linked cs l 0 ->
  chain cs (hd 0 l) (l ++ [0]).
Proof.
  intros Z P N. induction l as [|i r IH]; cbn [hd app linked].
  - intros _. eapply ch_root; eauto.
  - intros (Ni & (c & Zc & Pc) & L). inversion N as [|? ? Nin Nd]; subst.
    eapply ch_cons; eauto. intro K. apply in_app_or in K. destruct K as [K|[K|[]]]; auto.
Qed.
Lemma linked_in cs l x i : linked cs l x -> In i l -> i <> 0 /\ exists c p, znth cs i = Some (Some c) /\ c_parent c = Some p.
Proof.
  induction l as [|k r IH]; cbn [linked]; [intros _ []|]. intros (Nk & (c & Z & P) & L) [->|K]; [eauto|auto].
Qed.
Lemma linked_upd cs l x i c' : ~ In i l -> linked cs l x -> linked (zupd cs i (Some c')) l x.
Proof.
  induction l as [|k r IH]; cbn [linked]; [auto|]. intros N (Nk & (c & Z & P) & L).
  split; [exact Nk|]. split; [|apply IH; [intro; apply N; now right|exact L]]. exists c. split; [|exact P].
  destruct (Z.eq_dec k i) as [->|Ne]; [destruct N; now left|]. rewrite znth_zupd_other by lia. exact Z.
Qed.
Lemma linked_snoc cs l e x c : linked cs l e -> e <> 0 -> znth cs e = Some (Some c) -> c_parent c = Some x -> linked cs (l ++ [e]) x.
Proof.
  intros L N Z P. induction l as [|k r IH]; cbn [linked app hd] in *.
  - split; [exact N|]. split; [eauto|exact I].
  - destruct L as (Nk & (d & Zd & Pd) & L). split; [exact Nk|]. split; [|auto]. exists d. split; [exact Zd|].
    rewrite Pd. destruct r; reflexivity.
Qed.

(** The chain read so far. *)
Definition so_far (cur last : option Z) (s : vm) : Prop :=
  match cur, last with
  | None, None => forall i c, znth (v_ctxs s) i = Some (Some c) -> c_parent c = None
  | Some y, Some e =>
    exists l, y = hd e l /\ NoDup l /\ linked (v_ctxs s) l e /\ (exists c, znth (v_ctxs s) e = Some (Some c)) /\
      forall i c, znth (v_ctxs s) i = Some (Some c) -> c_parent c <> None -> In i l
  | _, _ => False
  end.

(** Reading at most [n] more bytes. *)
Definition goodn {A} (n : nat) (P : vm -> Prop) (m : L A) (Q : A -> vm -> Prop) : Prop :=
  forall b s, (length b <= n)%nat -> any_bytes b -> P s ->
    match m b s with
    | Ok (LDone a b' s') => (length b' <= n)%nat /\ any_bytes b' /\ Q a s'
    | Ok _ => True
    | Ub _ => False
    end.
Definition quiet {A} (m : L A) : Prop := forall b s a b' s', m b s = Ok (LDone a b' s') -> b' = b.

Lemma n_good {A} n (P : vm -> Prop) (m : L A) Q : quiet m -> good P m Q -> goodn n P m Q.
Proof.
  intros Hq G b s Ln B Hs. assert (K := G b s B Hs). destruct (m b s) as [[a b' s'| |]|] eqn:E; auto.
  assert (b' = b) by (eapply Hq; exact E). subst b'. tauto.
Qed.
Lemma n_bind {A B} n (P : vm -> Prop) (m : L A) R (f : A -> L B) Q :
  goodn n P m R -> (forall a, goodn n (R a) (f a) Q) -> goodn n P (lbind m f) Q.
Proof.
  intros G K b s Ln B0 Hs. unfold lbind. assert (H := G b s Ln B0 Hs). destruct (m b s) as [[a b' s'| |]|]; auto.
  destruct H as (L' & B' & R'). exact (K a b' s' L' B' R').
Qed.
Lemma n_value {B} n (P : vm -> Prop) (f : value -> L B) Q :
  (forall v, goodn n P (f v) Q) -> goodn (S n) P (lbind rvalue f) (fun a s => Q a s).
Proof.
  intros K b s Ln B0 Hs. unfold lbind at 1, rvalue, r32.
  unfold lbind, take. destruct (Z.leb_spec 4 (zlen b)); [|exact I]. cbn [lret].
  destruct (Z.leb_spec 4 (zlen (skipn (Z.to_nat 4) b))); [|exact I]. cbn [lret].
  set (r := skipn (Z.to_nat 4) (skipn (Z.to_nat 4) b)).
  assert (Lr : (length r <= n)%nat). { unfold r. unfold zlen in *. rewrite !skipn_length in *. lia. }
  assert (Br : any_bytes r) by (unfold r; auto using any_skipn).
  assert (H1 := K (mkV (unword (firstn (Z.to_nat 4) b)) (unword (firstn (Z.to_nat 4) (skipn (Z.to_nat 4) b)))) r s Lr Br Hs).
  destruct (f _ r s) as [[a b' s'| |]|]; auto. destruct H1 as (L1 & R1). split; [lia|exact R1].
Qed.
Lemma quiet_vm {A} (m : M A) : quiet (lvm m).
Proof. intros b s a b' s'. unfold lvm. destruct (m s) as [[? ?]|]; congruence. Qed.
Lemma quiet_get {A} (f : vm -> A) : quiet (lget f).
Proof. intros b s a b' s'. unfold lget, lvm, gets. congruence. Qed.
Lemma quiet_error {A} t : quiet (@lerror A t).
Proof.
  intros b s a b' s'. unfold lerror, lbind, lvm. destruct (add_error t s) as [[? ?]|]; [|discriminate].
  unfold lfail. congruence.
Qed.

Section Active.
Variable X : vm -> Prop.
Hypothesis Xerr : forall s e, X s -> X (set_errs (v_errs s ++ [e]) s).
Hypothesis Xctxs : forall s l, X s -> X (set_ctxs l s).
Hypothesis Xcur : forall s i, X s -> X (set_cur i s).

Definition act (cur last : option Z) (s : vm) : Prop :=
  X s /\ ctxs_good s /\ v_cur s = 0 /\ so_far cur last s.
Definition act_done (s : vm) : Prop :=
  X s /\ ctxs_good s /\ exists l, chain (v_ctxs s) (v_cur s) l /\
    forall i c, znth (v_ctxs s) i = Some (Some c) -> c_parent c <> None -> In i l.

Lemma act_live cur last s : act cur last s -> live_ctx s (v_cur s).
Proof. intros (_ & [(c & Z & _) _ _ _ _] & C & _). unfold live_ctx. rewrite C. eauto. Qed.

Lemma act_errs cur last e s : act cur last s -> act cur last (set_errs (v_errs s ++ [e]) s).
Proof. intros (A & B & C & D). split; [auto|]. split; [apply ctxs_good_errs, B|]. split; [exact C|exact D]. Qed.

Lemma act_state cur last s x c v : act cur last s -> znth (v_ctxs s) x = Some (Some c) ->
  act cur last (set_ctxs (zupd (v_ctxs s) x (Some (set_c_state v c))) s).
Proof.
  intros (A & B & C & D) Z. split; [auto|]. split; [eapply ctxs_good_upd; eauto|]. split; [exact C|].
  destruct (zupd_cases x s _ (set_c_state v c) Z) as (Q & O & Ox).
  assert (Lk : forall l e, linked (v_ctxs s) l e -> linked (zupd (v_ctxs s) x (Some (set_c_state v c))) l e).
  { intros l e. induction l as [|k r IH]; cbn [linked]; [auto|]. intros (Nk & (d & Zd & P) & L).
    split; [exact Nk|]. split; [|auto]. destruct (Z.eq_dec k x) as [->|N].
    - exists (set_c_state v c). split; [exact Ox|]. rewrite Z in Zd. injection Zd as <-. exact P.
    - exists d. rewrite O by exact N. auto. }
  unfold so_far in *. destruct cur as [y|], last as [e|]; try contradiction.
  - destruct D as (l & E & Nd & L & (d & Zd) & Pi). exists l. split; [exact E|]. split; [exact Nd|]. split; [apply Lk, L|]. vs. split.
    + destruct (Z.eq_dec e x) as [->|N]; [eauto|]. exists d. rewrite O by exact N. exact Zd.
    + intros i d' Zi. destruct (Q i d' Zi) as [[-> ->]|[N Zd']]; [apply (Pi x c Z)|apply (Pi i d' Zd')].
  - vs. intros i d' Zi. destruct (Q i d' Zi) as [[-> ->]|[N Zd']]; [apply (D x c Z)|apply (D i d' Zd')].
Qed.

Lemma chain_context_live v s x : ctxs_good s -> chain_context v s = Some x -> exists c, znth (v_ctxs s) x = Some (Some c).
Proof.
  intros [(c & Z & _) _ _ _ K]. unfold chain_context. destruct (v_type v =? T_NIL).
  - intro E. injection E as <-. eauto.
  - destruct (obj_of_value s v) as [i|]; [|discriminate]. destruct (get_obj s i) as [o|] eqn:G; [|discriminate].
    destruct (Z.eqb_spec (o_ext o) (v_corotype s)) as [Ex|]; [|discriminate].
    destruct (K i o G Ex) as (k & d & -> & _ & Zk & _). intro E. injection E as <-. eauto.
Qed.

Lemma n_chain : forall fuel cur last,
  goodn fuel (act cur last) (load_chain (S fuel) cur last) (fun _ => act_done).
Proof.
  assert (Step : forall fuel cur last,
    match fuel with O => True | S n => forall cur last, goodn n (act cur last) (load_chain fuel cur last) (fun _ => act_done) end ->
    goodn fuel (act cur last) (load_chain (S fuel) cur last) (fun _ => act_done)).
  { intros fuel cur last IH. cbn [load_chain].
    destruct fuel as [|n].
    { intros b s Ln B Hs. destruct b; [exact I|cbn in Ln; lia]. }
    apply n_value. intro v.
    eapply n_bind; [apply n_good; [apply quiet_get|apply g_get]|]. intro s0. cbn beta.
    destruct (chain_context v s0) as [x|] eqn:Ex.
    2: { apply n_good; [apply quiet_error|]. apply g_error. intros s [Hs _]. eapply act_live; eauto. }
    set (cur' := match cur with None => x | Some y => y end).
    eapply n_bind with (R := fun c s => act cur last s /\ znth (v_ctxs s) x = Some (Some c)).
    { apply n_good; [apply quiet_vm|]. apply g_vm. intros s [Hs ->].
      destruct (chain_context_live v s x (proj1 (proj2 Hs)) Ex) as (c & Z). exists c, s. unfold get_ctx. rewrite Z. auto. }
    intro c. eapply n_bind with (R := fun _ s => act cur last s /\ exists c, znth (v_ctxs s) x = Some (Some c)).
    { destruct (c_state c =? CO_RUNNING).
      - apply n_good; [intros b s ? b' s' E; unfold lret in E; congruence|]. apply g_ret. intros s [Hs Z]. eauto.
      - eapply n_bind with (R := fun _ s => act cur last s /\ znth (v_ctxs s) x = Some (Some c)).
        + apply n_good; [apply quiet_vm|]. apply g_vm. intros s [Hs Z].
          destruct (add_error_ok s (bs "Dormant coroutine recorded in active coroutine chain.") (act_live _ _ _ Hs)) as (e & ->).
          eexists _, _. split; [reflexivity|]. split; [apply act_errs, Hs|exact Z].
        + intros ?. apply n_good; [apply quiet_vm|]. apply g_vm. intros s [Hs Z]. unfold mod_ctx. rewrite Z.
          eexists _, _. split; [reflexivity|]. split; [apply act_state; auto|]. vs.
          destruct (zupd_cases x s _ (set_c_state CO_RUNNING c) Z) as (_ & _ & Ox). eauto. }
    intros ?. eapply n_bind with (R := fun _ s => act (Some cur') (Some x) s).
    { destruct last as [e|].
      - eapply n_bind with (R := fun ec s => (act cur (Some e) s /\ exists c, znth (v_ctxs s) x = Some (Some c)) /\ znth (v_ctxs s) e = Some (Some ec)).
        + apply n_good; [apply quiet_vm|]. apply g_vm. intros s [Hs Z].
          assert (K := proj2 (proj2 (proj2 Hs))). unfold so_far in K. destruct cur as [y|]; [|contradiction].
          destruct K as (l & _ & _ & _ & (d & Zd) & _). exists d, s. unfold get_ctx. rewrite Zd. auto.
        + intro ec. destruct (c_parent ec) as [p|] eqn:Pe.
          { apply n_good; [apply quiet_error|]. apply g_error. intros s [[Hs _] _]. eapply act_live; eauto. }
          destruct (Z.eqb_spec e 0) as [E0|E0].
          { apply n_good; [apply quiet_error|]. apply g_error. intros s [[Hs _] _]. eapply act_live; eauto. }
          apply n_good; [apply quiet_vm|]. apply g_vm. intros s [[(A & B & C & D) (cx & Zx)] Ze]. unfold mod_ctx. rewrite Ze.
          eexists _, _. split; [reflexivity|]. unfold so_far in D. destruct cur as [y|]; [|contradiction].
          destruct D as (l & Ey & Nd & Lk & _ & Pi). cbn in cur'. set (ec' := set_c_parent (Some x) ec).
          assert (Nin : ~ In e l).
          { intro K. destruct (linked_in _ _ _ _ Lk K) as (_ & d & p & Zd & Pd). rewrite Ze in Zd. injection Zd as <-. congruence. }
          destruct (zupd_cases e s _ ec' Ze) as (Q & O & Oe).
          split; [auto|]. split; [eapply ctxs_good_upd; eauto|]. split; [exact C|]. exists (l ++ [e]). vs.
          split; [unfold cur'; rewrite Ey; destruct l; reflexivity|]. split.
          { apply NoDup_Add with (a := e) (l := l); [|auto]. replace (l ++ [e]) with (l ++ e :: []) by reflexivity.
            rewrite <- (app_nil_r l) at 1. apply Add_app. }
          split; [eapply linked_snoc; [apply linked_upd; eauto|exact E0|exact Oe|reflexivity]|]. split.
          { destruct (Z.eq_dec x e) as [->|N]; [eauto|]. exists cx. rewrite O by exact N. exact Zx. }
          intros i d Zi Pd. apply in_or_app. destruct (Q i d Zi) as [[-> ->]|[N Zd]]; [right; now left|left; eapply Pi; eauto].
      - apply n_good; [intros b s ? b' s' E; unfold lret in E; congruence|]. apply g_ret. intros s [(A & B & C & D) Z].
        split; [exact A|]. split; [exact B|]. split; [exact C|]. unfold so_far in *. destruct cur as [y|]; [contradiction|].
        exists []. cbn [hd]. unfold cur'. split; [reflexivity|]. split; [constructor|]. split; [exact I|]. split; [exact Z|].
        intros i d Zd P. destruct P. eapply D; eauto. }
    intros ?. destruct (Z.eqb_spec (v_type v) T_NIL) as [Ev|_]; [|apply IH].
    assert (x = 0). { unfold chain_context in Ex. rewrite (proj2 (Z.eqb_eq _ _) Ev) in Ex. congruence. } subst x.
    apply n_good; [intros b s ? b' s' E; unfold lmod, lvm, modify in E; congruence|]. apply g_mod.
    intros s (A & B & C & D). split; [auto|]. split; [destruct B; split; auto|].
    destruct D as (l & -> & Nd & Lk & (c0 & Z0) & Pi). exists (l ++ [0]). vs. split.
    - eapply linked_chain; eauto. destruct (c_parent c0) eqn:P; [|reflexivity].
      exfalso. assert (K : In 0 l) by (eapply Pi; eauto; congruence). destruct (linked_in _ _ _ _ Lk K). auto.
    - intros i d Zd P. apply in_or_app. left. eapply Pi; eauto. }
  induction fuel as [|n IH]; intros cur last; apply Step; auto.
Qed.

Lemma g_active : good (act None None) load_active (fun _ => act_done).
Proof.
  intros b s B Hs. unfold load_active. assert (H := n_chain (length b) None None b s (le_n _) B Hs).
  destruct (load_chain (S (length b)) None None b s) as [[| |]|]; tauto.
Qed.
End Active.

(** ** A machine the host has just made *)

Record fresh (s : vm) : Prop := {
  fr_cur : v_cur s = 0;
  fr_ctxs : v_ctxs s = v_ctxs vm_init;
  fr_hl : v_hlist s = [];
  fr_co : v_corotype s = 0;
  fr_ty : exists r, v_exttypes s = v_exttypes vm_init ++ r;
  fr_ext : i_ext s
}.

Lemma fresh_init : fresh vm_init.
Proof.
  split; try reflexivity.
  - exists []. now rewrite app_nil_r.
  - intros j xf Z. apply znth_some_range in Z. change (v_extfuncs vm_init) with (@nil extfunc) in Z. cbn in Z. lia.
Qed.
Lemma fresh_registration s s' : registration s s' -> fresh s -> fresh s'.
Proof.
  intros R F. assert (Er : forall e, fresh (set_errs e s)) by (destruct F; split; auto).
  destruct R as [n cb s i s' H|e s i s' H|n a b c s i s' H|n d a b s i s' H|n s i s' H].
  - destruct (register_inv _ _ _ _ _ H) as [[_ [e ->]]|[[x [-> _]]|[-> _]]]; auto.
    destruct F as [A B C D E G]. split; auto. intros j xf. vs. intros Z N.
    assert (Q := znth_some_range _ _ _ Z). rewrite zlen_app in Q. change (zlen [mkXF n cb INVALID INVALID []]) with 1 in Q.
    destruct (Z.eq_dec j (zlen (v_extfuncs s))) as [->|Nj].
    + rewrite znth_app_r in Z by lia. rewrite Z.sub_diag, znth_cons_0 in Z. injection Z as <-. destruct N. reflexivity.
    + rewrite znth_app_l in Z by lia. apply (G j xf Z N).
  - destruct (internal_inv _ _ _ _ H) as [[_ [t ->]]|[[x [-> _]]|(x & X & I & Hi & _ & ->)]]; auto.
    destruct F as [A B C D E G]. split; auto. intros j xf. vs. intros Z N.
    destruct (Z.eq_dec j e) as [->|Nj].
    + rewrite znth_zupd_same in Z by (eapply znth_some_range; exact X). injection Z as <-. apply (G e x X N).
    + rewrite znth_zupd_other in Z by lia. apply (G j xf Z N).
  - destruct (type_inv _ _ _ _ _ _ _ H) as [[_ [t ->]]|(_ & _ & -> & _)]; auto.
    destruct F as [A B C D [r E] G]. split; auto. vs. rewrite E. exists (r ++ [mkET n a b c]). now rewrite app_assoc.
  - destruct (sub_inv _ _ _ _ _ _ _ H) as [[_ [t ->]]|(_ & l & _ & ->)]; auto.
    destruct F as [A B C D E G]. split; auto.
  - destruct (file_inv _ _ _ _ H) as [[-> _]|[-> _]]; auto. destruct F as [A B C D E G]. split; auto.
Qed.
Lemma prepared_fresh s : prepared s -> fresh s /\ unique et_name (v_exttypes s) /\ zlen (v_subsys s) = 16.
Proof.
  intros (s0 & ms & mf & lf & R & _ & ->).
  assert (K : forall a b, registrations a b -> fresh a -> fresh b).
  { intros a b. induction 1; auto. eauto using fresh_registration. }
  assert (F := K _ _ R fresh_init). assert (O := registered_ok s0 R).
  split; [destruct F; split; auto|]. split; [exact (r_types _ O)|exact (r_subs _ O)].
Qed.

(** ** The whole file *)

Section Whole.
Variable tys : list exttype.
Variable et : exttype.
Hypothesis Het : znth tys 0 = Some et.
Hypothesis Hser : et_ser et = true.
Hypothesis Huniq : unique et_name tys.
Variable host_load : Z -> Z -> bytes -> option Z * nat.
Variable sub_load : bytes -> bytes -> nat.

Definition fixd (s : vm) : Prop := v_exttypes s = tys /\ v_corotype s = 0 /\ zlen (v_subsys s) = 16.
Definition parts (s : vm) : Prop := fixd s /\ i_code s /\ i_static s /\ i_strs s /\ i_gc s.
Definition loaded (s : vm) : Prop :=
  act_done (fun s => (parts s /\ i_ext s) /\ i_objs (fun _ _ => True) s) s.

Lemma g_load : good (fun s => fixd s /\ i_ext s /\ v_hlist s = [] /\ i_rootk s) (load host_load sub_load) (fun _ => loaded).
Proof.
  assert (Lv : forall s, i_rootk s -> live_ctx s (v_cur s)) by (intros s H; apply root_live, rootk_root, H).
  unfold load. eapply g_bind; [apply g_take; lia|]. intro h. eapply g_pre with (P' := fun s => fixd s /\ i_ext s /\ v_hlist s = [] /\ i_rootk s); [|tauto].
  apply g_if; [apply g_error; intros; apply Lv; tauto|].
  eapply g_bind; [apply g_r32|]. intro v.
  eapply g_pre with (P' := fun s => fixd s /\ i_ext s /\ v_hlist s = [] /\ i_rootk s); [|tauto].
  apply g_if; [apply g_error; intros; apply Lv; tauto|]. apply g_and. intros _.
  eapply g_bind.
  { apply g_instructions; [intros; apply Lv; tauto|intros; assumption|intros; assumption]. }
  intros ?. eapply g_bind.
  { apply g_errors; [intros; apply Lv; tauto|intros; assumption]. }
  intros ?. eapply g_bind.
  { apply g_statics; [intros; apply Lv; tauto|intros; assumption|intros; assumption]. }
  intros ?. eapply g_bind.
  { eapply g_pre; [apply (g_root (fun s => fixd s /\ i_ext s /\ v_hlist s = [] /\ i_code s /\ i_static s)); intros; assumption|]. tauto. }
  intros ?. eapply g_bind.
  { apply g_strings; [intros; apply Lv; tauto|intros; assumption|intros; assumption]. }
  intros ?. eapply g_bind; [apply g_gc; intros; assumption|].
  intros ?. eapply g_bind.
  { eapply g_pre; [apply (g_functions (fun s => parts s /\ v_hlist s = [] /\ i_rootk s))|].
    - intros; apply Lv; tauto.
    - intros; assumption.
    - intros; assumption.
    - unfold parts. tauto. }
  intros ?. eapply g_bind.
  { eapply g_pre; [apply (g_objects (fun s => (parts s /\ i_ext s) /\ i_rootk s))|].
    - intros; apply Lv; tauto.
    - intros; assumption.
    - intros; assumption.
    - intros; assumption.
    - unfold parts. tauto. }
  intros ?. eapply g_bind; [apply g_globals|].
  { intros; apply Lv; tauto. }
  { intros; assumption. }
  intros ?. eapply g_bind; [apply (g_types _ tys)|].
  { unfold parts, fixd. intros s H. split; [apply Lv; tauto|tauto]. }
  { exact Huniq. }
  intros ?. eapply g_bind; [apply g_subsystems|].
  { unfold parts, fixd. intros s H. split; [apply Lv; tauto|tauto]. }
  intros ?.
  eapply g_pre with (P' := fun s => exists cap, ext_inv (fun s => (parts s /\ i_ext s) /\ t_cap (v_objs s) = cap) 0 s).
  2: { intros s ((P & C) & O). exists (t_cap (v_objs s)). split; [auto|]. split.
       - destruct C as (Ec & c & El & Pc & Oc & Kc).
         assert (Q : forall i d, znth (v_ctxs s) i = Some (Some d) -> i = 0 /\ d = c).
         { intros i d Z. rewrite El in Z. assert (R := znth_some_range _ _ _ Z). change (zlen [Some c]) with 1 in R.
           assert (i = 0) by lia. subst i. rewrite znth_cons_0 in Z. split; congruence. }
         split.
         + exact Ec.
         + exists c. rewrite El, znth_cons_0. auto.
         + intros i d Z. destruct (Q i d Z) as [-> ->]. exact Pc.
         + intros i d N Z. destruct (Q i d Z). lia.
         + intros _ i d N Z. destruct (Q i d Z). lia.
         + intros d Z. destruct (Q 0 d Z) as [_ ->]. exact Kc.
         + intros i d N _ Z. destruct (Q i d Z). lia.
         + intros id o Ng G. exfalso. unfold get_obj in G. apply tab_get_some in G. apply znth_some_range in G. lia.
       - eapply i_objs_weaken; [|exact O]. intros i o _ N _. exact N. }
  apply g_ex. intro cap. eapply g_bind.
  { eapply (g_externals _ tys 0 et) with (cap := cap).
    - unfold parts, fixd. tauto.
    - discriminate.
    - unfold is_u32, W32. lia.
    - exact Het.
    - exact Hser.
    - intros; assumption.
    - tauto.
    - intros s t H E. split; [exact (proj1 H)|exact E].
    - intros; assumption. }
  intros ?. eapply g_bind; [apply g_files|].
  { intros s H. eapply ctxs_live. apply H. }
  { intros s l (H1 & H2 & H3). split; [exact H1|]. split; [destruct H2; split; auto|exact H3]. }
  intros ?. eapply g_bind; [apply g_markers|].
  { intros s l (H1 & H2 & H3). split; [exact H1|]. split; [destruct H2; split; auto|exact H3]. }
  intros ?. eapply g_pre; [apply g_active|].
  - intros s e (H1 & H2). split; [exact H1|]. apply i_objs_errs, H2.
  - intros; assumption.
  - intros; assumption.
  - intros s ((HP & Hcap) & HC & HO). split; [|split; [|split]].
    + split; [exact HP|]. eapply i_objs_weaken; [|exact HO]. auto.
    + assert (Lt : forall id o, get_obj s id = Some o -> id < cap).
      { intros id o G. unfold get_obj in G. apply tab_get_some in G. apply znth_some_range in G. unfold t_cap in Hcap. lia. }
      destruct HC as [A B C D E F G H]. split.
      * exact B.
      * intros i c Z. destruct (Z.eq_dec i 0) as [->|N]; [apply kwf_weak, F, Z|eapply D; eauto].
      * intros Er i c Z. destruct (Z.eq_dec i 0) as [->|N]; [apply F, Z|eapply (E Er); eauto].
      * intros i c N Z. destruct (G i c N N Z) as (id & o & _ & R). eauto.
      * intros id o Gd Ex. destruct (H id o (Lt id o Gd) Gd Ex) as (i & c & D1 & D2 & _ & D4). eauto 6.
    + exact (cp_cur _ _ _ HC).
    + exact (cp_par _ _ _ HC).
Qed.

Lemma loaded_wf s : et_cleanup et = true -> et_mark et = true -> loaded s -> sane s -> vm_ok s.
Proof.
  intros Ec Em ((((F & Cd & St & (Sp & Sh & Sc) & Gc) & Ex) & (Ob & Oh & Oc)) & G & Ch) [N1 N2 N3 N4 N5 N6].
  destruct F as (F1 & F2 & F3).
  exists (negb (has_errors s)). split.
  - intro H. now apply negb_false_iff in H.
  - assert (Q : forall i e, tab_get (v_strs s) i = Some e <-> znth (t_slots (v_strs s)) i = Some (Some e)).
    { intros i e. rewrite tab_get_znth. destruct (znth _ i) as [[]|]; split; congruence. }
    destruct Sp as [P1 P2 P3 P4 P5]. split.
    + destruct Sh as [S1 S2]. split; auto. destruct Sc; [lia|auto].
    + exact P1.
    + intros i e E. apply Q in E. destruct (P2 i e E) as (? & ? & ? & _). auto.
    + intros i e E. apply Q in E. apply (P3 i e E).
    + intros b c i Z I. destruct (P4 b c i Z I) as (e & E & R). apply Q in E. eauto.
    + exact P5.
    + intros i j e f E1 E2 Eq. eapply N3; unfold get_str, get_str_entry; [rewrite E1|rewrite E2]; [reflexivity|]. now rewrite Eq.
  - intros i e E. split; [|eapply N4; exact E]. unfold get_str_entry in E. apply tab_get_some in E.
    destruct (sp_ent _ _ Sp i e E) as (_ & _ & _ & U). apply U.
  - destruct Oh as [S1 S2]. split; auto. destruct Oc; [lia|auto].
  - intros i o E. destruct (proj1 Ob i o E) as [[A1 A2 A3 A4 A5 A6 A7] _]. split; auto.
    + intro H. apply A3. now apply negb_true_iff in H.
    + split; [apply A5|]. apply (N5 i o E).
  - exact Ch.
  - intros i c Z. apply weak_kwf; [eapply (cg_stk _ G); exact Z|eapply N6; exact Z].
  - intros c Z. destruct (cg_root _ G) as (d & Zd & Nd). rewrite Z in Zd. injection Zd as <-. exact Nd.
  - intros i c N _ Z. apply (cg_co1 _ G i c N Z).
  - intros id o Go Eo. destruct (cg_co2 _ G id o Go Eo) as (i & c & D1 & D2 & D3 & D4). eauto 7.
  - exact St.
  - exact Cd.
  - exact (proj1 (proj2 Ob)).
  - exact (proj2 (proj2 Ob)).
  - rewrite F2. split; [discriminate|]. rewrite F1. eauto.
  - exact Ex.
  - unfold i_gc, is_u32 in Gc. unfold INVALID, W32 in *. lia.
Qed.
End Whole.
