(** * SaveRound: reading back what was written *)
From Verif Require Import Base BaseFacts TableModel TableProofs State MonadFacts StackModel StackProofs
  StrModel StrProofs ObjsModel ObjsProofs VmModel VmSpec VmInv ValueSpec ObjsSpec RegModel RegSpec RegProofs RegProperties
  SaveModel SaveSpec SaveProofs.

Ltac Zify.zify_post_hook ::= Z.div_mod_to_equations.

(** From a state with [P], the step reads exactly the bytes [b], whatever comes
    after them, returns true and leaves a state with [Q]. *)
Definition rr {A} (P : vm -> Prop) (m : L A) (b : bytes) (Q : A -> vm -> Prop) : Prop :=
  forall t, P t -> exists a t', (forall rest, m (b ++ rest) t = Ok (LDone a rest t')) /\ Q a t'.

Lemma rr_ret {A} (a : A) (P : vm -> Prop) (Q : A -> vm -> Prop) : (forall t, P t -> Q a t) -> rr P (lret a) [] Q.
Proof. intros H t Ht. exists a, t. split; [reflexivity|auto]. Qed.
Lemma rr_bind {A B} (P : vm -> Prop) (m : L A) (f : A -> L B) b b1 b2 R Q : b = b1 ++ b2 ->
  rr P m b1 R -> (forall a, rr (R a) (f a) b2 Q) -> rr P (lbind m f) b Q.
Proof.
  intros -> H K t Ht. destruct (H t Ht) as (a & t1 & E & Ra). destruct (K a t1 Ra) as (c & t2 & E2 & Qc).
  exists c, t2. split; [|exact Qc]. intro rest. unfold lbind. rewrite <- app_assoc, E. apply E2.
Qed.
Lemma rr_bind0 {A B} (P : vm -> Prop) (m : L A) (f : A -> L B) b R Q :
  rr P m [] R -> (forall a, rr (R a) (f a) b Q) -> rr P (lbind m f) b Q.
Proof. intros. eapply rr_bind; [|eassumption|eassumption]. reflexivity. Qed.
Lemma rr_pre {A} (P P' : vm -> Prop) (m : L A) b Q : rr P' m b Q -> (forall t, P t -> P' t) -> rr P m b Q.
Proof. intros H K t Ht. apply H. auto. Qed.
Lemma rr_post {A} (P : vm -> Prop) (m : L A) b (Q Q' : A -> vm -> Prop) :
  rr P m b Q' -> (forall a t, Q' a t -> Q a t) -> rr P m b Q.
Proof. intros H K t Ht. destruct (H t Ht) as (a & t' & E & R). eauto. Qed.
Lemma rr_and {A} (P : vm -> Prop) (F : Prop) (m : L A) b Q : (F -> rr P m b Q) -> rr (fun t => P t /\ F) m b Q.
Proof. intros H t [Ht HF]. apply H; auto. Qed.
Lemma rr_ex {A B} (P : B -> vm -> Prop) (m : L A) b Q : (forall x, rr (P x) m b Q) -> rr (fun t => exists x, P x t) m b Q.
Proof. intros H t [x Ht]. exact (H x t Ht). Qed.
Lemma rr_get {A} (f : vm -> A) (P : vm -> Prop) : rr P (lget f) [] (fun a t => P t /\ a = f t).
Proof. intros t Ht. exists (f t), t. split; [reflexivity|auto]. Qed.
Lemma rr_mod f (P : vm -> Prop) (Q : unit -> vm -> Prop) : (forall t, P t -> Q tt (f t)) -> rr P (lmod f) [] Q.
Proof. intros H t Ht. exists tt, (f t). split; [reflexivity|auto]. Qed.
Lemma rr_vm {A} (m : M A) (P : vm -> Prop) Q : (forall t, P t -> exists a t', m t = Ok (a, t') /\ Q a t') -> rr P (lvm m) [] Q.
Proof. intros H t Ht. destruct (H t Ht) as (a & t' & E & K). exists a, t'. split; [|exact K]. intro. unfold lvm. now rewrite E. Qed.
Lemma rr_lift {A} (r : res A) a (P : vm -> Prop) : r = Ok a -> rr P (llift r) [] (fun x t => P t /\ x = a).
Proof. intros -> t Ht. exists a, t. split; [reflexivity|auto]. Qed.
(** What is known of the step anyway. *)
Lemma rr_good {A} (P : vm -> Prop) (m : L A) b Q Q' : any_bytes b -> rr P m b Q -> good P m Q' ->
  rr P m b (fun a t => Q a t /\ Q' a t).
Proof.
  intros B H G t Ht. destruct (H t Ht) as (a & t' & E & K). exists a, t'. split; [exact E|]. split; [exact K|].
  assert (X := G b t B Ht). specialize (E []). rewrite app_nil_r in E. rewrite E in X. apply X.
Qed.

Lemma rr_take n b (P : vm -> Prop) : zlen b = n -> rr P (take n) b (fun a t => P t /\ a = b).
Proof.
  intros L t Ht. exists b, t. split; [|auto]. intro rest. unfold take. subst n.
  destruct (Z.leb_spec (zlen b) (zlen (b ++ rest))) as [_|H]; [|rewrite zlen_app in H; assert (K := zlen_nonneg rest); lia].
  unfold zlen. rewrite Nat2Z.id, firstn_app, Nat.sub_diag, firstn_O, app_nil_r, firstn_all.
  now rewrite skipn_app, Nat.sub_diag, skipn_O, skipn_all.
Qed.

Lemma unword_word w : is_u32 w -> unword (word w) = w.
Proof. unfold is_u32, W32, unword, word. lia. Qed.
Lemma word_len w : zlen (word w) = 4.
Proof. reflexivity. Qed.
Lemma word_bytes w : any_bytes (word w).
Proof. unfold word. repeat constructor; lia. Qed.
Lemma rr_r32 w (P : vm -> Prop) : is_u32 w -> rr P r32 (word w) (fun a t => P t /\ a = w).
Proof.
  intro H. unfold r32. eapply rr_bind; [symmetry; apply app_nil_r|apply rr_take; reflexivity|].
  intro a. apply rr_ret. intros t [Ht ->]. split; [exact Ht|]. now apply unword_word.
Qed.
Lemma rr_r8 c (P : vm -> Prop) : rr P r8 [c] (fun a t => P t /\ a = c).
Proof.
  unfold r8. eapply rr_bind; [symmetry; apply app_nil_r|apply rr_take; reflexivity|].
  intro a. apply rr_ret. intros t [Ht ->]. auto.
Qed.
Lemma rr_value v (P : vm -> Prop) : raw_value v -> rr P rvalue (save_value v) (fun a t => P t /\ a = v).
Proof.
  intros [H K]. unfold rvalue, save_value. eapply rr_bind; [reflexivity|apply rr_r32, H|]. intro a. apply rr_and. intros ->.
  eapply rr_bind; [symmetry; apply app_nil_r|apply rr_r32, K|]. intro d. apply rr_ret. intros t [Ht ->]. split; [exact Ht|].
  destruct v; reflexivity.
Qed.
Lemma save_value_bytes v : any_bytes (save_value v).
Proof. apply Forall_app. split; apply word_bytes. Qed.

Lemma cstr_text_id b : text b -> cstr b = b.
Proof. induction 1 as [|c r Hc _ IH]; [reflexivity|]. cbn [cstr]. destruct (Z.eqb_spec c 0); [lia|]. now rewrite IH. Qed.
Lemma text_bytes b : text b -> any_bytes b.
Proof. apply Forall_impl. intros. lia. Qed.
Lemma save_string_bytes b : text b -> any_bytes (save_string b).
Proof. intro H. apply Forall_app. split; [apply word_bytes|apply text_bytes, H]. Qed.
Lemma rr_string b (P : vm -> Prop) : short_text b -> rr P load_string (save_string b) (fun a t => P t /\ a = b).
Proof.
  intros [H K]. unfold load_string, save_string. assert (R := zlen_nonneg b).
  eapply rr_bind; [reflexivity|apply rr_r32; unfold is_u32, W32, INVALID in *; lia|]. intro n. apply rr_and. intros ->.
  destruct (Z.leb_spec INVALID (zlen b)); [lia|].
  eapply rr_bind; [symmetry; apply app_nil_r|apply rr_take; reflexivity|]. intro a. apply rr_ret. intros t [Ht ->].
  split; [exact Ht|now apply cstr_text_id].
Qed.
Lemma rr_string_in max b (P : vm -> Prop) : short_text b -> zlen b < max ->
  rr P (load_string_in max) (save_string b) (fun a t => P t /\ a = b).
Proof.
  intros [H K] M. unfold load_string_in, save_string. assert (R := zlen_nonneg b).
  eapply rr_bind; [reflexivity|apply rr_r32; unfold is_u32, W32, INVALID in *; lia|]. intro n. apply rr_and. intros ->.
  destruct (Z.leb_spec max (zlen b)); [lia|].
  eapply rr_bind; [symmetry; apply app_nil_r|apply rr_take; reflexivity|]. intro a. apply rr_ret. intros t [Ht ->].
  split; [exact Ht|now apply cstr_text_id].
Qed.

Lemma rr_alloc size count (P : vm -> Prop) : count < INVALID / size -> rr P (alloc_array size count) [] (fun _ => P).
Proof. intros H. unfold alloc_array. destruct (Z.leb_spec (INVALID / size) count); [lia|]. apply rr_ret. auto. Qed.

Lemma rr_times {A} (l : list A) (m : L A) enc (P : vm -> Prop) :
  (forall x, In x l -> rr P m (enc x) (fun a t => P t /\ a = x)) ->
  rr P (times (length l) m) (concat (map enc l)) (fun a t => P t /\ a = l).
Proof.
  induction l as [|x r IH]; intro H; cbn [length times map concat].
  - apply rr_ret. auto.
  - eapply rr_bind; [reflexivity|apply H; now left|]. intro a. apply rr_and. intros ->.
    eapply rr_bind; [symmetry; apply app_nil_r|apply IH; intros y I; apply H; now right|].
    intro q. apply rr_ret. intros t [Ht ->]. auto.
Qed.
Lemma rr_times_ix (m : L Z) enc (P : Z -> vm -> Prop) : forall n lo,
  (forall k, lo <= k < lo + Z.of_nat n -> rr (P k) m (enc k) (fun a t => P (k + 1) t /\ a = k)) ->
  rr (P lo) (times n m) (concat (map enc (zseq lo n))) (fun a t => P (lo + Z.of_nat n) t /\ a = zseq lo n).
Proof.
  induction n as [|n IH]; intros lo H; cbn [times zseq map concat].
  - apply rr_ret. intros t Ht. change (Z.of_nat 0) with 0. rewrite Z.add_0_r. auto.
  - eapply rr_bind; [reflexivity|apply H; lia|]. intro a. apply rr_and. intros ->.
    eapply rr_bind; [symmetry; apply app_nil_r|apply IH; intros k I; apply H; lia|].
    intro q. apply rr_ret. intros t [Ht ->]. replace (lo + Z.of_nat (S n)) with (lo + 1 + Z.of_nat n) by lia. auto.
Qed.
Lemma rr_times_st {A B} (l : list A) (m : L B) enc (I : list A -> vm -> Prop) :
  (forall pre x post, l = pre ++ x :: post -> rr (I pre) m (enc x) (fun _ => I (pre ++ [x]))) ->
  rr (I []) (times (length l) m) (concat (map enc l)) (fun _ => I l).
Proof.
  assert (G : forall l pre, (forall p x q, pre ++ l = p ++ x :: q -> rr (I p) m (enc x) (fun _ => I (p ++ [x]))) ->
    rr (I pre) (times (length l) m) (concat (map enc l)) (fun _ => I (pre ++ l))).
  { clear. induction l as [|x r IH]; intros pre H; cbn [length times map concat].
    - apply rr_ret. intros t. rewrite app_nil_r. auto.
    - eapply rr_bind; [reflexivity|apply (H pre x r); reflexivity|]. intro a.
      eapply rr_bind; [symmetry; apply app_nil_r| |].
      + apply (IH (pre ++ [x])). intros p y q E. apply H with (q := q). rewrite <- E, <- app_assoc. reflexivity.
      + intro q. apply rr_ret. intros t. rewrite <- app_assoc. auto. }
  intro H. apply (G l []). exact H.
Qed.
Lemma rr_each n (m : Z -> L unit) enc (I : Z -> vm -> Prop) : forall i,
  (forall j, i <= j < i + Z.of_nat n -> rr (I j) (m j) (enc j) (fun _ => I (j + 1))) ->
  rr (I i) (each n i m) (concat (map enc (zseq i n))) (fun _ => I (i + Z.of_nat n)).
Proof.
  induction n as [|k IH]; intros i H; cbn [each zseq map concat].
  - apply rr_ret. intro t. rewrite Z.add_0_r. auto.
  - eapply rr_bind; [reflexivity|apply H; lia|]. intros ?. 
    replace (i + Z.of_nat (S k)) with (i + 1 + Z.of_nat k) by lia. apply IH. intros j Hj. apply H. lia.
Qed.
Lemma concat_bytes {A} (l : list A) enc : (forall x, In x l -> any_bytes (enc x)) -> any_bytes (concat (map enc l)).
Proof.
  induction l as [|x r IH]; intro H; cbn [map concat]; [constructor|]. apply Forall_app. split; [apply H; now left|].
  apply IH. intros y I. apply H. now right.
Qed.

Lemma pow2_is z : pow2 z -> is_pow2 z = true.
Proof.
  intros [k [Hk ->]]. unfold is_pow2. apply orb_true_iff. right. apply Z.eqb_eq.
  replace (2 ^ k - 1) with (Z.ones k) by (rewrite Z.ones_equiv; lia). rewrite Z.land_ones by lia. apply Z.mod_same.
  assert (0 < 2 ^ k) by (apply Z.pow_pos_nonneg; lia). lia.
Qed.

(** ** Instructions, errors, statics *)

Lemma last_used_le l n : (last_used l n <= n)%nat.
Proof. induction n as [|k IH]; cbn [last_used]; [lia|]. destruct (nth_error l (S k)) as [[| |]|]; lia. Qed.
Lemma last_used_zero l n i : (last_used l n < i <= n)%nat -> nth_error l i = Some 0.
Proof.
  induction n as [|k IH]; cbn [last_used]; [lia|]. intro H. destruct (nth_error l (S k)) as [[| |]|] eqn:E; try lia.
  destruct (Nat.eq_dec i (S k)) as [->|N]; [exact E|]. apply IH. lia.
Qed.
Lemma all_zero l n : length l = n -> (forall i, (i < n)%nat -> nth_error l i = Some 0) -> l = repeat 0 n.
Proof.
  intros <-. induction l as [|a r IH]; intro H; [reflexivity|]. cbn [length repeat]. f_equal.
  - specialize (H O ltac:(cbn; lia)). now injection H.
  - apply IH. intros i Hi. apply (H (S i)). cbn. lia.
Qed.

Lemma in_firstn {A} n (l : list A) x : In x (firstn n l) -> In x l.
Proof. intro H. rewrite <- (firstn_skipn n l). apply in_or_app. now left. Qed.
Lemma nth_error_skip {A} n (l : list A) i : nth_error (skipn n l) i = nth_error l (n + i).
Proof. revert l. induction n as [|n IH]; intros [|a l]; cbn; auto. now destruct i. Qed.

Section Round.
Variable s : vm.
Hypothesis W : machine_words s.
Hypothesis Wf : wf true 0 s.
Variable X : vm -> Prop.

Lemma rr_instructions : (forall t m, X t -> X (set_cmask m t)) -> (forall t l, X t -> X (set_code l t)) ->
  rr X load_instructions (save_instructions s) (fun _ t => X t /\ v_code t = v_code s /\ v_cmask t = v_cmask s).
Proof.
  intros X1 X2. destruct (w_code _ _ _ Wf) as [Lc Pc]. destruct (mw_code _ W) as [Uc Bc].
  assert (Bd := pow2_bounds _ Pc). unfold W31 in Bd. unfold load_instructions, save_instructions.
  set (k := last_used (v_code s) (Z.to_nat (v_cmask s))).
  assert (Lk : (k <= Z.to_nat (v_cmask s))%nat) by apply last_used_le.
  assert (Rm : 0 <= v_cmask s < INVALID) by (unfold INVALID; lia).
  eapply rr_bind; [reflexivity|apply rr_r32; unfold is_u32, W32, INVALID in *; lia|]. intro a. apply rr_and. intros ->.
  eapply rr_bind; [reflexivity|apply rr_r32; unfold is_u32, W32, INVALID in *; lia|]. intro m. apply rr_and. intros ->.
  eapply rr_bind0; [apply (rr_mod _ _ (fun _ t => X t /\ v_cmask t = v_cmask s)); intros; split; auto|]. intros ?.
  destruct (Z.eqb_spec (v_cmask s) INVALID); [lia|]. rewrite <- Lc, pow2_is by exact Pc. cbn [negb].
  destruct (Z.ltb_spec (v_cmask s) (Z.of_nat k)); [lia|].
  eapply rr_bind0; [apply rr_alloc; lia|]. intros ?.
  eapply rr_bind0; [apply (rr_mod _ _ (fun _ t => X t /\ v_cmask t = v_cmask s)); intros t [? ?]; split; auto|]. intros ?.
  eapply rr_bind; [symmetry; apply app_nil_r| |].
  { replace (S (Z.to_nat (Z.of_nat k))) with (length (firstn (S k) (v_code s))).
    - apply rr_times. intros x I. apply rr_r32. rewrite Forall_forall in Uc. apply Uc. eapply in_firstn; exact I.
    - rewrite firstn_length. unfold zlen in Lc. lia. }
  intro ws. apply rr_and. intros ->. apply rr_mod. intros t [Ht Em]. vs. split; [auto|]. split; [|exact Em].
  rewrite <- (firstn_skipn (S k) (v_code s)) at 2. f_equal. symmetry. apply all_zero.
  - rewrite skipn_length. unfold zlen in Lc. lia.
  - intros i Hi. rewrite nth_error_skip. apply last_used_zero with (n := Z.to_nat (v_cmask s)). fold k. lia.
Qed.

Lemma rr_errors : (forall t l, X t -> X (set_errs l t)) ->
  rr (fun t => X t /\ v_errs t = []) load_errors (save_errors s) (fun _ t => X t /\ v_errs t = v_errs s).
Proof.
  intro X1. destruct (mw_errs _ W) as [U B]. unfold load_errors, save_errors. assert (R := zlen_nonneg (v_errs s)).
  eapply rr_bind; [reflexivity|apply rr_r32; unfold is_u32; lia|]. intro n. apply rr_and. intros ->.
  eapply rr_bind; [symmetry; apply app_nil_r| |].
  { unfold zlen. rewrite Nat2Z.id. apply rr_times. intros x I. apply rr_string. rewrite Forall_forall in U. auto. }
  intro l. apply rr_and. intros ->. destruct (v_errs s) as [|e r] eqn:E.
  - apply rr_ret. auto.
  - apply rr_mod. intros t [Ht _]. auto.
Qed.

Lemma rr_statics : (forall t m, X t -> X (set_smask m t)) -> (forall t l, X t -> X (set_static l t)) ->
  rr X load_statics (save_statics s) (fun _ t => X t /\ v_static t = v_static s /\ v_smask t = v_smask s).
Proof.
  intros X1 X2. destruct (w_static _ _ _ Wf) as [Ls Ps]. destruct (mw_static _ W) as [Us Bs].
  assert (Bd := pow2_bounds _ Ps). unfold W31 in Bd. unfold load_statics, save_statics.
  eapply rr_bind; [reflexivity|apply rr_r32; unfold is_u32, W32, INVALID in *; lia|]. intro m. apply rr_and. intros ->.
  assert (Eu : u32 (v_smask s + 1) = zlen (v_static s)) by (unfold u32, W32; rewrite <- Ls; apply Z.mod_small; lia).
  rewrite Eu, pow2_is by exact Ps. cbn [negb]. destruct (Z.leb_spec INVALID (v_smask s)) as [L|_]; [unfold INVALID in L; lia|].
  eapply rr_bind0; [apply (rr_mod _ _ (fun _ t => X t /\ v_smask t = v_smask s)); intros; split; auto|]. intros ?.
  eapply rr_bind0; [apply rr_alloc; lia|]. intros ?.
  eapply rr_bind; [symmetry; apply app_nil_r| |].
  { rewrite <- Ls. unfold zlen. rewrite Nat2Z.id. apply rr_times. intros x I. apply rr_value. rewrite Forall_forall in Us. auto. }
  intro l. apply rr_and. intros ->. apply rr_mod. intros t [Ht Em]. auto.
Qed.

(** ** Functions, globals and the rest *)

Lemma rr_gc : (forall t g, X t -> X (set_gcpass g t)) -> (forall t g, X t -> X (set_gcint g t)) ->
  (forall t g, X t -> X (set_gccount g t)) -> (forall t g, X t -> X (set_newint g t)) -> (forall t g, X t -> X (set_newcount g t)) ->
  rr X load_gc (save_gc s) (fun _ t => X t /\ v_gcpass t = v_gcpass s /\ v_gcint t = Z.min 65536 (v_gcint s) /\
    v_gccount t = v_gccount s /\ v_newint t = v_newint s /\ v_newcount t = v_newcount s).
Proof.
  intros X1 X2 X3 X4 X5. destruct (mw_gc _ W) as (U1 & U2 & U3 & U4 & U5). unfold load_gc, save_gc.
  eapply rr_bind; [reflexivity|apply rr_r32, U1|]. intros ?. apply rr_and. intros ->.
  eapply rr_bind0; [apply (rr_mod _ _ (fun _ t => X t /\ v_gcpass t = v_gcpass s)); intros; split; auto|]. intros ?.
  eapply rr_bind; [reflexivity|apply rr_r32, U2|]. intros ?. apply rr_and. intros ->.
  eapply rr_bind0; [apply (rr_mod _ _ (fun _ t => X t /\ v_gcpass t = v_gcpass s /\ v_gcint t = Z.min 65536 (v_gcint s)))|].
  { intros t [? ?]. split; [auto|]. split; [auto|]. vs. destruct (Z.ltb_spec 65536 (v_gcint s)); lia. }
  intros ?. eapply rr_bind; [reflexivity|apply rr_r32, U3|]. intros ?. apply rr_and. intros ->.
  eapply rr_bind0; [apply (rr_mod _ _ (fun _ t => X t /\ v_gcpass t = v_gcpass s /\ v_gcint t = Z.min 65536 (v_gcint s) /\
    v_gccount t = v_gccount s)); intros t (? & ? & ?); auto|].
  intros ?. eapply rr_bind; [reflexivity|apply rr_r32, U4|]. intros ?. apply rr_and. intros ->.
  eapply rr_bind0; [apply (rr_mod _ _ (fun _ t => X t /\ v_gcpass t = v_gcpass s /\ v_gcint t = Z.min 65536 (v_gcint s) /\
    v_gccount t = v_gccount s /\ v_newint t = v_newint s)); intros t (? & ? & ? & ?); auto|].
  intros ?. eapply rr_bind; [symmetry; apply app_nil_r|apply rr_r32, U5|]. intros ?. apply rr_and. intros ->.
  apply rr_mod. intros t (? & ? & ? & ? & ?). auto 7.
Qed.

Lemma rr_globals : (forall t l, X t -> X (set_globals l t)) ->
  rr X load_globals (save_globals s) (fun _ t => X t /\ v_globals t = v_globals s).
Proof.
  intro X1. destruct (mw_globals _ W) as [B U]. unfold load_globals, save_globals. assert (R := zlen_nonneg (v_globals s)).
  eapply rr_bind0; [apply (rr_mod _ _ (fun _ => X)); auto|]. intros ?.
  eapply rr_bind; [reflexivity|apply rr_r32; unfold is_u32, W32, INVALID in *; lia|]. intro n. apply rr_and. intros ->.
  eapply rr_bind0; [apply rr_alloc; lia|]. intros ?.
  eapply rr_bind; [symmetry; apply app_nil_r| |].
  { unfold zlen. rewrite Nat2Z.id. apply rr_times. intros x I. rewrite Forall_forall in U. destruct (U x I) as [U1 U2].
    eapply rr_bind; [reflexivity|apply rr_string, U2|]. intros ?. apply rr_and. intros ->.
    eapply rr_bind; [symmetry; apply app_nil_r|apply rr_r32, U1|]. intro p. apply rr_ret. intros t [Ht ->].
    destruct x; auto. }
  intro l. apply rr_and. intros ->. apply rr_mod. auto.
Qed.

Lemma rr_files : (forall t l, X t -> X (set_files l t)) ->
  rr X load_files (save_files s) (fun _ t => X t /\ v_files t = v_files s).
Proof.
  intro X1. destruct (mw_files _ W) as [U B]. unfold load_files, save_files. assert (R := zlen_nonneg (v_files s)).
  eapply rr_bind; [reflexivity|apply rr_r32; unfold is_u32, W32, INVALID in *; lia|]. intro n. apply rr_and. intros ->.
  eapply rr_bind0; [apply (rr_mod _ _ (fun _ => X)); auto|]. intros ?.
  eapply rr_bind0; [apply rr_alloc; lia|]. intros ?.
  eapply rr_bind; [symmetry; apply app_nil_r| |].
  { unfold zlen. rewrite Nat2Z.id. apply rr_times. intros x I. apply rr_string. rewrite Forall_forall in U. auto. }
  intro l. apply rr_and. intros ->. apply rr_mod. auto.
Qed.

Lemma rr_markers : (forall t l, X t -> X (set_markers l t)) ->
  rr X load_markers (save_markers s) (fun _ t => X t /\ v_markers t = v_markers s).
Proof.
  intro X1. destruct (mw_markers _ W) as [B U]. unfold load_markers, save_markers. assert (R := zlen_nonneg (v_markers s)).
  eapply rr_bind; [reflexivity|apply rr_r32; unfold is_u32, W32, INVALID in *; lia|]. intro n. apply rr_and. intros ->.
  eapply rr_bind0; [apply (rr_mod _ _ (fun _ => X)); auto|]. intros ?.
  eapply rr_bind0; [apply rr_alloc; lia|]. intros ?.
  eapply rr_bind; [symmetry; apply app_nil_r| |].
  { unfold zlen. rewrite Nat2Z.id. apply rr_times. intros x I. rewrite Forall_forall in U. destruct (U x I) as (U1 & U2 & U3 & U4).
    unfold rmarker, save_marker.
    eapply rr_bind; [reflexivity|apply rr_r32, U1|]. intros ?. apply rr_and. intros ->.
    eapply rr_bind; [reflexivity|apply rr_r32, U2|]. intros ?. apply rr_and. intros ->.
    eapply rr_bind; [reflexivity|apply rr_r32, U3|]. intros ?. apply rr_and. intros ->.
    eapply rr_bind; [symmetry; apply app_nil_r|apply rr_r32, U4|]. intro p. apply rr_ret. intros t [Ht ->].
    destruct x; auto. }
  intro l. apply rr_and. intros ->. apply rr_mod. auto.
Qed.
End Round.

(** ** Contexts *)

(** Context [d] is at the position of context [c] and holds the same values. *)
Definition looks (c d : ctx) : Prop :=
  c_ip d = c_ip c /\ contents (c_stack d) = contents (c_stack c) /\
  k_size (c_stack d) = k_size (c_stack c) /\ k_cap (c_stack d) = k_cap (c_stack c).
Definition at' (i : Z) (F : ctx -> Prop) (t : vm) : Prop := exists d, znth (v_ctxs t) i = Some (Some d) /\ F d.

Section Ctx.
Variable X : vm -> Prop.
Variable i : Z.
Variable m0 : Z.
Hypothesis Xmax : forall t, X t -> v_maxstack t = m0.
Hypothesis Xctx : forall t c c', X t -> znth (v_ctxs t) i = Some (Some c) -> c_parent c' = c_parent c ->
  c_obj c' = c_obj c -> X (set_ctxs (zupd (v_ctxs t) i (Some c')) t).

Lemma rr_mod_ctx (F F' : ctx -> Prop) f : (forall d, c_parent (f d) = c_parent d /\ c_obj (f d) = c_obj d) ->
  (forall d, F d -> F' (f d)) -> rr (fun t => X t /\ at' i F t) (lvm (mod_ctx i f)) [] (fun _ t => X t /\ at' i F' t).
Proof.
  intros Hf HF. apply rr_vm. intros t [Ht (d & Z & Fd)]. unfold mod_ctx. rewrite Z. eexists _, _. split; [reflexivity|].
  destruct (Hf d). split; [eapply Xctx; eauto|]. exists (f d). vs. split; [|auto]. apply znth_zupd_same.
  eapply znth_some_range; exact Z.
Qed.

Lemma rr_context co c q : kwf (c_stack c) -> is_u32 (c_ip c) -> is_u32 (c_state c) -> raw_stack (c_stack c) ->
  k_cap (c_stack c) <= m0 ->
  rr (fun t => X t /\ at' i (fun d => c_parent d = None /\ c_obj d = q /\ (co = false -> c_state d = c_state c)) t)
    (load_context i co) (save_context co c)
    (fun _ t => X t /\ at' i (fun d => looks c d /\ c_parent d = None /\ c_obj d = q /\ c_state d = c_state c) t).
Proof.
  intros K Ui Us [Rv Rc] Mx. destruct K as [K1 K2 K3 K4]. assert (Bp := pow2_bounds _ K3). unfold W31 in Bp.
  unfold load_context, save_context.
  eapply rr_bind; [reflexivity|apply rr_r32, Ui|]. intros ?. apply rr_and. intros ->.
  eapply rr_bind0; [apply (rr_mod_ctx _ (fun d => c_ip d = c_ip c /\ c_parent d = None /\ c_obj d = q /\ (co = false -> c_state d = c_state c)));
    [intro; split; reflexivity|intros d D; cs; tauto]|]. intros ?.
  set (A := fun d => looks c d /\ c_parent d = None /\ c_obj d = q /\ (co = false -> c_state d = c_state c)).
  eapply rr_bind with (R := fun _ t => X t /\ at' i A t); [reflexivity| |].
  - unfold load_stack, save_stack.
    eapply rr_bind; [reflexivity|apply rr_r32; unfold is_u32, W32; lia|]. intros ?. apply rr_and. intros ->.
    eapply rr_bind; [reflexivity|apply rr_r32; unfold is_u32, W32; lia|]. intros ?. apply rr_and. intros ->.
    rewrite pow2_is by exact K3. cbn [negb].
    eapply rr_bind0; [apply rr_get|]. intro m.
    eapply rr_pre with (P' := fun t => (X t /\ at' i (fun d => c_ip d = c_ip c /\ c_parent d = None /\ c_obj d = q /\ (co = false -> c_state d = c_state c)) t) /\ m = m0).
    2: { intros t [[Ht Hd] ->]. split; [auto|]. apply Xmax, Ht. }
    apply rr_and. intros ->.
    destruct (Z.ltb_spec m0 (k_cap (c_stack c))); [lia|]. destruct (Z.ltb_spec (k_cap (c_stack c)) 1); [lia|].
    eapply rr_bind0; [apply rr_alloc; lia|]. intros ?.
    eapply rr_bind0; [apply (rr_mod_ctx _ (fun d => c_ip d = c_ip c /\ c_parent d = None /\ c_obj d = q /\ (co = false -> c_state d = c_state c)));
      [intro; split; reflexivity|intros d D; cs; tauto]|]. intros ?.
    destruct (Z.ltb_spec (k_cap (c_stack c)) (k_size (c_stack c))); [lia|].
    eapply rr_bind; [symmetry; apply app_nil_r| |].
    { replace (Z.to_nat (k_size (c_stack c))) with (length (firstn (Z.to_nat (k_size (c_stack c))) (k_vals (c_stack c)))) at 1.
      - apply rr_times. intros x I. apply rr_value. rewrite Forall_forall in Rv. apply Rv. eapply in_firstn; exact I.
      - rewrite firstn_length. unfold zlen in K1. lia. }
    intro l. apply rr_and. intros ->.
    apply (rr_mod_ctx _ A); [intro; split; reflexivity|]. intros d (D1 & D2 & D3 & D4). unfold A, looks. cs.
    split; [|tauto]. split; [exact D1|]. split; [|tauto]. unfold contents. cs.
    set (l := firstn (Z.to_nat (k_size (c_stack c))) (k_vals (c_stack c))).
    assert (Ll : length l = Z.to_nat (k_size (c_stack c))). { unfold l. rewrite firstn_length. unfold zlen in K1. lia. }
    rewrite firstn_app, <- Ll, Nat.sub_diag, firstn_O, app_nil_r. apply firstn_all.
  - intros ?. destruct co.
    + eapply rr_bind; [symmetry; apply app_nil_r|apply rr_r32, Us|]. intros ?. apply rr_and. intros ->.
      apply rr_mod_ctx; [intro; split; reflexivity|]. unfold A, looks. intros d D. cs. tauto.
    + apply rr_ret. intros t [Ht (d & Z & D)]. split; [exact Ht|]. exists d. split; [exact Z|]. unfold A in D. tauto.
Qed.
End Ctx.

(** ** Functions *)

Lemma map_index {A B} (f : A -> list B) (l : list A) :
  concat (map f l) = concat (map (fun k => match znth l k with Some x => f x | None => [] end) (zseq 0 (length l))).
Proof.
  assert (G : forall (p l : list A), concat (map f l) =
    concat (map (fun k => match znth (p ++ l) k with Some x => f x | None => [] end) (zseq (zlen p) (length l)))).
  { clear. intros p l. revert p. induction l as [|a r IH]; intro p; [reflexivity|]. cbn [map concat length zseq].
    rewrite znth_app_r by lia. rewrite Z.sub_diag, znth_cons_0. f_equal.
    replace (p ++ a :: r) with ((p ++ [a]) ++ r) by now rewrite <- app_assoc.
    replace (zlen p + 1) with (zlen (p ++ [a])) by (rewrite zlen_app; reflexivity). apply IH. }
  apply (G []).
Qed.
Lemma fill_wr {A} (l : list A) j x z : znth l j = Some x ->
  wr (firstn (Z.to_nat j) l ++ repeat z (Z.to_nat (zlen l - j))) j x =
  Ok (firstn (Z.to_nat (j + 1)) l ++ repeat z (Z.to_nat (zlen l - (j + 1)))).
Proof.
  intro Z. assert (R := znth_some_range _ _ _ Z).
  assert (Lf : zlen (firstn (Z.to_nat j) l) = j). { unfold zlen in *. rewrite firstn_length. lia. }
  replace (Z.to_nat (zlen l - j)) with (S (Z.to_nat (zlen l - (j + 1)))) by lia. cbn [repeat].
  unfold wr. rewrite znth_app_r by lia. rewrite Lf, Z.sub_diag, znth_cons_0. f_equal.
  apply list_ext_znth. intro k. rewrite znth_zupd.
  assert (Rf : firstn (Z.to_nat (j + 1)) l = firstn (Z.to_nat j) l ++ [x]).
  { replace (Z.to_nat (j + 1)) with (S (Z.to_nat j)) by lia. rewrite znth_def in Z. destruct (j <? 0); [discriminate|].
    revert Z. generalize (Z.to_nat j). clear. intro n. revert l. induction n as [|n IH]; intros [|a l] Z; cbn in *; try discriminate.
    - now injection Z as ->.
    - f_equal. apply IH, Z. }
  rewrite Rf, <- app_assoc. cbn [app].
  destruct (Z.lt_trichotomy k j) as [K|[->|K]].
  - destruct (Z.eqb_spec j k); [lia|]. cbn [andb].
    destruct (Z.ltb_spec k 0); [rewrite !znth_out by lia; reflexivity|]. rewrite !znth_app_l by lia. reflexivity.
  - rewrite Z.eqb_refl. rewrite zlen_app, zlen_cons, Lf. assert (Q := zlen_nonneg (repeat z (Z.to_nat (zlen l - (j + 1))))).
    replace (0 <=? j) with true by lia. match goal with |- context [j <? ?q] => replace (j <? q) with true by lia end.
    cbn [andb]. rewrite znth_app_r by lia. now rewrite Lf, Z.sub_diag, znth_cons_0.
  - destruct (Z.eqb_spec j k); [lia|]. cbn [andb]. rewrite !znth_app_r by lia. rewrite Lf.
    rewrite !(znth_cons_S _ _ (k - j)) by lia. reflexivity.
Qed.

Lemma match_name_pos names id : NoDup names -> forall l k name pos, map x_name l = names -> znth names k = Some name ->
  snd (match_name l name id pos) = pos + k /\ map x_name (fst (match_name l name id pos)) = names /\
  forall j y, 0 <= j <= k -> znth (fst (match_name l name id pos)) j = Some y -> x_func y = if j =? k then id else INVALID.
Proof.
  induction names as [|n r IH]; intros N l k name pos E Z.
  - apply znth_some_range in Z. change (zlen (@nil bytes)) with 0 in Z. lia.
  - destruct l as [|x q]; [discriminate|]. cbn [map] in E. injection E as En Eq. inversion N as [|? ? Nn Nr]; subst n.
    cbn [match_name]. assert (R := znth_some_range _ _ _ Z). destruct (bytes_eqb name (x_name x)) eqn:B.
    + apply bytes_eqb_eq in B. assert (k = 0).
      { destruct (Z.eq_dec k 0) as [|Nk]; [auto|]. rewrite znth_cons_S in Z by lia. destruct Nn. rewrite <- B. apply In_znth. eauto. }
      cbn [fst snd map x_name]. split; [lia|]. split; [congruence|]. intros j y Rj Zj. assert (j = 0) as -> by lia. subst k.
      rewrite znth_cons_0 in Zj. injection Zj as <-. reflexivity.
    + assert (Nk : k <> 0). { intros ->. rewrite znth_cons_0 in Z. injection Z as Z. rewrite Z, bytes_eqb_refl in B. discriminate. }
      rewrite znth_cons_S in Z by lia. destruct (IH Nr q (k - 1) name (pos + 1) Eq Z) as (I1 & I2 & I3).
      destruct (match_name q name id (pos + 1)) as [q' p]. cbn [fst snd map x_name] in *. split; [lia|]. split; [congruence|].
      intros j y Rj Zj. destruct (Z.eq_dec j 0) as [->|Nj].
      * rewrite znth_cons_0 in Zj. injection Zj as <-. destruct (Z.eqb_spec 0 k); [lia|reflexivity].
      * rewrite znth_cons_S in Zj by lia. rewrite (I3 (j - 1) y ltac:(lia) Zj). destruct (Z.eqb_spec (j - 1) (k - 1)), (Z.eqb_spec j k); lia.
Qed.

Lemma znth_zseq n : forall lo k, 0 <= k < Z.of_nat n -> znth (zseq lo n) k = Some (lo + k).
Proof.
  induction n as [|n IH]; intros lo k R; [lia|]. cbn [zseq]. destruct (Z.eq_dec k 0) as [->|N].
  - rewrite znth_cons_0. f_equal. lia.
  - rewrite znth_cons_S, IH by lia. f_equal. lia.
Qed.

(** After reading [k] host functions, only the last of them has kept its
    identifier. *)
Definition host_ids (k : Z) (s t : vm) : Prop :=
  forall j x y, 0 <= j < k -> znth (v_extfuncs s) j = Some x -> znth (v_extfuncs t) j = Some y ->
    x_func y = if j =? k - 1 then x_func x else INVALID.

Section Funcs.
Variable s : vm.
Hypothesis W : machine_words s.
Variable X : vm -> Prop.

Lemma rr_functions : v_funcs s <> [] -> NoDup (map x_name (v_extfuncs s)) ->
  (forall t l, X t -> X (set_extfuncs l t)) -> (forall t l, X t -> X (set_funcs l t)) ->
  rr (fun t => X t /\ map x_name (v_extfuncs t) = map x_name (v_extfuncs s)) load_functions (save_functions s)
     (fun _ t => (X t /\ map x_name (v_extfuncs t) = map x_name (v_extfuncs s) /\ host_ids (zlen (v_extfuncs s)) s t) /\ v_funcs t = v_funcs s).
Proof.
  intros Nf Nd X1 X2. destruct (mw_extfuncs _ W) as [B U]. destruct (mw_funcs _ W) as [Bf Uf].
  set (Y0 := fun k t => X t /\ map x_name (v_extfuncs t) = map x_name (v_extfuncs s) /\ host_ids k s t).
  eapply rr_pre with (P' := Y0 0). 2: { intros t [H1 H2]. split; [exact H1|]. split; [exact H2|]. intros j x y Rj. lia. }
  set (Y := Y0 (zlen (v_extfuncs s))).
  assert (R := zlen_nonneg (v_extfuncs s)). assert (Rf := zlen_nonneg (v_funcs s)).
  unfold load_functions, save_functions.
  eapply rr_bind; [reflexivity|apply rr_r32; unfold is_u32, W32, INVALID in *; lia|]. intros ?. apply rr_and. intros ->.
  eapply rr_bind0; [apply rr_alloc; lia|]. intros ?.
  eapply rr_bind with (R := fun mp t => Y t /\ mp = zseq 0 (length (v_extfuncs s))); [reflexivity| |].
  { unfold zlen at 1. rewrite Nat2Z.id, map_index. apply (rr_times_ix load_extfunc _ Y0). intros k I. destruct (znth_in_range (v_extfuncs s) k) as [x Zx]; [unfold zlen; lia|].
    rewrite Zx. rewrite Forall_forall in U. destruct (U x) as [U1 U2]; [apply In_znth; eauto|].
    unfold load_extfunc. eapply rr_bind; [reflexivity|apply rr_r32, U1|]. intros ?. apply rr_and. intros ->.
    eapply rr_bind; [symmetry; apply app_nil_r|apply rr_string, U2|]. intros ?. apply rr_and. intros ->.
    eapply rr_bind0; [apply rr_get|]. intro l. cbn beta.
    intros t [(Ht & En & _) ->].
    destruct (match_name_pos _ (x_func x) Nd (v_extfuncs t) k (x_name x) 0 En) as (P1 & P2 & P3).
    { rewrite znth_map, Zx. reflexivity. }
    destruct (match_name (v_extfuncs t) (x_name x) (x_func x) 0) as [l' p]. cbn [fst snd] in *.
    exists p, (set_extfuncs l' t). split; [reflexivity|]. split; [|lia]. split; [auto|]. split; [exact P2|].
    intros j x0 y Rj Zj Zy. vsin Zy. rewrite (P3 j y ltac:(lia) Zy). destruct (Z.eqb_spec j k), (Z.eqb_spec j (k + 1 - 1)); try lia.
    subst j. congruence. }
  intro mp. apply rr_and. intros ->.
  eapply rr_bind; [reflexivity|apply rr_r32; unfold is_u32, W32, INVALID in *; lia|]. intros ?. apply rr_and. intros ->.
  eapply rr_bind0; [apply rr_alloc; lia|]. intros ?.
  destruct (Z.eqb_spec (zlen (v_funcs s)) 0) as [E|_].
  { destruct Nf. destruct (v_funcs s); [reflexivity|]. rewrite zlen_cons in E. assert (Q := zlen_nonneg l). lia. }
  set (I := fun j t => Y t /\ v_funcs t = firstn (Z.to_nat j) (v_funcs s) ++ repeat (mkF 0 0 0) (Z.to_nat (zlen (v_funcs s) - j))).
  eapply rr_bind0 with (R := fun _ => I 0).
  { apply rr_mod. intros t (Ht & En & Ei). split; [split; auto|]. vs. rewrite Z.sub_0_r. reflexivity. }
  intros ?. rewrite map_index. eapply rr_post with (Q' := fun _ => I (0 + Z.of_nat (Z.to_nat (zlen (v_funcs s))))).
  2: { intros _ t [Ht E]. split; [exact Ht|]. rewrite E. rewrite Z.add_0_l, Z2Nat.id by lia. rewrite Z.sub_diag. cbn [Z.to_nat repeat].
       rewrite app_nil_r. unfold zlen. rewrite Nat2Z.id. apply firstn_all. }
  replace (length (v_funcs s)) with (Z.to_nat (zlen (v_funcs s))) by (unfold zlen; lia).
  apply rr_each with (I := I). intros j Hj. destruct (znth_in_range (v_funcs s) j) as [f Zf]; [lia|]. rewrite Zf.
  rewrite Forall_forall in Uf. destruct (Uf f) as (U1 & U2 & U3); [apply In_znth; eauto|].
  assert (Ue : is_u32 (f_ext f)) by (unfold is_u32, W32, INVALID in *; lia).
  unfold load_function. eapply rr_bind; [reflexivity|apply rr_r32, U1|]. intros ?. apply rr_and. intros ->.
  eapply rr_bind; [reflexivity|apply rr_r32, U2|]. intros ?. apply rr_and. intros ->.
  eapply rr_bind; [symmetry; apply app_nil_r|apply rr_r32, Ue|]. intros ?. apply rr_and. intros ->.
  assert (Put : rr (I j) (put_function j (mkF (f_argc f) (f_first f) (f_ext f))) [] (fun _ => I (j + 1))).
  { unfold put_function. eapply rr_bind0; [apply rr_get|]. intro l. cbn beta. intros t [[Ht E] ->].
    replace (mkF (f_argc f) (f_first f) (f_ext f)) with f by (destruct f; reflexivity).
    exists tt, (set_funcs (firstn (Z.to_nat (j + 1)) (v_funcs s) ++ repeat (mkF 0 0 0) (Z.to_nat (zlen (v_funcs s) - (j + 1)))) t).
    split.
    - intro rest. unfold lbind, llift, lvm, lift. rewrite E, (fill_wr _ _ _ _ Zf). reflexivity.
    - destruct Ht. split; [split; auto|reflexivity]. }
  destruct (Z.eqb_spec (f_ext f) INVALID) as [E|N]; [exact Put|].
  destruct U3 as [|U3]; [contradiction|]. replace (zlen (zseq 0 (length (v_extfuncs s)))) with (zlen (v_extfuncs s)) by (unfold zlen; now rewrite zseq_length). destruct (Z.ltb_spec (f_ext f) (zlen (v_extfuncs s))); [|lia].
  eapply rr_bind0; [apply (rr_lift _ (f_ext f))|].
  { unfold rd. rewrite znth_zseq by (unfold zlen in *; lia). reflexivity. }
  intros ?. apply rr_and. intros ->. eapply rr_bind0; [exact Put|]. intros ?.
  destruct (Z.eqb_spec (f_ext f) INVALID); [contradiction|]. apply rr_ret. auto.
Qed.
End Funcs.

(** ** Tables *)

(** The entries of a table with their places. *)
Fixpoint entries {A} (i : Z) (l : list (option A)) : list (Z * A) :=
  match l with
  | [] => []
  | None :: r => entries (i + 1) r
  | Some e :: r => (i, e) :: entries (i + 1) r
  end.
Lemma over_entries {A B} (f : Z -> A -> list B) l : forall i,
  over i l (fun i x => match x with None => [] | Some e => f i e end) = concat (map (fun p => f (fst p) (snd p)) (entries i l)).
Proof.
  induction l as [|[e|] r IH]; intro i; cbn [over entries map concat fst snd]; [reflexivity| |]; now rewrite IH.
Qed.
Lemma occupied_entries {A} (l : list (option A)) : forall i, occupied l = zlen (entries i l).
Proof.
  induction l as [|[e|] r IH]; intro i; unfold occupied in *; cbn [filter entries]; [reflexivity| |apply IH].
  rewrite !zlen_cons. now rewrite (IH (i + 1)).
Qed.
Lemma entries_in {A} (l : list (option A)) e : forall k i, In (i, e) (entries k l) <-> znth l (i - k) = Some (Some e).
Proof.
  induction l as [|[a|] r IH]; intros k i; cbn [entries].
  - split; [intros []|]. intro Z. apply znth_some_range in Z. change (zlen (@nil (option A))) with 0 in Z. lia.
  - cbn [In]. rewrite IH. replace (i - (k + 1)) with (i - k - 1) by lia. split.
    + intros [E|Z]; [injection E as -> ->; now rewrite Z.sub_diag, znth_cons_0|]. assert (R := znth_some_range _ _ _ Z). now rewrite znth_cons_S by lia.
    + intro Z. assert (R := znth_some_range _ _ _ Z). destruct (Z.eq_dec (i - k) 0) as [E|N].
      * rewrite E, znth_cons_0 in Z. injection Z as ->. left. f_equal. lia.
      * right. now rewrite znth_cons_S in Z by lia.
  - rewrite IH. replace (i - (k + 1)) with (i - k - 1) by lia. split.
    + intro Z. assert (R := znth_some_range _ _ _ Z). now rewrite znth_cons_S by lia.
    + intro Z. assert (R := znth_some_range _ _ _ Z). destruct (Z.eq_dec (i - k) 0) as [E|N].
      * rewrite E, znth_cons_0 in Z. discriminate.
      * now rewrite znth_cons_S in Z by lia.
Qed.
Lemma entries_lt {A} (l : list (option A)) : forall k i, In i (map fst (entries k l)) -> k <= i.
Proof.
  induction l as [|[a|] r IH]; intros k i; cbn [entries map In fst]; [tauto| |].
  - intros [<-|I]; [lia|]. specialize (IH _ _ I). lia.
  - intro I. specialize (IH _ _ I). lia.
Qed.
Lemma entries_nodup {A} (l : list (option A)) : forall k, NoDup (map fst (entries k l)).
Proof.
  induction l as [|[a|] r IH]; intro k; cbn [entries map fst]; [constructor| |apply IH].
  constructor; [|apply IH]. intro I. apply entries_lt in I. lia.
Qed.

(** The part [pre] of the entries has been put into the table. *)
Definition filled {A B} (conv : A -> B) cap (pre : list (Z * A)) (slots : list (option B)) : Prop :=
  zlen slots = cap /\ (forall i e, In (i, e) pre -> znth slots i = Some (Some (conv e))) /\
  forall i, 0 <= i < cap -> (forall e, ~ In (i, e) pre) -> znth slots i = Some None.
Lemma filled_empty {A B} (conv : A -> B) cap : 0 <= cap -> filled conv cap [] (repeat None (Z.to_nat cap)).
Proof.
  intro H. split; [rewrite zlen_repeat; lia|]. split; [intros ? ? []|]. intros i R _. apply znth_repeat. lia.
Qed.
Lemma filled_place {A B} (conv : A -> B) (l : list (option A)) pre i e post slots : entries 0 l = pre ++ (i, e) :: post ->
  filled conv (zlen l) pre slots -> 0 <= i < zlen l /\ znth slots i = Some None.
Proof.
  intros E (F1 & F2 & F3). assert (I : In (i, e) (entries 0 l)) by (rewrite E; apply in_elt).
  apply entries_in in I. rewrite Z.sub_0_r in I. apply znth_some_range in I. split; [exact I|]. apply F3; [exact I|].
  intros e' I'. assert (N := entries_nodup l 0). rewrite E, map_app in N. cbn [map fst] in N. apply NoDup_remove_2 in N. apply N.
  apply in_or_app. left. apply (in_map fst) in I'. exact I'.
Qed.
Lemma filled_step {A B} (conv : A -> B) (l : list (option A)) pre i e post slots : entries 0 l = pre ++ (i, e) :: post ->
  filled conv (zlen l) pre slots -> filled conv (zlen l) (pre ++ [(i, e)]) (zupd slots i (Some (conv e))).
Proof.
  intros E F. destruct (filled_place conv l pre i e post slots E F) as [R Z]. destruct F as (F1 & F2 & F3).
  split; [now rewrite zlen_zupd|]. split.
  - intros j x I. apply in_app_or in I. destruct I as [I|[I|[]]].
    + rewrite znth_zupd_other; [now apply F2|]. intros ->. rewrite (F2 _ _ I) in Z. discriminate.
    + injection I as -> ->. apply znth_zupd_same. lia.
  - intros j Rj N. rewrite znth_zupd_other.
    + apply F3; [exact Rj|]. intros x I. apply (N x). apply in_or_app. now left.
    + intros ->. apply (N e). apply in_elt.
Qed.
Lemma filled_all {A B} (conv : A -> B) (l : list (option A)) slots : filled conv (zlen l) (entries 0 l) slots ->
  slots = map (option_map conv) l.
Proof.
  intros (F1 & F2 & F3). apply list_ext_znth. intro i. rewrite znth_map.
  destruct (znth l i) as [[e|]|] eqn:Z; cbn [option_map].
  - apply F2. apply entries_in. now rewrite Z.sub_0_r.
  - apply F3; [eapply znth_some_range; exact Z|]. intros e I. apply entries_in in I. rewrite Z.sub_0_r in I. congruence.
  - apply znth_none_range in Z. apply znth_out. lia.
Qed.
Lemma some_same {A} (l : list (option A)) : map (option_map (fun x => x)) l = l.
Proof. induction l as [|[a|] r IH]; cbn; congruence. Qed.

Lemma wr_ok {A} (l : list A) i x y : znth l i = Some y -> wr l i x = Ok (zupd l i x).
Proof. intro Z. unfold wr. now rewrite Z. Qed.

Lemma filter_length_le {A} f (l : list A) : (length (filter f l) <= length l)%nat.
Proof. induction l as [|a r IH]; cbn; [lia|]. destruct (f a); cbn; lia. Qed.
Lemma zupd_twice {A} (l : list A) i x y : zupd (zupd l i x) i y = zupd l i y.
Proof.
  apply list_ext_znth. intro j. rewrite !znth_zupd, zlen_zupd. destruct ((i =? j) && (0 <=? i) && (i <? zlen l)); reflexivity.
Qed.

(** ** Strings *)

Section StrRound.
Variable s : vm.
Hypothesis W : machine_words s.
Hypothesis Wf : wf true 0 s.
Variable X : vm -> Prop.
Hypothesis Xstrs : forall t l, X t -> X (set_strs l t).
Hypothesis Xhash : forall t l, X t -> X (set_byhash l t).

Lemma rr_set_str_slot i e (P Q : vm -> Prop) : (forall t, P t -> (exists y, znth (t_slots (v_strs t)) i = Some y) /\
    Q (set_strs (mkT (zupd (t_slots (v_strs t)) i (Some e)) (t_holes (v_strs t))) t)) ->
  rr P (set_str_slot i e) [] (fun _ => Q).
Proof.
  intros H. unfold set_str_slot. eapply rr_bind0; [apply rr_get|]. intro s0. intros t [Ht ->].
  destruct (H t Ht) as [[y Z] HQ]. exists tt. eexists. split; [|exact HQ]. intro rest. cbn [app].
  unfold lbind, llift, lvm, lift. rewrite (wr_ok _ _ (Some e) _ Z). reflexivity.
Qed.

Definition str_fill (pre : list (Z * nkstr)) (t : vm) : Prop :=
  X t /\ zlen (v_byhash t) = STR_BUCKETS /\ filled (fun e => e) (t_cap (v_strs s)) pre (t_slots (v_strs t)).

Lemma rr_string_entry pre i e post : entries 0 (t_slots (v_strs s)) = pre ++ (i, e) :: post ->
  rr (str_fill pre) load_string_entry (word i ++ save_string (s_str e) ++ word (s_gc e) ++ [if s_keep e then 1 else 0])
     (fun _ => str_fill (pre ++ [(i, e)])).
Proof.
  intro E. destruct (mw_strs _ W) as [Bc Bs]. assert (SW := w_str _ _ _ Wf).
  assert (In1 : get_str_entry s i = Some e).
  { assert (I : In (i, e) (entries 0 (t_slots (v_strs s)))) by (rewrite E; apply in_elt). apply entries_in in I.
    rewrite Z.sub_0_r in I. unfold get_str_entry. rewrite tab_get_znth. now rewrite I. }
  destruct (sw_ent _ _ SW _ _ In1) as (E1 & E2 & E3). specialize (Bs _ _ In1). assert (Gc := w_sgc _ _ _ Wf _ _ In1).
  destruct (mw_gc _ W) as [Up _]. unfold is_u32 in Up. assert (Lt := zlen_nonneg (s_str e)).
  assert (R : 0 <= i < t_cap (v_strs s)).
  { unfold get_str_entry in In1. rewrite tab_get_znth in In1. destruct (znth _ i) eqn:Z; [|discriminate]. eapply znth_some_range; exact Z. }
  unfold load_string_entry.
  eapply rr_bind; [reflexivity|apply rr_r32; unfold is_u32, W32, INVALID in *; lia|]. intros ?. apply rr_and. intros ->.
  eapply rr_bind0; [apply rr_get|]. intro s0.
  eapply rr_pre with (P' := fun t => (str_fill pre t /\ t = s0) /\ t_cap (v_strs s0) = t_cap (v_strs s) /\ znth (t_slots (v_strs s0)) i = Some None).
  2: { intros t [Ht ->]. split; [auto|]. destruct Ht as (_ & _ & F). split; [apply F|]. eapply filled_place; [exact E|exact F]. }
  apply rr_and. intros [Ec Z0]. rewrite Ec. destruct (Z.leb_spec (t_cap (v_strs s)) i); [lia|].
  eapply rr_bind; [reflexivity|apply rr_string; split; [exact E3|lia]|]. intros ?. apply rr_and. intros ->.
  destruct (Z.leb_spec (INVALID - (STR_STRUCT + 1)) (zlen (s_str e))); [unfold STR_STRUCT in *; lia|].
  eapply rr_bind0; [apply (rr_lift _ None); unfold rd; now rewrite Z0|]. intros ?. apply rr_and. intros ->.
  set (P1 := fun t => X t /\ zlen (v_byhash t) = STR_BUCKETS /\ exists q, filled (fun e => e) (t_cap (v_strs s)) pre q /\
      znth q i = Some None /\ t_slots (v_strs t) = zupd q i (Some (mkS 0 0 false 0 (s_str e)))).
  eapply rr_bind0 with (R := fun _ => P1).
  { apply rr_set_str_slot. intros t [(H1 & H2 & H3) ->]. split; [eauto|]. split; [auto|]. split; [exact H2|].
    eexists. split; [exact H3|]. split; [exact Z0|reflexivity]. }
  intros ?. eapply rr_bind; [reflexivity|apply rr_r32; unfold is_u32, W32, INVALID in *; lia|]. intros ?. apply rr_and. intros ->.
  eapply rr_bind; [symmetry; apply app_nil_r|apply rr_r8|]. intros ?. apply rr_and. intros ->.
  eapply rr_bind0 with (R := fun _ => str_fill (pre ++ [(i, e)])).
  { apply rr_set_str_slot. intros t (H1 & H2 & q & H3 & Zq & H4). assert (Rq := znth_some_range _ _ _ Zq). split.
    - exists (Some (mkS 0 0 false 0 (s_str e))). rewrite H4. apply znth_zupd_same. lia.
    - split; [auto|]. split; [exact H2|]. vs. cbn [t_slots]. rewrite H4, zupd_twice.
      replace (mkS i (s_gc e) (negb ((if s_keep e then 1 else 0) =? 0)) (str_hash (s_str e)) (s_str e)) with e.
      + eapply (filled_step (fun e : nkstr => e)); [exact E|exact H3].
      + destruct e as [a1 a2 a3 a4 a5]. cbn [s_idx s_gc s_keep s_hash s_str] in *. subst. destruct a3; reflexivity. }
  intros ?. eapply rr_bind0; [apply rr_get|]. intro s1.
  eapply rr_pre with (P' := fun t => (str_fill (pre ++ [(i, e)]) t /\ t = s1) /\ exists c, znth (v_byhash s1) (Z.land (str_hash (s_str e)) (STR_BUCKETS - 1)) = Some c).
  2: { intros t [Ht ->]. split; [auto|]. destruct Ht as (_ & Lh & _). apply znth_in_range. rewrite Lh.
       change (STR_BUCKETS - 1) with (Z.ones 8). rewrite Z.land_ones by lia. change STR_BUCKETS with (2 ^ 8). apply Z.mod_pos_bound. reflexivity. }
  apply rr_and. intros [c Zc].
  eapply rr_bind0; [apply (rr_lift _ c); unfold rd; now rewrite Zc|]. intros ?. apply rr_and. intros ->.
  eapply rr_bind0; [apply rr_lift; eapply wr_ok; exact Zc|]. intros ?. apply rr_and. intros ->.
  apply rr_mod. intros t [(H1 & H2 & H3) ->]. split; [auto|]. split; [vs; now rewrite zlen_zupd|]. exact H3.
Qed.

Lemma rr_strings_slots : rr X load_strings (save_strings s) (fun _ t => X t /\ t_slots (v_strs t) = t_slots (v_strs s)).
Proof.
  destruct (mw_strs _ W) as [Bc _]. assert (SW := w_str _ _ _ Wf). assert (Pc := tw_cap _ (sw_tab _ _ SW)).
  assert (Bp := pow2_bounds _ Pc). unfold W31 in Bp. unfold load_strings, save_strings.
  eapply rr_bind; [reflexivity|apply rr_r32; unfold is_u32, W32; lia|]. intros ?. apply rr_and. intros ->.
  eapply rr_bind0 with (R := fun _ t => X t /\ zlen (v_byhash t) = STR_BUCKETS).
  { apply rr_mod. intros t Ht. split; [auto|reflexivity]. }
  intros ?. destruct (Z.leb_spec (INVALID / 8) (t_cap (v_strs s))); [lia|].
  eapply rr_bind0; [apply rr_alloc; lia|]. intros ?.
  eapply rr_bind0 with (R := fun _ => str_fill []).
  { apply rr_mod. intros t [Ht Hb]. split; [auto|]. split; [exact Hb|]. vs. cbn [t_slots]. apply filled_empty. lia. }
  intros ?. rewrite pow2_is by exact Pc. cbn [negb]. rewrite (occupied_entries _ 0).
  change (over 0 (t_slots (v_strs s)) save_string_entry) with (over 0 (t_slots (v_strs s)) (fun i x => match x with None => []
    | Some e => (fun i e => word i ++ save_string (s_str e) ++ word (s_gc e) ++ [if s_keep e then 1 else 0]) i e end)).
  rewrite over_entries. set (en := entries 0 (t_slots (v_strs s))).
  assert (Le : zlen en <= t_cap (v_strs s)).
  { unfold en. rewrite <- occupied_entries. unfold occupied, t_cap, zlen. apply inj_le. apply filter_length_le. }
  assert (Re := zlen_nonneg en).
  eapply rr_bind; [reflexivity|apply rr_r32; unfold is_u32, W32; lia|]. intros ?. apply rr_and. intros ->.
  eapply rr_bind; [symmetry; apply app_nil_r| |].
  { unfold zlen. rewrite Nat2Z.id. apply rr_times_st with (I := str_fill). intros pre [i e] post E. cbn [fst snd].
    eapply rr_string_entry. exact E. }
  intros ?. apply rr_mod. intros t (H1 & H2 & H3). split; [auto|]. vs. cbn [t_slots].
  apply (filled_all (fun e => e)) in H3. rewrite H3. apply some_same.
Qed.
End StrRound.

(** The strings of the machine loaded are as good as those of the one saved. *)
Lemma strs_round s t : wf true 0 s -> t_slots (v_strs t) = t_slots (v_strs s) -> i_strs t -> str_wf (v_strs t) (v_byhash t).
Proof.
  intros Wf E (P & H & _). assert (SW := w_str _ _ _ Wf).
  assert (G : forall i, tab_get (v_strs t) i = tab_get (v_strs s) i) by (intro; rewrite !tab_get_znth, E; reflexivity).
  assert (G2 : forall i e, tab_get (v_strs t) i = Some e -> znth (t_slots (v_strs t)) i = Some (Some e)) by (intros i e; apply tab_get_some).
  assert (G3 : forall i e, znth (t_slots (v_strs t)) i = Some (Some e) -> tab_get (v_strs t) i = Some e) by (intros i e Q; rewrite tab_get_znth, Q; reflexivity).
  destruct H as [H1 H2]. constructor.
  - constructor; [exact H1|exact H2|]. unfold t_cap. rewrite E. apply (tw_cap _ (sw_tab _ _ SW)).
  - apply (sp_len _ _ P).
  - intros i e Q. destruct (sp_ent _ _ P i e (G2 _ _ Q)) as (A & B & C & _). auto.
  - intros i e Q. apply (sp_in _ _ P i e (G2 _ _ Q)).
  - intros b c i Z I. destruct (sp_chain _ _ P b c i Z I) as (e & Q & F). exists e. split; [|exact F]. apply G3, Q.
  - apply (sp_nodup _ _ P).
  - intros i j e f Q R. rewrite G in Q, R. apply (sw_uniq _ _ SW _ _ _ _ Q R).
Qed.

(** ** Types and subsystems *)

Lemma longest_le l i t : znth l i = Some t -> zlen (et_name t) <= longest l.
Proof.
  revert i. induction l as [|a r IH]; intros i Z.
  - apply znth_some_range in Z. change (zlen (@nil exttype)) with 0 in Z. lia.
  - change (longest (a :: r)) with (Z.max (zlen (et_name a)) (longest r)). assert (R := znth_some_range _ _ _ Z).
    destruct (Z.eq_dec i 0) as [->|N]; [rewrite znth_cons_0 in Z; injection Z as ->; lia|].
    rewrite znth_cons_S in Z by lia. specialize (IH _ Z). lia.
Qed.
Lemma concat_nils {A B} (l : list A) : concat (map (fun _ => @nil B) l) = [].
Proof. induction l; cbn; auto. Qed.

Section TypeRound.
Variable s : vm.
Hypothesis W : machine_words s.
Variable X : vm -> Prop.

Lemma rr_types : unique et_name (v_exttypes s) -> (forall t, X t -> v_exttypes t = v_exttypes s) ->
  (forall t i o, X t -> get_obj t i = Some o -> o_ext o = INVALID \/ o_ext o < zlen (v_exttypes s)) ->
  rr X load_types (save_types s) (fun _ => X).
Proof.
  intros Un Xt Xo. destruct (mw_types _ W) as [Ft Bt]. assert (R := zlen_nonneg (v_exttypes s)).
  assert (L0 : 0 <= longest (v_exttypes s)). { clear. induction (v_exttypes s) as [|a r IH]; [reflexivity|]. change (longest (a :: r)) with (Z.max (zlen (et_name a)) (longest r)). lia. }
  unfold load_types, save_types.
  eapply rr_bind; [reflexivity|apply rr_r32; unfold is_u32, W32, INVALID in *; lia|]. intros ?. apply rr_and. intros ->.
  eapply rr_bind0; [apply rr_get|]. intro l.
  eapply rr_pre with (P' := fun t => X t /\ l = v_exttypes s).
  2: { intros t [Ht ->]. auto. }
  apply rr_and. intros ->. rewrite Z.eqb_refl. cbn [negb].
  match goal with |- context [if ?c then lfail else _] => replace c with false by (unfold INVALID in *; lia) end.
  eapply rr_bind0 with (R := fun _ => X); [apply rr_ret; intros t Ht; exact Ht|]. intros ?.
  eapply rr_bind with (R := fun _ => X); [symmetry; apply app_nil_r| |].
  - rewrite (map_index (B := Z) (fun t => save_string (et_name t))). replace (length (v_exttypes s)) with (Z.to_nat (zlen (v_exttypes s))) by (unfold zlen; lia).
    apply rr_each with (I := fun _ => X). intros j Hj. destruct (znth_in_range (v_exttypes s) j) as [et Zt]; [lia|]. rewrite Zt.
    unfold load_type. eapply rr_bind0; [apply rr_get|]. intro l.
    eapply rr_pre with (P' := fun t => X t /\ l = v_exttypes s).
    2: { intros t [Ht ->]. auto. }
    apply rr_and. intros ->. rewrite Forall_forall in Ft.
    eapply rr_bind; [symmetry; apply app_nil_r|apply rr_string_in|].
    + apply Ft. apply In_znth. eauto.
    + assert (Q := longest_le _ _ _ Zt). lia.
    + intros ?. apply rr_and. intros ->. eapply rr_bind0; [apply (rr_lift _ et); unfold rd; now rewrite Zt|]. intros ?. apply rr_and. intros ->.
      rewrite bytes_eqb_refl. cbn [negb].
      rewrite (find_type_spec _ (et_name et) 0 j et Zt eq_refl) by (intros k u Zk Ek; apply (Un _ _ _ _ Zk Zt Ek)).
      destruct (Z.eqb_spec (0 + j) (zlen (v_exttypes s))); [lia|]. rewrite Z.add_0_l, Z.eqb_refl. cbn [negb]. apply rr_ret. auto.
  - intros ?. eapply rr_bind0; [apply rr_get|]. intro s0. rewrite <- (concat_nils (zseq 0 (Z.to_nat (t_cap (v_objs s0))))).
    eapply rr_post; [eapply rr_pre with (P' := X); [apply rr_each with (I := fun _ => X)|tauto]|auto].
    intros j Hj. unfold check_type. eapply rr_bind0; [apply rr_get|]. intro s1.
    destruct (get_obj s1 j) as [o|] eqn:G; [|apply rr_ret; tauto].
    intros t [Ht ->]. exists tt, t. split; [|exact Ht]. intro rest. cbn [app].
    destruct (Xo t j o Ht G) as [E|L]; [rewrite E, Z.eqb_refl; reflexivity|].
    replace ((o_ext o =? INVALID) || (o_ext o <? zlen (v_exttypes s))) with true by lia. reflexivity.
Qed.

Variable sub_save : bytes -> bytes.
Variable sub_load : bytes -> bytes -> nat.
Lemma rr_subsystems : subs_faithful sub_save sub_load ->
  (forall t x, X t -> In x (concat (v_subsys s)) -> exists l y, znth (v_subsys t) (sub_bucket (sub_name x)) = Some l /\
                          find_sub l (sub_name x) = Some y /\ sub_ser y = sub_ser x) ->
  rr X (load_subsystems sub_load) (save_subsystems sub_save s) (fun _ => X).
Proof.
  intros Sf Xs. destruct (mw_subs _ W) as [Bs Fs]. unfold load_subsystems, save_subsystems.
  assert (R := zlen_nonneg (concat (v_subsys s))).
  eapply rr_bind; [reflexivity|apply rr_r32; unfold is_u32; lia|]. intros ?. apply rr_and. intros ->.
  eapply rr_bind; [symmetry; apply app_nil_r| |intros ?; apply rr_ret; intros t Ht; exact Ht].
  unfold zlen. rewrite Nat2Z.id. apply rr_times_st with (I := fun _ => X). intros pre x post E.
  assert (Ix : In x (concat (v_subsys s))) by (rewrite E; apply in_elt).
  rewrite Forall_forall in Fs. unfold load_subsystem.
  eapply rr_bind; [reflexivity|apply rr_string, Fs, Ix|]. intros ?. apply rr_and. intros ->.
  eapply rr_bind0; [apply rr_get|]. intro s0.
  eapply rr_pre with (P' := fun t => X t /\ exists l y, znth (v_subsys s0) (sub_bucket (sub_name x)) = Some l /\
                          find_sub l (sub_name x) = Some y /\ sub_ser y = sub_ser x).
  2: { intros t [Ht ->]. auto. }
  apply rr_and. intros (l & y & Zl & Fy & Ey).
  eapply rr_bind0; [apply (rr_lift _ l); unfold rd; now rewrite Zl|]. intros ?. apply rr_and. intros ->. rewrite Fy, Ey.
  destruct (sub_ser x); [|apply rr_ret; auto].
  intros t Ht. exists tt, t. split; [|exact Ht]. intro rest.
  rewrite (proj2 (Sf (sub_name x))). rewrite skipn_app, Nat.sub_diag, skipn_O, skipn_all. reflexivity.
Qed.
End TypeRound.

(** ** Objects *)

Section ObjRound.
Variable s : vm.
Hypothesis W : machine_words s.
Hypothesis Wf : wf true 0 s.
Hypothesis Keys : forall i o b c, get_obj s i = Some o -> znth (o_buckets o) b = Some c ->
              Forall (fun kv => ordinary s (fst kv) /\ key_bucket s (fst kv) = b) c /\
              forall p q k l, p <> q -> znth c p = Some k -> znth c q = Some l -> key_eq (fst k) (fst l) = false.
Variable X : vm -> Prop.
Hypothesis Xobjs : forall t l, X t -> X (set_objs l t).
Hypothesis Xhl : forall t l, X t -> X (set_hlist l t).
Hypothesis Xstr : forall t, X t -> t_slots (v_strs t) = t_slots (v_strs s) /\ str_wf (v_strs t) (v_byhash t).
Hypothesis Xmax : forall t i o, X t -> get_obj s i = Some o -> o_size o <= v_maxfields t.

(** The elements [pre] sorted into buckets, the last one read first. *)
Definition sorted (pre : list (value * value)) : list (list (value * value)) :=
  map (fun b => rev (filter (fun kv => key_bucket s (fst kv) =? b) pre)) (zseq 0 (Z.to_nat OBJ_BUCKETS)).
Lemma znth_sorted pre b : 0 <= b < OBJ_BUCKETS -> znth (sorted pre) b = Some (rev (filter (fun kv => key_bucket s (fst kv) =? b) pre)).
Proof. intro R. unfold sorted. rewrite znth_map, znth_zseq by lia. reflexivity. Qed.
Lemma sorted_len pre : zlen (sorted pre) = OBJ_BUCKETS.
Proof. unfold sorted, zlen. rewrite map_length, zseq_length. reflexivity. Qed.
Lemma sorted_step pre kv : let b := key_bucket s (fst kv) in
  zupd (sorted pre) b (kv :: rev (filter (fun kv => key_bucket s (fst kv) =? b) pre)) = sorted (pre ++ [kv]).
Proof.
  cbn zeta. assert (R := key_bucket_range s (fst kv)). apply list_ext_znth. intro j.
  destruct (Z.lt_ge_cases j 0) as [L|L]; [rewrite !znth_out by lia; reflexivity|].
  destruct (Z.lt_ge_cases j OBJ_BUCKETS) as [H|H].
  2: { rewrite !znth_out; [reflexivity|rewrite sorted_len; lia|rewrite zlen_zupd, sorted_len; lia]. }
  rewrite znth_sorted by lia. rewrite filter_app. cbn [filter]. destruct (Z.eqb_spec (key_bucket s (fst kv)) j) as [<-|N].
  - rewrite znth_zupd_same by (rewrite sorted_len; lia). now rewrite rev_app_distr.
  - rewrite znth_zupd_other by exact N. rewrite znth_sorted by lia. now rewrite app_nil_r.
Qed.
Lemma sorted_all bk : zlen bk = OBJ_BUCKETS ->
  (forall b c, znth bk b = Some c -> Forall (fun kv : value * value => key_bucket s (fst kv) = b) c) ->
  (forall b c, znth bk b = Some c -> filter (fun kv => key_bucket s (fst kv) =? b) (concat bk) = c) /\
  sorted (concat bk) = map (@rev _) bk.
Proof.
  intros L H.
  assert (F : forall b c, znth bk b = Some c -> filter (fun kv => key_bucket s (fst kv) =? b) (concat bk) = c).
  { assert (G : forall (l : list (list (value * value))) k, (forall b c, znth l b = Some c -> Forall (fun kv : value * value => key_bucket s (fst kv) = b + k) c) ->
      forall b, filter (fun kv => key_bucket s (fst kv) =? b + k) (concat l) = match znth l b with Some c => c | None => [] end).
    { clear. induction l as [|c r IH]; intros k H b; [destruct (znth [] b) eqn:E; [apply znth_some_range in E; change (zlen (@nil (list (value * value)))) with 0 in E; lia|reflexivity]|].
      cbn [concat]. rewrite filter_app.
      assert (Hc := H 0 c (znth_cons_0 _ _)).
      assert (Hr : forall b c, znth r b = Some c -> Forall (fun kv : value * value => key_bucket s (fst kv) = b + (k + 1)) c).
      { intros b' c' Z. assert (R := znth_some_range _ _ _ Z). replace (b' + (k + 1)) with (b' + 1 + k) by lia. apply H.
        rewrite znth_cons_S by lia. now replace (b' + 1 - 1) with b' by lia. }
      specialize (IH (k + 1) Hr (b - 1)). replace (b - 1 + (k + 1)) with (b + k) in IH by lia. rewrite IH.
      destruct (Z.eq_dec b 0) as [->|N].
      - rewrite znth_cons_0. rewrite (znth_out r) by lia. rewrite app_nil_r.
        clear -Hc. induction Hc as [|kv q E _ IH]; cbn [filter]; [reflexivity|]. rewrite E, Z.eqb_refl. now rewrite IH.
      - replace (filter (fun kv => key_bucket s (fst kv) =? b + k) c) with (@nil (value * value)).
        2: { clear -Hc N. induction Hc as [|kv q E _ IH]; cbn [filter]; [reflexivity|]. rewrite E.
             destruct (Z.eqb_spec (0 + k) (b + k)); [lia|]. exact IH. }
        cbn [app]. destruct (Z.lt_ge_cases b 0); [rewrite !znth_out by lia; reflexivity|]. now rewrite znth_cons_S by lia. }
    intros b c Z. assert (Q := G bk 0). specialize (Q ltac:(intros b' c' Z'; rewrite Z.add_0_r; now apply H) b).
    rewrite Z.add_0_r, Z in Q. exact Q. }
  split; [exact F|]. apply list_ext_znth. intro j. rewrite znth_map.
  destruct (Z.lt_ge_cases j 0) as [Lj|Lj]; [rewrite !znth_out by lia; reflexivity|].
  destruct (Z.lt_ge_cases j OBJ_BUCKETS) as [Hj|Hj].
  - rewrite znth_sorted by lia. destruct (znth_in_range bk j) as [c Z]; [lia|]. rewrite (F j c Z), Z. reflexivity.
  - rewrite !znth_out; [reflexivity|lia|rewrite sorted_len; lia].
Qed.

Lemma same_str t i : t_slots (v_strs t) = t_slots (v_strs s) -> get_str_entry t i = get_str_entry s i.
Proof. intro E. unfold get_str_entry. now rewrite !tab_get_znth, E. Qed.
Lemma ordinary_same t k : t_slots (v_strs t) = t_slots (v_strs s) -> ordinary s k -> ordinary t k.
Proof. intros E [R H]. split; [exact R|]. unfold get_str in *. rewrite same_str by exact E. exact H. Qed.
Lemma bucket_same t k : t_slots (v_strs t) = t_slots (v_strs s) -> key_bucket t k = key_bucket s k.
Proof. intros E. unfold key_bucket, value_hash. now rewrite same_str by exact E. Qed.
Lemma kfind_absent key c : Forall (fun kv => key_eq key (fst kv) = false) c -> forall pos, kfind key c pos = None.
Proof. induction 1 as [|[k v] r E _ IH]; intro pos; cbn [kfind]; [reflexivity|]. cbn [fst] in E. now rewrite E. Qed.

(** Object [i] being read: the table is [q] but for the object, which is [o]. *)
Definition cur_obj (q : list (option nkobj)) (i : Z) (o : nkobj) (t : vm) : Prop :=
  X t /\ t_slots (v_objs t) = zupd q i (Some o).

Lemma cur_get q i o t : 0 <= i < zlen q -> cur_obj q i o t -> get_obj t i = Some o.
Proof. intros R [_ E]. unfold get_obj. rewrite tab_get_znth, E, znth_zupd_same by lia. reflexivity. Qed.
Lemma cur_put q i o o' t : cur_obj q i o t -> cur_obj q i o' (put_obj i o' t).
Proof. intros [H E]. split; [apply Xobjs, H|]. unfold put_obj. vs. cbn [t_slots]. now rewrite E, zupd_twice. Qed.
Lemma rr_mod_obj q i o f : 0 <= i < zlen q -> rr (cur_obj q i o) (lvm (mod_obj i f)) [] (fun _ => cur_obj q i (f o)).
Proof.
  intro R. apply rr_vm. intros t Ht. assert (G := cur_get _ _ _ _ R Ht). unfold mod_obj.
  rewrite (bind_run _ _ _ _ _ (rd_obj_ok _ _ _ G)), (wr_obj_ok _ _ _ _ G). eexists _, _. split; [reflexivity|].
  eapply cur_put, Ht.
Qed.

Lemma rr_element q i o0 o pre kv post : 0 <= i < zlen q -> get_obj s i = Some o0 ->
  concat (o_buckets o0) = pre ++ kv :: post -> o_buckets o = sorted pre -> o_size o = zlen pre ->
  rr (cur_obj q i o) (load_element i) (save_value (fst kv) ++ save_value (snd kv))
     (fun _ => cur_obj q i (set_o_size (zlen pre + 1) (set_o_buckets (sorted (pre ++ [kv])) o))).
Proof.
  intros R G0 Ec Eb Es. destruct (mw_objs _ W) as [_ Mo]. destruct (Mo _ _ G0) as (_ & _ & Fr).
  assert (O0 := w_obj _ _ _ Wf _ _ G0). assert (Sz := ow_size _ _ _ _ O0 eq_refl). assert (Mx := ow_max _ _ _ _ O0).
  assert (Bk : forall b c, znth (o_buckets o0) b = Some c -> Forall (fun kv : value * value => key_bucket s (fst kv) = b) c).
  { intros b c Z. destruct (Keys _ _ _ _ G0 Z) as [F _]. eapply Forall_impl; [|exact F]. cbn. tauto. }
  destruct (sorted_all _ (ow_len _ _ _ _ O0) Bk) as [Fl _].
  assert (Or : forall x, In x (concat (o_buckets o0)) -> ordinary s (fst x)).
  { intros x I. apply in_concat in I. destruct I as (c & Ic & Ix). apply In_znth in Ic. destruct Ic as [b Z].
    destruct (Keys _ _ _ _ G0 Z) as [F _]. rewrite Forall_forall in F. apply (F x Ix). }
  assert (Ik : In kv (concat (o_buckets o0))) by (rewrite Ec; apply in_elt).
  rewrite Forall_forall in Fr. destruct (Fr kv Ik) as [Rk Rv].
  set (b := key_bucket s (fst kv)). assert (Rb : 0 <= b < OBJ_BUCKETS) by apply key_bucket_range.
  set (c := rev (filter (fun kv => key_bucket s (fst kv) =? b) pre)).
  assert (Ab : Forall (fun x => key_eq (fst kv) (fst x) = false) c).
  { destruct (znth_in_range (o_buckets o0) b) as [c0 Z0]; [rewrite (ow_len _ _ _ _ O0); exact Rb|].
    specialize (Fl b c0 Z0). rewrite Ec, filter_app in Fl. cbn [filter] in Fl. fold b in Fl. rewrite Z.eqb_refl in Fl.
    destruct (Keys _ _ _ _ G0 Z0) as [_ D]. apply Forall_forall. intros x I. unfold c in I. rewrite <- in_rev in I.
    set (p := filter (fun kv0 => key_bucket s (fst kv0) =? b) pre) in *. apply In_znth in I. destruct I as [j Zj].
    assert (Rj := znth_some_range _ _ _ Zj). apply (D (zlen p) j).
    - lia.
    - rewrite <- Fl, znth_app_r by lia. now rewrite Z.sub_diag, znth_cons_0.
    - rewrite <- Fl, znth_app_l by lia. exact Zj. }
  assert (Lp : zlen (concat (o_buckets o0)) = zlen pre + 1 + zlen post) by (rewrite Ec, zlen_app, zlen_cons; lia).
  assert (Np := zlen_nonneg pre). assert (Nq := zlen_nonneg post).
  unfold load_element. eapply rr_bind; [reflexivity|apply rr_value, Rk|]. intros ?. apply rr_and. intros ->.
  set (o1 := set_o_size (zlen pre + 1) (set_o_buckets (zupd (sorted pre) b ((fst kv, mkV 0 0) :: c)) o)).
  eapply rr_bind0 with (R := fun p t => cur_obj q i o1 t /\ p = Some (b, 0)).
  { apply rr_vm. intros t Ht. assert (G := cur_get _ _ _ _ R Ht). destruct (Xstr t (proj1 Ht)) as [Et Wt].
    exists (Some (b, 0)), (put_obj i o1 t). split; [|split; [eapply cur_put, Ht|reflexivity]].
    unfold find_or_add_entry. rewrite (bind_run (gets (fun s => s)) _ t t t eq_refl).
    rewrite (bind_run _ _ _ _ _ (rd_obj_ok _ _ _ G)). cbn zeta. rewrite (bucket_same t _ Et). fold b.
    rewrite (bind_run _ _ t c t) by (unfold lift, rd; rewrite Eb, znth_sorted by exact Rb; reflexivity).
    rewrite (bind_run _ _ t None t).
    2: { rewrite find_key_ok; [rewrite kfind_absent by exact Ab; reflexivity|exact Wt|apply ordinary_same; auto|].
         apply Forall_forall. intros x I. apply ordinary_same; [exact Et|]. apply Or. rewrite Ec. apply in_or_app. left.
         unfold c in I. rewrite <- in_rev in I. apply filter_In in I. apply I. }
    replace (u32 (o_size o + 1)) with (zlen pre + 1) by (unfold u32; rewrite Es, Z.mod_small; lia).
    assert (Mf := Xmax t i o0 (proj1 Ht) G0).
    match goal with |- context [if ?c then _ else _] => replace c with false by lia end.
    rewrite Eb. rewrite (bind_run _ _ _ _ _ (wr_obj_ok _ _ _ _ G)). reflexivity. }
  intros ?. apply rr_and. intros ->. eapply rr_bind; [symmetry; apply app_nil_r|apply rr_value, Rv|]. intros ?. apply rr_and. intros ->.
  apply rr_vm. intros t Ht. assert (G := cur_get _ _ _ _ R Ht). unfold el_set. cbn [fst snd].
  rewrite (bind_run _ _ _ _ _ (rd_obj_ok _ _ _ G)).
  rewrite (bind_run _ _ t ((fst kv, mkV 0 0) :: c) t).
  2: { unfold lift, rd, o1. os. rewrite znth_zupd_same by (rewrite sorted_len; exact Rb). reflexivity. }
  rewrite (bind_run _ _ t (fst kv, mkV 0 0) t) by reflexivity. cbn [fst]. rewrite (wr_obj_ok _ _ _ _ G).
  eexists _, _. split; [reflexivity|]. unfold o1 at 1 2. os.
  change (zupd ((fst kv, mkV 0 0) :: c) 0 (fst kv, snd kv)) with ((fst kv, snd kv) :: c). rewrite <- surjective_pairing, zupd_twice.
  unfold c, b. rewrite sorted_step. apply (cur_put q i o1), Ht.
Qed.

Definition conv (o : nkobj) : nkobj :=
  mkO (o_idx o) (o_gc o) (o_size o) (map (@rev _) (o_buckets o)) (o_handles o) (o_ext o) None.

Lemma rr_object q i o : 0 <= i < zlen q -> get_obj s i = Some o ->
  rr (cur_obj q i (new_obj i)) (load_object i) (save_object o) (fun _ => cur_obj q i (conv o)).
Proof.
  intros R G. destruct (mw_objs _ W) as [_ Mo]. destruct (Mo _ _ G) as (Ue & _ & Fr).
  assert (O := w_obj _ _ _ Wf _ _ G). destruct O as [O1 O2 O3 O4 O5 O6]. specialize (O3 eq_refl).
  destruct (mw_gc _ W) as [Up _]. unfold is_u32 in Up.
  unfold load_object, save_object.
  eapply rr_bind; [reflexivity|apply rr_r32; unfold is_u32; lia|]. intros ?. apply rr_and. intros ->.
  eapply rr_bind0; [apply rr_mod_obj, R|]. intros ?.
  eapply rr_bind; [reflexivity|apply rr_r32; unfold is_u32; lia|]. intros ?. apply rr_and. intros ->.
  eapply rr_bind0; [apply rr_mod_obj, R|]. intros ?.
  eapply rr_bind0 with (R := fun _ => cur_obj q i (set_o_handles (o_handles o) (set_o_size (o_size o) (new_obj i)))).
  { destruct (o_handles o =? 0); [apply rr_ret; auto|]. apply rr_mod. intros t [Ht Et]. split; [apply Xhl, Ht|exact Et]. }
  intros ?. eapply rr_bind; [reflexivity|apply rr_r32; unfold is_u32; lia|]. intros ?. apply rr_and. intros ->.
  eapply rr_bind0; [apply rr_mod_obj, R|]. intros ?.
  eapply rr_bind; [reflexivity|apply rr_r32, Ue|]. intros ?. apply rr_and. intros ->.
  eapply rr_bind0; [apply rr_mod_obj, R|]. intros ?.
  eapply rr_bind0; [apply rr_mod_obj, R|]. intros ?.
  set (I := fun pre => cur_obj q i (mkO i (o_gc o) (zlen pre) (sorted pre) (o_handles o) (o_ext o) None)).
  eapply rr_bind with (R := fun _ => I (concat (o_buckets o))); [symmetry; apply app_nil_r| |].
  - replace (Z.to_nat (o_size o)) with (length (concat (o_buckets o))) by (rewrite O3; unfold zlen; lia).
    eapply rr_pre with (P' := I []); [apply rr_times_st|auto].
    intros pre kv post E. eapply rr_post; [eapply (rr_element q i o); [exact R|exact G|exact E|reflexivity|reflexivity]|].
    intros ? t H. unfold I. os. rewrite zlen_app. exact H.
  - intros ?. apply rr_ret. intros t [Ht Et]. split; [exact Ht|]. rewrite Et. f_equal. f_equal. unfold conv. f_equal; [now symmetry|now symmetry|].
    apply sorted_all; [exact O2|]. intros b c Z. destruct (Keys _ _ _ _ G Z) as [F _]. eapply Forall_impl; [|exact F]. cbn. tauto.
Qed.

Definition obj_fill (pre : list (Z * nkobj)) (t : vm) : Prop :=
  X t /\ filled conv (t_cap (v_objs s)) pre (t_slots (v_objs t)).
Lemma rr_object_entry pre i o post : entries 0 (t_slots (v_objs s)) = pre ++ (i, o) :: post ->
  rr (obj_fill pre) load_object_entry (word (o_idx o) ++ save_object o) (fun _ => obj_fill (pre ++ [(i, o)])).
Proof.
  intro E.
  assert (Z1 : znth (t_slots (v_objs s)) i = Some (Some o)).
  { assert (I : In (i, o) (entries 0 (t_slots (v_objs s)))) by (rewrite E; apply in_elt). apply entries_in in I. now rewrite Z.sub_0_r in I. }
  assert (G : get_obj s i = Some o) by (unfold get_obj; rewrite tab_get_znth, Z1; reflexivity).
  assert (R := znth_some_range _ _ _ Z1). fold (t_cap (v_objs s)) in R.
  assert (Pc := tw_cap _ (w_tab _ _ _ Wf)). assert (Bp := pow2_bounds _ Pc). unfold W31 in Bp.
  rewrite (ow_idx _ _ _ _ (w_obj _ _ _ Wf _ _ G)). unfold load_object_entry.
  eapply rr_bind; [reflexivity|apply rr_r32; unfold is_u32, W32; unfold t_cap in *; lia|]. intros ?. apply rr_and. intros ->.
  eapply rr_bind0; [apply rr_get|]. intro s0.
  eapply rr_pre with (P' := fun t => (X t /\ t = s0) /\ filled conv (t_cap (v_objs s)) pre (t_slots (v_objs s0))).
  2: { intros t [[Ht F] ->]. auto. }
  apply rr_and. intro F. destruct (filled_place conv _ _ _ _ _ _ E F) as [_ Z0].
  replace (t_cap (v_objs s0)) with (t_cap (v_objs s)) by (symmetry; apply F). destruct (Z.leb_spec (t_cap (v_objs s)) i); [lia|].
  eapply rr_bind0; [apply (rr_lift _ None); unfold rd; now rewrite Z0|]. intros ?. apply rr_and. intros ->.
  eapply rr_bind0; [apply rr_lift; eapply wr_ok; exact Z0|]. intros ?. apply rr_and. intros ->.
  set (q := t_slots (v_objs s0)) in *. assert (Rq : 0 <= i < zlen q) by (destruct F as [-> _]; exact R).
  eapply rr_bind0 with (R := fun _ => cur_obj q i (new_obj i)).
  { apply rr_mod. intros t [Ht ->]. split; [apply Xobjs, Ht|reflexivity]. }
  intros ?. eapply rr_post; [apply rr_object; [exact Rq|exact G]|]. intros ? t [Ht Et]. split; [exact Ht|].
  rewrite Et. eapply filled_step; [exact E|exact F].
Qed.

Lemma rr_objects : rr X load_objects (save_objects s) (fun _ t => X t /\ t_slots (v_objs t) = map (option_map conv) (t_slots (v_objs s))).
Proof.
  destruct (mw_objs _ W) as [Bc _]. assert (Pc := tw_cap _ (w_tab _ _ _ Wf)). assert (Bp := pow2_bounds _ Pc). unfold W31 in Bp.
  unfold load_objects, save_objects.
  eapply rr_bind; [reflexivity|apply rr_r32; unfold is_u32, W32; lia|]. intros ?. apply rr_and. intros ->.
  rewrite pow2_is by exact Pc. cbn [negb].
  eapply rr_bind0; [apply rr_alloc; lia|]. intros ?.
  eapply rr_bind0 with (R := fun _ => obj_fill []).
  { apply rr_mod. intros t Ht. split; [auto|]. vs. cbn [t_slots]. apply filled_empty. lia. }
  intros ?. rewrite (occupied_entries _ 0).
  change (over 0 (t_slots (v_objs s)) save_object_entry) with (over 0 (t_slots (v_objs s)) (fun i x => match x with None => []
    | Some o => (fun i o => word (o_idx o) ++ save_object o) i o end)).
  rewrite over_entries. set (en := entries 0 (t_slots (v_objs s))).
  assert (Le : zlen en <= t_cap (v_objs s)).
  { unfold en. rewrite <- occupied_entries. unfold occupied, t_cap, zlen. apply inj_le. apply filter_length_le. }
  assert (Re := zlen_nonneg en).
  eapply rr_bind; [reflexivity|apply rr_r32; unfold is_u32, W32; lia|]. intros ?. apply rr_and. intros ->.
  destruct (Z.ltb_spec (t_cap (v_objs s)) (zlen en)); [lia|].
  eapply rr_bind; [symmetry; apply app_nil_r| |].
  { unfold zlen. rewrite Nat2Z.id. apply rr_times_st with (I := obj_fill). intros pre [i e] post E. cbn [fst snd].
    eapply rr_object_entry. exact E. }
  intros ?. apply rr_mod. intros t (H1 & H3). split; [auto|]. vs. cbn [t_slots]. apply (filled_all conv) in H3. exact H3.
Qed.
End ObjRound.

(** ** External objects *)

Section ExtRound.
Variable s : vm.
Hypothesis W : machine_words s.
Hypothesis Wf : wf true 0 s.
Variable host_save : Z -> Z -> option Z -> bytes.
Variable host_load : Z -> Z -> bytes -> option Z * nat.
Hypothesis Hf : host_faithful s host_save host_load.
Variable eco : exttype.
Hypothesis Hco : znth (v_exttypes s) (v_corotype s) = Some eco.
Hypothesis Hser : et_ser eco = true.
Variable X : vm -> Prop.
Variable m0 : Z.
Hypothesis Xobjs : forall t l, X t -> X (set_objs l t).
Hypothesis Xctxs : forall t l, X t -> X (set_ctxs l t).
Hypothesis Xty : forall t, X t -> v_exttypes t = v_exttypes s /\ v_corotype t = v_corotype s /\ v_maxstack t = m0.
Hypothesis Hst : forall i c, znth (v_ctxs s) i = Some (Some c) -> k_cap (c_stack c) <= m0.

Definition enc_external (i : Z) : bytes := match save_external host_save s i with Ok b => b | Ub _ => [] end.
Lemma save_external_ok i : save_external host_save s i = Ok (enc_external i).
Proof.
  unfold enc_external. destruct (save_external host_save s i) as [b|u] eqn:E; [reflexivity|]. exfalso. unfold save_external in E.
  destruct (get_obj s i) as [o|] eqn:G; [|discriminate]. destruct (o_ext o =? INVALID); [discriminate|].
  destruct (znth (v_exttypes s) (o_ext o)) as [et|]; [|discriminate]. destruct (et_ser et); cbn [negb] in E; [|discriminate].
  destruct (Z.eqb_spec (o_ext o) (v_corotype s)) as [Ee|_]; [|discriminate].
  destruct (w_co2 _ _ _ Wf i o G Ee) as (a & c & D & _ & _ & Za & _). unfold save_coroutine in E. rewrite D, Za in E. discriminate.
Qed.
Lemma save_externals_ok l : save_externals host_save s l = Ok (concat (map enc_external l)).
Proof.
  induction l as [|i r IH]; [reflexivity|]. cbn [save_externals map concat]. rewrite save_external_ok. cbn [bind]. rewrite IH. reflexivity.
Qed.

(** Object [p] is [o] read back, its host data or its coroutine with it. *)
Definition like (cs : list (option ctx)) (i : Z) (o p : nkobj) : Prop :=
  p = set_o_data (o_data p) (conv o) /\
  (o_ext o = v_corotype s -> exists a k c d, o_data o = Some a /\ znth (v_ctxs s) a = Some (Some c) /\
     o_data p = Some k /\ k <> 0 /\ znth cs k = Some (Some d) /\
     looks c d /\ c_state d = c_state c /\ c_obj d = vobj i /\ c_parent d = None) /\
  (forall et, o_ext o <> v_corotype s -> o_ext o <> INVALID -> znth (v_exttypes s) (o_ext o) = Some et ->
     et_ser et = true -> o_data p = o_data o).
Definition ext_r (F : ctx -> Prop) (j : Z) (t : vm) : Prop :=
  X t /\ zlen (t_slots (v_objs t)) = t_cap (v_objs s) /\
  at' 0 F t /\
  (forall i, get_obj s i = None -> get_obj t i = None) /\
  (forall i o, get_obj s i = Some o -> exists p, get_obj t i = Some p /\
     (i < j -> like (v_ctxs t) i o p) /\ (j <= i -> p = conv o)).

Lemma like_mono cs cs' i o p : (forall k d, znth cs k = Some (Some d) -> znth cs' k = Some (Some d)) -> like cs i o p -> like cs' i o p.
Proof.
  intros H (L1 & L2 & L3). split; [exact L1|]. split; [|exact L3]. intro E.
  destruct (L2 E) as (a & k & c & d & A1 & A2 & A3 & A4 & A5 & A6). exists a, k, c, d. auto 10.
Qed.
Lemma conv_id o : conv o = set_o_data (o_data (conv o)) (conv o).
Proof. reflexivity. Qed.
Lemma get_slots t t' i : t_slots (v_objs t') = t_slots (v_objs t) -> get_obj t' i = get_obj t i.
Proof. intro E. unfold get_obj. now rewrite !tab_get_znth, E. Qed.

(** The step for an object of which nothing more is written. *)
Lemma ext_r_skip F j t : ext_r F j t ->
  (forall o, get_obj s j = Some o -> o_ext o <> v_corotype s /\
     forall et, o_ext o <> INVALID -> znth (v_exttypes s) (o_ext o) = Some et -> et_ser et = false) -> ext_r F (j + 1) t.
Proof.
  intros (H1 & H2 & H3 & H4 & H5) Sk. split; [exact H1|]. split; [exact H2|]. split; [exact H3|]. split; [exact H4|].
  intros i o G. destruct (H5 i o G) as (p & Gp & L & Cv). exists p. split; [exact Gp|]. split; [|intros; apply Cv; lia].
  intro Li. destruct (Z.eq_dec i j) as [->|N]; [|apply L; lia]. rewrite (Cv ltac:(lia)). destruct (Sk o G) as [S1 S2].
  split; [apply conv_id|]. split; [intro; contradiction|]. intros et _ Ni Ze Se. rewrite (S2 et Ni Ze) in Se. discriminate.
Qed.

Lemma rr_external F j : rr (ext_r F j) (load_external host_load j) (enc_external j) (fun _ => ext_r F (j + 1)).
Proof.
  unfold load_external. eapply rr_bind0; [apply rr_get|]. intro s0. cbn beta.
  destruct (get_obj s j) as [o|] eqn:G.
  2: { unfold enc_external, save_external. rewrite G. intros t [Ht ->]. exists tt, t. split.
       - intro rest. destruct Ht as (_ & _ & _ & N & _). rewrite (N j G). reflexivity.
       - apply ext_r_skip; [exact Ht|]. rewrite G. discriminate. }
  eapply rr_pre with (P' := fun t => (ext_r F j t /\ t = s0) /\ get_obj s0 j = Some (conv o) /\ v_exttypes s0 = v_exttypes s /\ v_corotype s0 = v_corotype s).
  2: { intros t [Ht ->]. split; [auto|]. destruct Ht as (HX & _ & _ & _ & H). destruct (H j o G) as (p & Gp & _ & Cv).
       rewrite Gp, (Cv ltac:(lia)). destruct (Xty t HX) as (A & B & _). auto. }
  apply rr_and. intros (G0 & Et & Eco). rewrite G0, Et, Eco. cbn [conv o_ext].
  destruct (mw_objs _ W) as [_ Mo]. destruct (Mo _ _ G) as (Ue & Re & _).
  unfold enc_external, save_external. rewrite G.
  destruct (Z.eqb_spec (o_ext o) INVALID) as [Ei|Ni].
  { apply rr_ret. intros t [Ht _]. apply ext_r_skip; [exact Ht|]. rewrite G. intros o' Q. injection Q as <-. rewrite Ei. split; [|congruence].
    intro Q. apply (proj1 (w_corotype _ _ _ Wf)). now symmetry. }
  destruct (znth_in_range (v_exttypes s) (o_ext o)) as [et Ze]; [unfold is_u32 in Ue; lia|]. rewrite Ze.
  destruct (et_ser et) eqn:Es; cbn [negb].
  2: { apply rr_ret. intros t [Ht _]. apply ext_r_skip; [exact Ht|]. rewrite G. intros o' Q. injection Q as <-. split.
       - intro Q. rewrite Q in Ze. congruence.
       - intros e' _ Z'. congruence. }
  assert (Rs : 0 <= j < t_cap (v_objs s)).
  { unfold get_obj in G. rewrite tab_get_znth in G. destruct (znth _ j) eqn:Z; [|discriminate]. eapply znth_some_range; exact Z. }
  destruct (Z.eqb_spec (o_ext o) (v_corotype s)) as [Ec|Nc].
  - (* a coroutine *)
    destruct (w_co2 _ _ _ Wf j o G Ec) as (a & c & D & Na & _ & Za & Oa). cbn [save_coroutine]. unfold save_coroutine. rewrite D, Za.
    destruct (mw_ctxs _ W a c Za) as (U1 & U2 & U3). assert (Kc := w_stk _ _ _ Wf a c Za).
    unfold load_coroutine. eapply rr_bind0; [apply rr_get|]. intro s1.
    eapply rr_pre with (P' := fun t => (ext_r F j t /\ t = s1) /\ ext_r F j s1 /\ get_obj s1 j = Some (conv o) /\ v_corotype s1 = v_corotype s).
    2: { intros t [[Ht E] ->]. split; [auto|]. split; [auto|]. subst s0. auto. }
    apply rr_and. intros (H1 & G1 & Eco1).
    eapply rr_bind0 with (R := fun o' t => (ext_r F j t /\ t = s1) /\ o' = conv o).
    { apply rr_vm. intros t [Ht ->]. rewrite (rd_obj_ok _ _ _ G1). eauto 6. }
    intros ?. apply rr_and. intros ->. cbn [conv o_data]. rewrite Eco1.
    set (k := zlen (v_ctxs s1)).
    set (q := zupd (t_slots (v_objs s1)) j (Some (set_o_data (Some k) (conv o)))).
    set (X' := fun t => X t /\ t_slots (v_objs t) = q /\ forall m, m <> k -> znth (v_ctxs t) m = znth (v_ctxs s1) m).
    assert (Hk := zlen_nonneg (v_ctxs s1)). fold k in Hk.
    eapply rr_bind0 with (R := fun x t => (X' t /\ at' k (fun d => c_parent d = None /\ c_obj d = vnil /\ (true = false -> c_state d = c_state c)) t) /\ x = k).
    { eapply rr_bind0 with (R := fun _ t => t = set_ctxs (v_ctxs s1 ++ [Some ctx_init]) s1 /\ X s1).
      { apply rr_mod. intros t [Ht ->]. split; [reflexivity|]. apply Ht. }
      intros ?. eapply rr_bind0; [|intros ?; apply rr_ret; intros t Ht; split; [exact Ht|reflexivity]].
      apply rr_vm. intros t [-> HX]. unfold mod_obj.
      assert (G2 : get_obj (set_ctxs (v_ctxs s1 ++ [Some ctx_init]) s1) j = Some (conv o)) by exact G1.
      rewrite (bind_run _ _ _ _ _ (rd_obj_ok _ _ _ G2)), (wr_obj_ok _ _ _ _ G2). eexists _, _. split; [reflexivity|].
      split; [split; [|split]|].
      - apply Xobjs, Xctxs, HX.
      - unfold put_obj. vs. cbn [t_slots]. unfold q. f_equal. f_equal. unfold conv. os. rewrite <- Ec. reflexivity.
      - unfold put_obj. vs. intros m Nm. destruct (Z.lt_ge_cases m k); [destruct (Z.lt_ge_cases m 0)|].
        + rewrite !znth_out by lia. reflexivity.
        + apply znth_app_l. fold k. lia.
        + rewrite !znth_out; [reflexivity|fold k; lia|]. rewrite zlen_app. fold k. change (zlen [Some ctx_init]) with 1. lia.
      - exists ctx_init. unfold put_obj. vs. split; [|repeat split; discriminate]. rewrite znth_app_r by lia. fold k. now rewrite Z.sub_diag, znth_cons_0. }
    intros ?. apply rr_and. intros ->.
    eapply rr_bind with (R := fun _ t => X' t /\ at' k (fun d => looks c d /\ c_parent d = None /\ c_obj d = vnil /\ c_state d = c_state c) t);
      [symmetry; apply app_nil_r| |].
    { intros t Ht.
      assert (RC := rr_context X' k m0 (fun t H => proj2 (proj2 (Xty t (proj1 H))))).
      assert (XC : forall t c0 c', X' t -> znth (v_ctxs t) k = Some (Some c0) -> c_parent c' = c_parent c0 -> c_obj c' = c_obj c0 ->
                   X' (set_ctxs (zupd (v_ctxs t) k (Some c')) t)).
      { intros t0 c0 c' (A & B & C) _ _ _. split; [apply Xctxs, A|]. split; [exact B|]. vs. intros m Nm. rewrite znth_zupd_other by lia. now apply C. }
      destruct (RC XC true c vnil Kc U1 U2 U3 (Hst a c Za) t Ht) as ([] & t' & E & Q). exists tt, t'. split; [|exact Q].
      intro rest. rewrite E. reflexivity. }
    intros ?. apply rr_vm. intros t (HX & (d & Zd & (L & Pd & _ & Sd))). unfold mod_ctx. rewrite Zd. eexists _, _. split; [reflexivity|].
    destruct HX as (HX & Hq & Hc). assert (Rk := znth_some_range _ _ _ Zd).
    destruct H1 as (A1 & A2 & A3 & A4 & A5).
    assert (Rj : 0 <= j < zlen (t_slots (v_objs s1))) by (rewrite A2; exact Rs).
    assert (Gt : forall t' i, t_slots (v_objs t') = q -> get_obj t' i = if i =? j then Some (set_o_data (Some k) (conv o)) else get_obj s1 i).
    { intros t' i E. unfold get_obj. rewrite !tab_get_znth, E. unfold q. rewrite znth_zupd, (Z.eqb_sym i j). destruct (Z.eqb_spec j i) as [<-|N].
      - replace ((true && (0 <=? j)) && (j <? zlen (t_slots (v_objs s1)))) with true by lia. reflexivity.
      - reflexivity. }
    set (d' := set_c_obj (vobj j) d).
    assert (Mono : forall m e, znth (v_ctxs s1) m = Some (Some e) -> znth (zupd (v_ctxs t) k (Some d')) m = Some (Some e)).
    { intros m e Z. assert (Rm := znth_some_range _ _ _ Z). fold k in Rm. rewrite znth_zupd_other by lia. rewrite Hc by lia. exact Z. }
    split; [apply Xctxs, HX|]. split; [vs; rewrite Hq; unfold q; rewrite zlen_zupd; exact A2|].
    split. { destruct A3 as (r & Zr & Fr). exists r. vs. split; [apply Mono, Zr|exact Fr]. }
    split. { intros i Gi. rewrite (Gt _ i) by exact Hq. destruct (Z.eqb_spec i j) as [->|]; [congruence|]. now apply A4. }
    intros i o' Gi. rewrite (Gt _ i) by exact Hq. destruct (Z.eqb_spec i j) as [->|N].
    + rewrite G in Gi. injection Gi as <-. eexists. split; [reflexivity|]. split; [|intro; lia]. intros _. split; [reflexivity|]. split; [|intros; contradiction].
      intros _. exists a, k, c, d'. vs. split; [exact D|]. split; [exact Za|]. split; [reflexivity|].
      split. { destruct A3 as (r & Zr & _). assert (R0 := znth_some_range _ _ _ Zr). fold k in R0. lia. }
      split; [apply znth_zupd_same; exact Rk|]. unfold d'. cs. destruct L as (L1 & L2 & L3 & L4). unfold looks. cs. auto 10.
    + destruct (A5 i o' Gi) as (p & Gp & L1 & Cv). exists p. split; [exact Gp|]. split; [|intros; apply Cv; lia].
      intro Li. vs. apply (like_mono (v_ctxs s1)); [exact Mono|]. apply L1. lia.
  - (* data of the host *)
    destruct (Hf j o G Ni Nc) as [_ Hl].
    eapply rr_bind with (R := fun d t => ext_r F j t /\ d = o_data o); [symmetry; apply app_nil_r| |].
    { intros t [Ht _]. exists (o_data o), t. split; [|auto]. intro rest. rewrite Hl.
      rewrite skipn_app, Nat.sub_diag, skipn_O, skipn_all. reflexivity. }
    intros ?. apply rr_and. intros ->. apply rr_vm. intros t (A1 & A2 & A3 & A4 & A5).
    destruct (A5 j o G) as (p & Gp & _ & Cp). specialize (Cp ltac:(lia)). subst p. unfold mod_obj.
    rewrite (bind_run _ _ _ _ _ (rd_obj_ok _ _ _ Gp)), (wr_obj_ok _ _ _ _ Gp). eexists _, _. split; [reflexivity|].
    assert (Gt := fun i => get_put t j _ (set_o_data (o_data o) (conv o)) i Gp).
    split; [apply Xobjs, A1|]. split; [unfold put_obj; vs; cbn [t_slots]; rewrite zlen_zupd; exact A2|]. split; [exact A3|].
    split. { intros i Gi. rewrite (Gt i). destruct (Z.eqb_spec i j) as [->|]; [congruence|]. now apply A4. }
    intros i o' Gi. rewrite (Gt i). destruct (Z.eqb_spec i j) as [->|N].
    + rewrite G in Gi. injection Gi as <-. eexists. split; [reflexivity|]. split; [|intro; lia]. intros _. split; [reflexivity|].
      split; [intro; contradiction|]. reflexivity.
    + destruct (A5 i o' Gi) as (p & Gp' & L1 & Cv). exists p. split; [exact Gp'|]. split; [|intros; apply Cv; lia]. intro. apply L1. lia.
Qed.

Lemma rr_externals F : rr (ext_r F 0) (load_externals host_load) (concat (map enc_external (zseq 0 (Z.to_nat (t_cap (v_objs s))))))
  (fun _ => ext_r F (t_cap (v_objs s))).
Proof.
  unfold load_externals. eapply rr_bind0; [apply rr_get|]. intro s0.
  eapply rr_pre with (P' := fun t => ext_r F 0 t /\ t_cap (v_objs s0) = t_cap (v_objs s)).
  2: { intros t [Ht ->]. split; [exact Ht|]. apply Ht. }
  apply rr_and. intros ->. assert (Rc := zlen_nonneg (t_slots (v_objs s))). fold (t_cap (v_objs s)) in Rc.
  eapply rr_post; [apply rr_each with (I := ext_r F); intros; apply rr_external|].
  intros ? t. cbn beta. now rewrite Z.add_0_l, Z2Nat.id by exact Rc.
Qed.
End ExtRound.

(** ** Active coroutines *)

Lemma root_top cs i l : chain cs i l -> forall c, znth cs 0 = Some (Some c) -> c_parent c = None.
Proof. induction 1 as [c Z P|]; auto. intros c' Z'. congruence. Qed.
Lemma lbind_more {A B} (m : L A) (f g : A -> L B) : (forall a b t x, f a b t = Ok x -> g a b t = Ok x) ->
  forall b t x, lbind m f b t = Ok x -> lbind m g b t = Ok x.
Proof. intros H b t x. unfold lbind. destruct (m b t) as [[a b' t'| |]|]; auto. Qed.
(** Turns not used make no difference. *)
Lemma load_chain_more : forall f cur last b t x, load_chain f cur last b t = Ok x -> forall g, (f <= g)%nat -> load_chain g cur last b t = Ok x.
Proof.
  induction f as [|f IH]; intros cur last b t x E g Hg; [discriminate|]. destruct g as [|g]; [lia|].
  cbn [load_chain] in *. revert E. apply lbind_more. clear b t x. intro v. apply lbind_more. intro s0.
  destruct (chain_context v s0) as [k|]; [|auto]. cbn zeta. apply lbind_more. intro c. apply lbind_more. intro. apply lbind_more. intros _ b t x.
  destruct (v_type v =? T_NIL); [auto|]. intro E. apply (IH _ _ _ _ _ E). lia.
Qed.

Section ActRound.
Variable s : vm.
Hypothesis W : machine_words s.
Hypothesis Wf : wf true 0 s.
Hypothesis Run : forall l, chain (v_ctxs s) (v_cur s) l -> forall i c, In i l -> znth (v_ctxs s) i = Some (Some c) -> c_state c = CO_RUNNING.
Variable ob : Z -> option nkobj.
Variable X : vm -> Prop.
Hypothesis Xctxs : forall t l, X t -> X (set_ctxs l t).
Hypothesis Xcur : forall t c, X t -> X (set_cur c t).
Hypothesis Xob : forall t i, X t -> get_obj t i = ob i.
Hypothesis Xco : forall t, X t -> v_corotype t = v_corotype s.

(** Context [i] of the machine saved is context [k] of the one loaded. *)
Definition rel (i k : Z) : Prop :=
  (i = 0 /\ k = 0) \/
  (i <> 0 /\ exists id o p, get_obj s id = Some o /\ o_ext o = v_corotype s /\ o_data o = Some i /\
     ob id = Some p /\ o_ext p = v_corotype s /\ o_data p = Some k).

Lemma rel_obj i k c : i <> 0 -> znth (v_ctxs s) i = Some (Some c) -> rel i k ->
  exists id o p, c_obj c = vobj id /\ get_obj s id = Some o /\ o_data o = Some i /\ ob id = Some p /\ o_ext p = v_corotype s /\ o_data p = Some k.
Proof.
  intros N Z [[E _]|(_ & id & o & p & G & E & D & Gp & Ep & Dp)]; [contradiction|].
  destruct (w_co2 _ _ _ Wf id o G E) as (i' & c' & D' & _ & _ & Z' & O'). rewrite D in D'. injection D' as <-. rewrite Z in Z'. injection Z' as <-.
  exists id, o, p. auto 10.
Qed.
Lemma vobj_inj a b : vobj a = vobj b -> a = b.
Proof. intro E. now injection E. Qed.
Lemma rel_fun i k k' c : znth (v_ctxs s) i = Some (Some c) -> rel i k -> rel i k' -> k = k'.
Proof.
  intros Z H H'. destruct (Z.eq_dec i 0) as [->|N].
  - destruct H as [[_ ->]|[N _]]; [|contradiction]. destruct H' as [[_ ->]|[N _]]; [reflexivity|contradiction].
  - destruct (rel_obj i k c N Z H) as (id & o & p & A1 & A2 & A3 & A4 & A5 & A6).
    destruct (rel_obj i k' c N Z H') as (id' & o' & p' & B1 & B2 & B3 & B4 & B5 & B6).
    rewrite A1 in B1. apply vobj_inj in B1. subst id'. congruence.
Qed.

(** What has been read; the contexts of [P] have their parents. *)
Definition inv (P : Z -> Prop) (t : vm) : Prop :=
  X t /\ forall i c, znth (v_ctxs s) i = Some (Some c) -> exists k d, rel i k /\ znth (v_ctxs t) k = Some (Some d) /\
    looks c d /\ c_state d = c_state c /\ c_obj d = c_obj c /\
    (P i -> exists p kp, c_parent c = Some p /\ rel p kp /\ c_parent d = Some kp) /\
    (~ P i -> c_parent d = None).

Lemma inv_inj P t i j k c e : inv P t -> znth (v_ctxs s) i = Some (Some c) -> znth (v_ctxs s) j = Some (Some e) -> rel i k -> rel j k -> i = j.
Proof.
  intros [_ H] Zi Zj Ri Rj. destruct (H i c Zi) as (k1 & d1 & R1 & Z1 & _ & _ & O1 & _). destruct (H j e Zj) as (k2 & d2 & R2 & Z2 & _ & _ & O2 & _).
  assert (k1 = k) by exact (rel_fun _ _ _ _ Zi R1 Ri). assert (k2 = k) by exact (rel_fun _ _ _ _ Zj R2 Rj). subst k1 k2.
  rewrite Z1 in Z2. injection Z2 as <-. rewrite O1 in O2.
  destruct (Z.eq_dec i 0) as [->|Ni]; destruct (Z.eq_dec j 0) as [->|Nj]; [reflexivity| | |].
  - destruct (rel_obj j k e Nj Zj Rj) as (id & _ & _ & E & _). rewrite (w_root _ _ _ Wf c Zi), E in O2. discriminate.
  - destruct (rel_obj i k c Ni Zi Ri) as (id & _ & _ & E & _). rewrite (w_root _ _ _ Wf e Zj), E in O2. discriminate.
  - destruct (rel_obj i k c Ni Zi Ri) as (id & o & _ & E & G & D & _). destruct (rel_obj j k e Nj Zj Rj) as (id' & o' & _ & E' & G' & D' & _).
    rewrite E, E' in O2. apply vobj_inj in O2. subst id'. congruence.
Qed.

Lemma inv_link P t j e c p kp : inv P t -> znth (v_ctxs s) j = Some (Some c) -> rel j e -> c_parent c = Some p -> rel p kp ->
  exists d, znth (v_ctxs t) e = Some (Some d) /\ (~ P j -> c_parent d = None) /\
    inv (fun i => P i \/ i = j) (set_ctxs (zupd (v_ctxs t) e (Some (set_c_parent (Some kp) d))) t).
Proof.
  intros H Zj Rj Pj Rp. destruct (proj2 H j c Zj) as (e' & d & R & Z & L & St & O & I1 & I2).
  assert (e' = e) by exact (rel_fun _ _ _ _ Zj R Rj). subst e'. exists d. split; [exact Z|]. split; [exact I2|].
  split; [apply Xctxs, H|]. intros i ci Zi. destruct (proj2 H i ci Zi) as (k & di & Ri & Zk & Lk & Sk & Ok & J1 & J2).
  destruct (Z.eq_dec i j) as [->|N].
  - rewrite Zj in Zi. injection Zi as <-. exists e, (set_c_parent (Some kp) d). split; [exact R|]. vs.
    split; [apply znth_zupd_same; eapply znth_some_range; exact Z|]. cs. split; [exact L|]. split; [exact St|]. split; [exact O|].
    split; [intros _; exists p, kp; auto|]. intros Q. destruct Q. now right.
  - exists k, di. split; [exact Ri|]. vs. split.
    + rewrite znth_zupd_other; [exact Zk|]. intros ->. apply N. eapply inv_inj; [exact H|exact Zi|exact Zj|exact Ri|exact Rj].
    + split; [exact Lk|]. split; [exact Sk|]. split; [exact Ok|]. split; [intros [Q|Q]; [auto|contradiction]|]. intro Q. apply J2. tauto.
Qed.

Definition obj_at (i : Z) : value := match znth (v_ctxs s) i with Some (Some c) => c_obj c | _ => vnil end.
Lemma obj_raw i c : znth (v_ctxs s) i = Some (Some c) -> raw_value (c_obj c).
Proof.
  intro Z. destruct (Z.eq_dec i 0) as [->|N]; [rewrite (w_root _ _ _ Wf c Z); split; unfold is_u32, W32, vnil, T_NIL; cbn [v_type v_data]; lia|].
  destruct (w_co1 _ _ _ Wf i c N N Z) as (id & o & -> & G & _). unfold get_obj in G. rewrite tab_get_znth in G.
  destruct (znth _ id) eqn:Q; [|discriminate]. apply znth_some_range in Q.
  assert (B := pow2_bounds _ (tw_cap _ (w_tab _ _ _ Wf))). unfold W31, t_cap in B. split; unfold is_u32, W32, vobj, T_OBJ; cbn [v_type v_data]; lia.
Qed.
Lemma obj_context t i k c : X t -> znth (v_ctxs s) i = Some (Some c) -> rel i k -> chain_context (c_obj c) t = Some k.
Proof.
  intros H Z R. unfold chain_context. destruct (Z.eq_dec i 0) as [->|N].
  - rewrite (w_root _ _ _ Wf c Z). destruct R as [[_ ->]|[Q _]]; [reflexivity|contradiction].
  - destruct (rel_obj i k c N Z R) as (id & o & p & -> & G & _ & Gp & Ep & Dp).
    change (v_type (vobj id) =? T_NIL) with false. unfold obj_of_value. change (v_type (vobj id) =? T_OBJ) with true.
    change (v_data (vobj id)) with id. cbn iota. rewrite (Xob t id H), Gp. rewrite (Xob t id H), Gp, (Xco t H), Ep, Z.eqb_refl, Dp. reflexivity.
Qed.
Lemma obj_nil i c : znth (v_ctxs s) i = Some (Some c) -> (v_type (c_obj c) =? T_NIL) = (i =? 0).
Proof.
  intro Z. destruct (Z.eqb_spec i 0) as [->|N]; [now rewrite (w_root _ _ _ Wf c Z)|].
  destruct (w_co1 _ _ _ Wf i c N N Z) as (id & o & -> & _). reflexivity.
Qed.

Lemma rr_chain l0 : chain (v_ctxs s) (v_cur s) l0 -> forall i l, chain (v_ctxs s) i l -> (forall j, In j l -> In j l0) ->
  forall f P lj last cur, (length l <= f)%nat ->
  match lj, last with
  | None, None => True
  | Some j, Some e => exists c, znth (v_ctxs s) j = Some (Some c) /\ c_parent c = Some i /\ rel j e /\ j <> 0 /\ ~ P j /\ ~ In j l
  | _, _ => False
  end ->
  (forall j, P j -> ~ In j l) ->
  rr (inv P) (load_chain f cur last) (concat (map (fun i => save_value (obj_at i)) l))
     (fun _ t => inv (fun j => P j \/ lj = Some j \/ (In j l /\ j <> 0)) t /\
                 exists k, rel i k /\ v_cur t = match cur with None => k | Some y => y end).
Proof.
  intro C0. induction 1 as [c Z Pn|i c p l Ni Z Pp Ch IH Nl]; intros Sub f P lj last cur Lf Last Pl.
  all: destruct f as [|f]; [cbn in Lf; lia|].
  all: cbn [load_chain map concat]; unfold obj_at at 1; rewrite Z.
  all: eapply rr_bind; [reflexivity|apply rr_value; eapply obj_raw; exact Z|]; intros ?; apply rr_and; intros ->.
  all: eapply rr_bind0; [apply rr_get|]; intro s0.
  - eapply rr_pre with (P' := fun t => inv P t /\ chain_context (c_obj c) s0 = Some 0).
    2: { intros t [Ht ->]. split; [exact Ht|]. apply (obj_context t 0 0 c (proj1 Ht) Z). now left. }
    apply rr_and. intros ->.
    eapply rr_bind0 with (R := fun d t => inv P t /\ c_state d = CO_RUNNING).
    { apply rr_vm. intros t Ht. destruct (proj2 Ht 0 c Z) as (k & d & R & Zk & _ & St & _).
      destruct R as [[_ ->]|[Q _]]; [|contradiction]. unfold get_ctx. rewrite Zk. eexists _, _. split; [reflexivity|]. split; [exact Ht|].
      rewrite St. apply (Run l0 C0 0 c); [apply Sub; now left|exact Z]. }
    intros d. apply rr_and. intros ->. rewrite Z.eqb_refl.
    eapply rr_bind0 with (R := fun _ => inv P); [apply rr_ret; auto|]. intros ?.
    set (P2 := fun j => P j \/ lj = Some j).
    eapply rr_bind0 with (R := fun _ => inv P2).
    { destruct lj as [j|], last as [e|]; try contradiction.
      - destruct Last as (cj & Zj & Pj & Rj & Nj & Nq & _). intros t Ht.
        destruct (inv_link P t j e cj 0 0 Ht Zj Rj Pj) as (de & Ze & Ne & Iv); [now left|]. exists tt. eexists. split.
        + intro rest. cbn [app]. unfold lbind, lvm, get_ctx. rewrite Ze. rewrite (Ne Nq).
          destruct (Z.eqb_spec e 0) as [->|Nz].
          * exfalso. apply Nj. eapply inv_inj; [exact Ht|exact Zj|exact Z|exact Rj|now left].
          * unfold mod_ctx. rewrite Ze. reflexivity.
        + destruct Iv as [Q1 Q2]. split; [exact Q1|]. intros i ci Zi. destruct (Q2 i ci Zi) as (k & dd & A). exists k, dd. unfold P2.
          assert (Eq : (Some j = Some i) <-> i = j) by (split; congruence). rewrite Eq. exact A.
      - apply rr_ret. intros t [Q1 Q2]. split; [exact Q1|]. intros i ci Zi. destruct (Q2 i ci Zi) as (k & dd & A). exists k, dd. unfold P2.
        assert (Eq : (None = Some i) <-> False) by (split; [discriminate|tauto]). rewrite Eq.
        assert (Ef : (P i \/ False) <-> P i) by tauto. rewrite Ef. exact A. }
    intros ?. rewrite (obj_nil 0 c Z). cbn [Z.eqb]. apply rr_mod. intros t [Q1 Q2]. split; [split; [apply Xcur, Q1|]|].
    + intros i ci Zi. destruct (Q2 i ci Zi) as (k & dd & A). exists k, dd. vs. unfold P2 in A.
      assert (Ef : (P i \/ lj = Some i \/ In i [0] /\ i <> 0) <-> (P i \/ lj = Some i)).
      { cbn [In]. split; [|tauto]. intros [|[|[[|[]] ?]]]; auto; lia. }
      rewrite Ef. exact A.
    + exists 0. split; [now left|]. reflexivity.
  - intros t [Ht ->]. destruct (proj2 Ht i c Z) as (k & d & R & Zk & _ & St & _).
    set (P2 := fun j => P j \/ lj = Some j).
    assert (Body : rr (inv P) ((if c_state d =? CO_RUNNING then lret tt else
         lvm (add_error (bs "Dormant coroutine recorded in active coroutine chain.")) ;+ lvm (mod_ctx k (set_c_state CO_RUNNING))) ;+
      (match last with
       | None => lret tt
       | Some e =>
         ec <! lvm (get_ctx e) ;;
         match c_parent ec with
         | Some _ => lerror (bs "Corrupt coroutine chain.")
         | None =>
           if e =? 0 then lerror (bs "Corrupt coroutine chain.")
           else lvm (mod_ctx e (set_c_parent (Some k)))
         end
       end) ;+
      if v_type (c_obj c) =? T_NIL then lmod (set_cur match cur with None => k | Some y => y end) else load_chain f (Some match cur with None => k | Some y => y end) (Some k))
      (concat (map (fun i => save_value (obj_at i)) l))
      (fun _ t => inv (fun j => P j \/ lj = Some j \/ In j (i :: l) /\ j <> 0) t /\ exists k, rel i k /\ v_cur t = match cur with None => k | Some y => y end)).
    { rewrite St. rewrite (Run l0 C0 i c) by (first [apply Sub; now left|exact Z]). rewrite Z.eqb_refl.
      eapply rr_bind0 with (R := fun _ => inv P); [apply rr_ret; auto|]. intros ?.
      eapply rr_bind0 with (R := fun _ => inv P2).
      { destruct lj as [j|], last as [e|]; try contradiction.
        - destruct Last as (cj & Zj & Pj & Rj & Nj & Nq & _). intros t1 Ht1.
          destruct (inv_link P t1 j e cj i k Ht1 Zj Rj Pj R) as (de & Ze & Ne & Iv). exists tt. eexists. split.
          + intro rest. cbn [app]. unfold lbind, lvm, get_ctx. rewrite Ze. rewrite (Ne Nq).
            destruct (Z.eqb_spec e 0) as [->|Nz].
            * exfalso. apply Nj. destruct (w_chain _ _ _ Wf) as (l1 & C1 & _). 
              assert (exists c0, znth (v_ctxs s) 0 = Some (Some c0)) as [c0 Z0].
              { clear -C1. induction C1; eauto. }
              eapply inv_inj; [exact Ht1|exact Zj|exact Z0|exact Rj|now left].
            * unfold mod_ctx. rewrite Ze. reflexivity.
          + destruct Iv as [Q1 Q2]. split; [exact Q1|]. intros i1 ci Zi. destruct (Q2 i1 ci Zi) as (k1 & dd & A). exists k1, dd. unfold P2.
            assert (Eq : (Some j = Some i1) <-> i1 = j) by (split; congruence). rewrite Eq. exact A.
        - apply rr_ret. intros t1 [Q1 Q2]. split; [exact Q1|]. intros i1 ci Zi. destruct (Q2 i1 ci Zi) as (k1 & dd & A). exists k1, dd. unfold P2.
          assert (Eq : (None = Some i1) <-> False) by (split; [discriminate|tauto]). rewrite Eq.
          assert (Ef : (P i1 \/ False) <-> P i1) by tauto. rewrite Ef. exact A. }
      intros ?. rewrite (obj_nil i c Z). destruct (Z.eqb_spec i 0) as [|_]; [contradiction|].
      eapply rr_post; [apply (IH (fun j Hj => Sub j (or_intror Hj)) f P2 (Some i) (Some k) (Some match cur with None => k | Some y => y end))|].
      - cbn [length] in Lf. lia.
      - exists c. split; [exact Z|]. split; [exact Pp|]. split; [exact R|]. split; [exact Ni|]. split; [|exact Nl].
        intros [Q|Q]; [apply (Pl i Q); now left|]. subst lj. destruct last as [e|]; [|contradiction].
        destruct Last as (cj & _ & _ & _ & _ & _ & Q). apply Q. now left.
      - intros j [Q|Q] I; [apply (Pl j Q); now right|]. subst lj. destruct last as [e|]; [|contradiction].
        destruct Last as (cj & _ & _ & _ & _ & _ & Q). apply Q. now right.
      - intros ? t1 [Iv (kp & _ & Ec)]. split; [|exists k; split; [exact R|exact Ec]].
        destruct Iv as [Q1 Q2]. split; [exact Q1|]. intros i1 ci Zi. destruct (Q2 i1 ci Zi) as (k1 & dd & A). exists k1, dd.
        assert (Ef : (P i1 \/ lj = Some i1 \/ In i1 (i :: l) /\ i1 <> 0) <-> (P2 i1 \/ Some i = Some i1 \/ In i1 l /\ i1 <> 0)).
        { unfold P2. cbn [In]. split.
          - intros [Q|[Q|[[Q|Q] N]]]; auto. subst. auto.
          - intros [[Q|Q]|[Q|[Q N]]]; auto. injection Q as ->. auto. }
        rewrite Ef. exact A. }
    destruct (Body t Ht) as (a & t' & E & Q). exists a, t'. split; [|exact Q]. intro rest. rewrite (obj_context t i k c (proj1 Ht) Z R).
    cbn zeta. unfold lbind at 1. unfold lvm at 1, get_ctx at 1. rewrite Zk. apply E.
Qed.

Lemma rr_active0 : exists b, save_chain (S (length (v_ctxs s))) s (v_cur s) = Ok b /\
  rr (inv (fun _ => False)) load_active b (fun _ t => (exists k, rel (v_cur s) k /\ v_cur t = k) /\
    X t /\ forall i c, znth (v_ctxs s) i = Some (Some c) -> exists k d, rel i k /\ znth (v_ctxs t) k = Some (Some d) /\
    looks c d /\ c_state d = c_state c /\ c_obj d = c_obj c /\
    match c_parent c with
    | Some p => exists kp, rel p kp /\ c_parent d = Some kp
    | None => c_parent d = None
    end).
Proof.
  destruct (w_chain _ _ _ Wf) as (l & C & All).
  assert (Nd : NoDup l /\ forall j, In j l -> In j (zseq 0 (length (v_ctxs s)))).
  { clear -C. assert (H : forall i c, znth (v_ctxs s) i = Some (Some c) -> In i (zseq 0 (length (v_ctxs s)))).
    { intros i c Z. apply znth_some_range in Z. apply In_zseq. unfold zlen in Z. lia. }
    induction C as [c Z _|i c p l N Z _ _ [I1 I2] Nl].
    - split; [repeat constructor; auto|]. intros j [<-|[]]. eauto.
    - split; [constructor; auto|]. intros j [<-|I]; eauto. }
  assert (Len : (length l <= length (v_ctxs s))%nat).
  { rewrite <- (zseq_length 0 (length (v_ctxs s))). apply NoDup_incl_length; [apply Nd|]. intros j. apply Nd. }
  assert (Sv : forall f, (length l <= f)%nat -> save_chain f s (v_cur s) = Ok (concat (map (fun i => save_value (obj_at i)) l))).
  { clear -C. induction C as [c Z Pn|i c p l N Z Pp C IH _]; intros [|f] Hf; cbn [length] in Hf; try lia; cbn [save_chain map concat]; unfold obj_at at 1; rewrite Z.
    - rewrite Pn, app_nil_r. reflexivity.
    - rewrite Pp, (IH f) by lia. reflexivity. }
  exists (concat (map (fun i => save_value (obj_at i)) l)). split; [apply Sv; lia|].
  assert (Bl : forall l', (length l' <= length (concat (map (fun i => save_value (obj_at i)) l')))%nat).
  { induction l' as [|i r IH]; [cbn; lia|]. cbn [map concat length]. rewrite app_length. cbn [length save_value]. unfold save_value at 1. rewrite app_length. cbn [length word]. lia. }
  assert (G : forall f, (length l <= f)%nat -> rr (inv (fun _ => False)) (load_chain f None None) (concat (map (fun i => save_value (obj_at i)) l))
    (fun _ t => inv (fun j => In j l /\ j <> 0) t /\ exists k, rel (v_cur s) k /\ v_cur t = k)).
  { intros f Hf. eapply rr_post; [apply (rr_chain l C (v_cur s) l C (fun _ H => H) f (fun _ => False) None None None Hf I)|].
    - auto.
    - intros ? t [[Q1 Q2] Q3]. split; [|exact Q3]. split; [exact Q1|]. intros i c Z. destruct (Q2 i c Z) as (k & d & A). exists k, d.
      assert (Ef : (In i l /\ i <> 0) <-> (False \/ None = Some i \/ In i l /\ i <> 0)) by (split; [tauto|intros [[]|[Q|Q]]; [discriminate|exact Q]]).
      rewrite Ef. exact A. }
  intros t Ht. destruct (G (S (length (concat (map (fun i => save_value (obj_at i)) l)))) ltac:(specialize (Bl l); lia) t Ht) as (a & t' & E & Iv & K).
  exists a, t'. split.
  - intro rest. unfold load_active.
    (* the answer does not depend on how many turns are allowed *)
    set (b := concat (map (fun i => save_value (obj_at i)) l)) in *.
    destruct (G (S (length (b ++ rest))) ltac:(rewrite app_length; specialize (Bl l); fold b in Bl; lia) t Ht) as (a2 & t2 & E2 & _).
    apply (load_chain_more _ _ _ _ _ _ (E rest)). rewrite app_length. lia.
  - destruct Iv as [Q1 Q2]. split; [exact K|]. split; [exact Q1|]. intros i c Z. destruct (Q2 i c Z) as (k & d & A1 & A2 & A3 & A4 & A5 & A6 & A7).
    exists k, d. split; [exact A1|]. split; [exact A2|]. split; [exact A3|]. split; [exact A4|]. split; [exact A5|].
    destruct (c_parent c) as [p|] eqn:Ep.
    + destruct A6 as (p' & kp & Q & R & D).
      * split; [apply (All i c Z); congruence|]. intros ->. assert (Q := root_top _ _ _ C c Z). congruence.
      * injection Q as <-. eauto.
    + apply A7. intros [I N]. destruct (chain_parent _ _ _ C i c I N Z) as (p & Q & _). congruence.
Qed.

Lemma rr_active b : save_chain (S (length (v_ctxs s))) s (v_cur s) = Ok b ->
  rr (inv (fun _ => False)) load_active b (fun _ t => (exists k, rel (v_cur s) k /\ v_cur t = k) /\
    X t /\ forall i c, znth (v_ctxs s) i = Some (Some c) -> exists k d, rel i k /\ znth (v_ctxs t) k = Some (Some d) /\
    looks c d /\ c_state d = c_state c /\ c_obj d = c_obj c /\
    match c_parent c with
    | Some p => exists kp, rel p kp /\ c_parent d = Some kp
    | None => c_parent d = None
    end).
Proof. intro E. destruct rr_active0 as (b' & E' & R). rewrite E in E'. injection E' as <-. exact R. Qed.
End ActRound.
Lemma save_chain_ok s : saveable s -> exists b, save_chain (S (length (v_ctxs s))) s (v_cur s) = Ok b.
Proof.
  intro Sv. destruct (rr_active0 s (sv_wf _ Sv) (sv_running _ Sv) (get_obj s)
    (fun t => (forall i, get_obj t i = get_obj s i) /\ v_corotype t = v_corotype s)) as (b & E & _); [intros; assumption..|intros t i [H _]; apply H|intros t [_ H]; exact H|eauto].
Qed.

(** ** The whole file *)

Lemma strings_bytes s : saveable s -> any_bytes (save_strings s).
Proof.
  intros Sv. unfold save_strings. apply Forall_app. split; [apply word_bytes|]. apply Forall_app. split; [apply word_bytes|].
  change (over 0 (t_slots (v_strs s)) save_string_entry) with (over 0 (t_slots (v_strs s)) (fun i x => match x with None => []
    | Some e => (fun i e => word i ++ save_string (s_str e) ++ word (s_gc e) ++ [if s_keep e then 1 else 0]) i e end)).
  rewrite over_entries. apply concat_bytes. intros [i e] I. cbn [fst snd]. apply entries_in in I. rewrite Z.sub_0_r in I.
  destruct (sw_ent _ _ (w_str _ _ _ (sv_wf _ Sv)) i e) as (_ & _ & T); [rewrite tab_get_znth, I; reflexivity|].
  apply Forall_app. split; [apply word_bytes|]. apply Forall_app. split; [apply save_string_bytes, T|]. apply Forall_app. split; [apply word_bytes|].
  destruct (s_keep e); repeat constructor; lia.
Qed.

Section WholeRound.
Variable s : vm.
Hypothesis Sv : saveable s.
Variable host_save : Z -> Z -> option Z -> bytes.
Variable host_load : Z -> Z -> bytes -> option Z * nat.
Variable sub_save : bytes -> bytes.
Variable sub_load : bytes -> bytes -> nat.
Hypothesis Hf : host_faithful s host_save host_load.
Hypothesis Hs : subs_faithful sub_save sub_load.
Variable m0 : Z.
Hypothesis Hst : forall i c, znth (v_ctxs s) i = Some (Some c) -> k_cap (c_stack c) <= m0.
Hypothesis Nd : NoDup (map x_name (v_extfuncs s)).
Hypothesis Un : unique et_name (v_exttypes s).
Variable eco : exttype.
Hypothesis Hco : znth (v_exttypes s) (v_corotype s) = Some eco.
Hypothesis Hser : et_ser eco = true.

(** What does not change. *)
Definition stays (t : vm) : Prop :=
  v_exttypes t = v_exttypes s /\ v_corotype t = v_corotype s /\ v_maxstack t = m0 /\
  (forall i o, get_obj s i = Some o -> o_size o <= v_maxfields t) /\
  (forall x, In x (concat (v_subsys s)) -> exists l y, znth (v_subsys t) (sub_bucket (sub_name x)) = Some l /\
                          find_sub l (sub_name x) = Some y /\ sub_ser y = sub_ser x).
Definition start (t : vm) : Prop :=
  stays t /\ v_cur t = 0 /\ map x_name (v_extfuncs t) = map x_name (v_extfuncs s) /\ v_errs t = [] /\
  at' 0 (fun d => c_parent d = None /\ c_obj d = vnil /\ c_state d = CO_RUNNING) t.

(** All of the file but the last part. *)
Definition most (t : vm) : Prop :=
  stays t /\ v_code t = v_code s /\ v_cmask t = v_cmask s /\ v_errs t = v_errs s /\
  v_static t = v_static s /\ v_smask t = v_smask s /\ t_slots (v_strs t) = t_slots (v_strs s) /\
  (v_gcpass t = v_gcpass s /\ v_gcint t = Z.min 65536 (v_gcint s) /\ v_gccount t = v_gccount s /\
   v_newint t = v_newint s /\ v_newcount t = v_newcount s) /\
  v_funcs t = v_funcs s /\ v_globals t = v_globals s /\ map x_name (v_extfuncs t) = map x_name (v_extfuncs s) /\
  host_ids (zlen (v_extfuncs s)) s t.
Definition shaped_obs (ob : Z -> option nkobj) : Prop :=
  (forall i, get_obj s i = None -> ob i = None) /\
  forall i o, get_obj s i = Some o -> exists p, ob i = Some p /\ p = set_o_data (o_data p) (conv o) /\
    (o_ext o = v_corotype s -> exists a k, o_data o = Some a /\ o_data p = Some k) /\
    (forall et, o_ext o <> v_corotype s -> o_ext o <> INVALID -> znth (v_exttypes s) (o_ext o) = Some et ->
       et_ser et = true -> o_data p = o_data o).
Definition finished (t : vm) : Prop :=
  exists ob, shaped_obs ob /\ (exists k, rel s ob (v_cur s) k /\ v_cur t = k) /\
  (most t /\ (forall i, get_obj t i = ob i) /\ t_cap (v_objs t) = t_cap (v_objs s) /\ v_files t = v_files s /\ v_markers t = v_markers s) /\
  forall i c, znth (v_ctxs s) i = Some (Some c) -> exists k d, rel s ob i k /\ znth (v_ctxs t) k = Some (Some d) /\
    looks c d /\ c_state d = c_state c /\ c_obj d = c_obj c /\
    match c_parent c with
    | Some p => exists kp, rel s ob p kp /\ c_parent d = Some kp
    | None => c_parent d = None
    end.

Lemma rr_whole : exists b, save host_save sub_save s = Ok b /\ rr start (load host_load sub_load) b (fun _ => finished).
Proof.
  assert (W := sv_words _ Sv). assert (Wf := sv_wf _ Sv).
  destruct (w_chain _ _ _ Wf) as (l & C & All).
  assert (exists root, znth (v_ctxs s) 0 = Some (Some root)) as [root Zr]. { clear -C. induction C; eauto. }
  assert (I0 : In 0 l). { clear -C. induction C; cbn; auto. }
  destruct (mw_ctxs _ W 0 root Zr) as (U1 & U2 & U3). assert (Kr := w_stk _ _ _ Wf 0 root Zr).
  assert (Sr : c_state root = CO_RUNNING) by exact (sv_running _ Sv l C 0 root I0 Zr).
  set (F := fun d => looks root d /\ c_parent d = None /\ c_obj d = vnil /\ c_state d = c_state root).
  destruct (save_chain_ok s Sv) as [ba Ea].
  eexists. split.
  { unfold save. rewrite Zr, (save_externals_ok s Wf). cbn [bind]. rewrite Ea. reflexivity. }
  unfold load. eapply rr_bind; [reflexivity|apply (rr_take 5 MAGIC); reflexivity|]. intros ?. apply rr_and. intros ->.
  rewrite bytes_eqb_refl. cbn [negb].
  eapply rr_bind; [reflexivity|apply rr_r32; unfold is_u32, W32, VERSION; lia|]. intros ?. apply rr_and. intros ->.
  rewrite Z.eqb_refl. cbn [negb].
  eapply rr_bind; [reflexivity|apply (rr_instructions s W Wf); intros; assumption|]. intros ?.
  eapply rr_bind; [reflexivity|eapply rr_pre|].
  { apply (rr_errors s W (fun t => stays t /\ v_cur t = 0 /\ map x_name (v_extfuncs t) = map x_name (v_extfuncs s) /\
      at' 0 (fun d => c_parent d = None /\ c_obj d = vnil /\ c_state d = CO_RUNNING) t /\ v_code t = v_code s /\ v_cmask t = v_cmask s)).
    intros; assumption. }
  { unfold start. intros t Ht. tauto. }
  intros ?. eapply rr_bind; [reflexivity|apply (rr_statics s W Wf); intros; assumption|]. intros ?.
  set (A := fun t => stays t /\ v_cur t = 0 /\ map x_name (v_extfuncs t) = map x_name (v_extfuncs s) /\ v_code t = v_code s /\ v_cmask t = v_cmask s /\
    v_errs t = v_errs s /\ v_static t = v_static s /\ v_smask t = v_smask s).
  eapply rr_bind; [reflexivity|eapply rr_pre|].
  { apply (rr_context A 0 m0) with (c := root) (q := vnil) (co := false).
    - intros t H. apply H.
    - intros; assumption.
    - exact Kr.
    - exact U1.
    - exact U2.
    - exact U3.
    - eapply Hst; exact Zr. }
  { unfold A. intros t Ht. rewrite Sr. destruct Ht as (((H1 & H2 & H3 & (d & Zd & D1 & D2 & D3) & H5) & H6) & H7). split; [tauto|].
    exists d. auto 6. }
  intros ?. fold F.
  eapply rr_bind; [reflexivity|eapply rr_good; [exact (strings_bytes s Sv)|apply (rr_strings_slots s W Wf); intros; assumption|apply g_strings]|].
  { intros t [(H1 & H2 & _) (d & Zd & _)]. rewrite H2. exists d. exact Zd. }
  { intros; assumption. }
  { intros; assumption. }
  intros ?.
  set (B := fun t => ((A t /\ at' 0 F t) /\ t_slots (v_strs t) = t_slots (v_strs s)) /\ str_wf (v_strs t) (v_byhash t)).
  eapply rr_pre with (P' := B).
  2: { intros t [[H1 H2] [_ H3]]. split; [auto|]. eapply strs_round; [exact Wf|exact H2|exact H3]. }
  eapply rr_bind; [reflexivity|apply (rr_gc s W); intros; assumption|]. intros ?.
  eapply rr_bind; [reflexivity|eapply rr_pre|].
  { apply (rr_functions s W (fun t => stays t /\ v_cur t = 0 /\ (v_code t = v_code s /\ v_cmask t = v_cmask s /\
      v_errs t = v_errs s /\ v_static t = v_static s /\ v_smask t = v_smask s) /\ at' 0 F t /\ t_slots (v_strs t) = t_slots (v_strs s) /\
      str_wf (v_strs t) (v_byhash t) /\ (v_gcpass t = v_gcpass s /\ v_gcint t = Z.min 65536 (v_gcint s) /\
    v_gccount t = v_gccount s /\ v_newint t = v_newint s /\ v_newcount t = v_newcount s))).
    - apply (sv_funcs _ Sv).
    - exact Nd.
    - intros; assumption.
    - intros; assumption. }
  { unfold B, A. intros t Ht. tauto. }
  intros ?. eapply rr_bind; [reflexivity|apply (rr_objects s W Wf (sv_keys _ Sv))|].
  { intros; assumption. }
  { intros; assumption. }
  { intros t Ht. tauto. }
  { intros t i o Ht. apply (proj1 (proj1 (proj1 Ht))). }
  intros ?. eapply rr_bind; [reflexivity|apply (rr_globals s W); intros; assumption|]. intros ?.
  eapply rr_bind; [reflexivity|apply (rr_types s W)|].
  { exact Un. }
  { intros t Ht. apply Ht. }
  { intros t i o Ht G. destruct Ht as [[_ E] _]. unfold get_obj in G. rewrite tab_get_znth, E, znth_map in G.
    destruct (znth (t_slots (v_objs s)) i) as [[o'|]|] eqn:Z; cbn in G; try discriminate. injection G as <-.
    destruct (mw_objs _ W) as [_ M]. destruct (M i o') as (_ & R & _); [unfold get_obj; rewrite tab_get_znth, Z; reflexivity|]. exact R. }
  intros ?. eapply rr_bind; [reflexivity|apply (rr_subsystems s W)|].
  { exact Hs. }
  { intros t x Ht. apply (proj2 (proj2 (proj2 (proj2 (proj1 (proj1 (proj1 (proj1 (proj1 Ht))))))))). }
  intros ?.
  eapply rr_bind; [reflexivity|eapply rr_pre|].
  { apply (rr_externals s W Wf host_save host_load Hf eco Hco Hser (fun t => most t) m0) with (F := F).
    - intros; assumption.
    - intros; assumption.
    - intros t H. destruct H as [H _]. unfold stays in H. tauto.
    - exact Hst. }
  { intros t Ht. destruct Ht as [[[[H1 H2] H3] H4] H5].
    assert (Gt : forall i, get_obj t i = option_map conv (get_obj s i)).
    { intro i. unfold get_obj. rewrite !tab_get_znth, H4, znth_map. destruct (znth _ i) as [[|]|]; reflexivity. }
    split; [unfold most; tauto|]. split; [rewrite H4; unfold t_cap, zlen; now rewrite map_length|]. split; [tauto|].
    split; [intros i G; rewrite Gt, G; reflexivity|]. intros i o G. exists (conv o). split; [rewrite Gt, G; reflexivity|]. split; [|auto].
    intro Li. exfalso. unfold get_obj in G. rewrite tab_get_znth in G. destruct (znth _ i) eqn:Z; [|discriminate]. apply znth_some_range in Z. lia. }
  intros ?. eapply rr_bind; [reflexivity|apply (rr_files s W); intros; assumption|]. intros ?.
  eapply rr_bind; [reflexivity|apply (rr_markers s W); intros; assumption|]. intros ?.
  set (Xa := fun ob t => most t /\ (forall i, get_obj t i = ob i) /\ t_cap (v_objs t) = t_cap (v_objs s) /\ v_files t = v_files s /\ v_markers t = v_markers s).
  eapply rr_pre with (P' := fun t => exists ob, inv s ob (Xa ob) (fun _ => False) t /\ shaped_obs ob).
  - apply rr_ex. intro ob. apply rr_and. intro So. eapply rr_post; [apply (rr_active s Wf (sv_running _ Sv) ob (Xa ob))|].
    + intros; assumption.
    + intros; assumption.
    + intros t i H. apply H.
    + intros t H. apply H.
    + exact Ea.
    + intros ? t H. exists ob. unfold Xa in H. tauto.
  - intros t [[(H1 & H2 & H3 & H4 & H5) H6] H7]. exists (get_obj t).
    assert (Lt : forall i o, get_obj s i = Some o -> i < t_cap (v_objs s)).
    { intros i o G. unfold get_obj in G. rewrite tab_get_znth in G. destruct (znth _ i) eqn:Z; [|discriminate]. apply znth_some_range in Z. apply Z. }
    split; [split|split].
    + unfold Xa. auto.
    + intros i c Zi. destruct (Z.eq_dec i 0) as [->|N].
      * rewrite Zr in Zi. injection Zi as <-. destruct H3 as (d & Zd & L & P1 & O1 & S1). exists 0, d. split; [now left|].
        split; [exact Zd|]. split; [exact L|]. split; [exact S1|]. split; [|tauto]. rewrite O1. symmetry. apply (w_root _ _ _ Wf root Zr).
      * destruct (w_co1 _ _ _ Wf i c N N Zi) as (id & o & Oc & G & E & D). destruct (H5 id o G) as (p & Gp & L & _).
        destruct (L (Lt _ _ G)) as (L1 & L2 & _). destruct (L2 E) as (i0 & k & c' & d & D1 & D2 & D3 & D4 & D5 & D6 & D7 & D8 & D9).
        rewrite D in D1. injection D1 as <-. rewrite Zi in D2. injection D2 as <-. exists k, d. split.
        -- right. split; [exact N|]. exists id, o, p. rewrite L1 at 2. unfold conv. os. auto 10.
        -- split; [exact D5|]. split; [exact D6|]. split; [exact D7|]. split; [congruence|]. split; [intros []|auto].
    + exact H4.
    + intros i o G. destruct (H5 i o G) as (p & Gp & L & _). destruct (L (Lt _ _ G)) as (L1 & L2 & L3). exists p.
      split; [exact Gp|]. split; [exact L1|]. split; [|exact L3]. intro E. destruct (L2 E) as (i0 & k & c' & d & D1 & _ & D3 & _). eauto.
Qed.

(** From the pieces to the specification. *)
Lemma finished_same t : finished t -> same_machine s t.
Proof.
  intros (ob & (So1 & So2) & (k0 & Rk & Ec) & ((Hm & Ho & _ & Hfi & Hma) & Hc)). assert (Wf := sv_wf _ Sv).
  destruct (w_chain _ _ _ Wf) as (l & C & All).
  assert (Sc : forall i c k d, znth (v_ctxs s) i = Some (Some c) -> rel s ob i k -> znth (v_ctxs t) k = Some (Some d) -> same_ctx s t c d).
  { intros i c k d Z R Zd. destruct (Hc i c Z) as (k' & d' & R' & Zd' & L & St & Oc & P).
    assert (k' = k) by exact (rel_fun s Wf ob _ _ _ _ Z R' R). subst k'. rewrite Zd in Zd'. injection Zd' as <-.
    destruct L as (L1 & L2 & L3 & L4). constructor; auto. destruct (c_parent c) as [p|] eqn:Ep; [|now rewrite P].
    destruct P as (kp & Rp & ->). assert (Ni : i <> 0). { intros ->. assert (Q := root_top _ _ _ C c Z). congruence. }
    destruct (chain_parent _ _ _ C i c (All i c Z ltac:(congruence)) Ni Z) as (p' & Q & Ip). rewrite Ep in Q. injection Q as <-.
    destruct (chain_in _ _ _ C p Ip) as [c' Zc']. destruct (Hc p c' Zc') as (k' & d' & R2 & Zd2 & _ & _ & O2 & _).
    assert (k' = kp) by exact (rel_fun s Wf ob _ _ _ _ Zc' R2 Rp). subst k'. exists c', d'. auto. }
  assert (Hs' : forall i c k, znth (v_ctxs s) i = Some (Some c) -> rel s ob i k -> exists d, znth (v_ctxs t) k = Some (Some d) /\ same_ctx s t c d).
  { intros i c k Z R. destruct (Hc i c Z) as (k' & d & R' & Zd & _). assert (k' = k) by exact (rel_fun s Wf ob _ _ _ _ Z R' R). subst k'. eauto. }
  destruct Hm as (M1 & M2 & M3 & M4 & M5 & M6 & M7 & M8 & M9 & M10 & M11).
  assert (exists root, znth (v_ctxs s) 0 = Some (Some root)) as [root Zr]. { clear -C. induction C; eauto. }
  constructor; auto.
  - destruct (Hs' 0 root 0 Zr) as (d & Zd & Sd); [now left|]. exists root, d. auto.
  - destruct (chain_live _ _ _ C) as [c Zc]. destruct (Hs' _ c k0 Zc Rk) as (d & Zd & Sd). exists c, d. rewrite Ec. auto.
  - intro i. unfold get_str_entry. now rewrite !tab_get_znth, M7.
  - intro i. rewrite Ho. destruct (get_obj s i) as [o|] eqn:G; [|now rewrite (So1 i G)].
    destruct (So2 i o G) as (p & Gp & Ep & Co & Hh). rewrite Gp. constructor; try (rewrite Ep; reflexivity).
    + intro E. destruct (w_co2 _ _ _ Wf i o G E) as (a & c & Da & Na & _ & Za & Oa). destruct (Co E) as (a' & k & Da' & Dk).
      assert (R : rel s ob a k). { right. split; [exact Na|]. exists i, o, p. rewrite Ep at 2. unfold conv. os. auto 10. }
      destruct (Hs' a c k Za R) as (d & Zd & Sd). exists a, k, c, d. auto 10.
    + exact Hh.
Qed.
End WholeRound.
