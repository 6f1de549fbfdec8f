(** * TextProofs: decimal text of numbers *)
From Verif Require Import Base BaseFacts FloatModel.
From Coq Require Import Floats.SpecFloat.

Definition dval (ds : bytes) (a : Z) : Z := fold_left (fun a c => a * 10 + (c - 48)) ds a.

Lemma digits_app f : forall z acc, digits f z acc = digits f z [] ++ acc.
Proof.
  induction f as [|f IH]; intros z acc; cbn [digits]; auto.
  destruct (z <? 10); auto.
  rewrite IH. rewrite (IH _ [_]). rewrite <- app_assoc. reflexivity.
Qed.

Lemma take_digits_app ds r : Forall (fun c => is_digit c = true) ds ->
  (match r with [] => True | c :: _ => is_digit c = false end) ->
  forall a n, take_digits (ds ++ r) a n = (dval ds a, n + zlen ds, r).
Proof.
  intros H R. induction H as [|c ds Hc H IH]; intros a n; cbn [app take_digits dval fold_left].
  - rewrite zlen_nil, Z.add_0_r. destruct r as [|c r]; cbn [take_digits]; auto. rewrite R. reflexivity.
  - rewrite Hc, IH. rewrite zlen_cons. unfold dval. replace (n + 1 + zlen ds) with (n + (zlen ds + 1)) by lia. reflexivity.
Qed.

Lemma dval_app a b x : dval (a ++ b) x = dval b (dval a x).
Proof. apply fold_left_app. Qed.

(** The text of a non-negative number: digits only, no leading zero, and its
    decimal value is the number. *)
Lemma digits_spec f : forall z, 0 <= z < 2 ^ Z.of_nat f -> (0 < f)%nat ->
  Forall (fun c => is_digit c = true) (digits f z []) /\ dval (digits f z []) 0 = z /\
  digits f z [] <> [].
Proof.
  induction f as [|f IH]; intros z Hz Hf; [lia|]. cbn [digits].
  destruct (Z.ltb_spec z 10).
  - sp; [|unfold dval; cbn [fold_left]; lia|discriminate]. constructor; [|constructor].
    unfold is_digit. destruct (Z.leb_spec 48 (48 + z)), (Z.leb_spec (48 + z) 57); auto; lia.
  - rewrite Nat2Z.inj_succ, Z.pow_succ_r in Hz by lia.
    assert (f <> O) by (intro; subst; cbn in Hz; lia).
    destruct (IH (z / 10)) as (D & V & N); [lia|lia|].
    rewrite digits_app. sp.
    + apply Forall_app. split; auto. constructor; [|constructor]. unfold is_digit.
      destruct (Z.leb_spec 48 (48 + z mod 10)), (Z.leb_spec (48 + z mod 10) 57); auto; lia.
    + rewrite dval_app, V. unfold dval; cbn [fold_left]. lia.
    + intro E. apply app_eq_nil in E. destruct E. discriminate.
Qed.

Lemma digits_len f : forall z k, 0 <= z < 10 ^ Z.of_nat k -> (0 < k)%nat ->
  (length (digits f z []) <= k)%nat.
Proof.
  induction f as [|f IH]; intros z k Hz Hk; cbn [digits]; [cbn; lia|].
  destruct (Z.ltb_spec z 10); [cbn; lia|].
  rewrite digits_app, app_length. cbn [length].
  destruct k as [|k]; [lia|]. rewrite Nat2Z.inj_succ, Z.pow_succ_r in Hz by lia.
  assert (k <> O) by (intro; subst; cbn in Hz; lia).
  specialize (IH (z / 10) k). lia.
Qed.

Lemma log2_fuel z : 0 <= z -> z < 2 ^ Z.of_nat (Z.to_nat (Z.log2 z + 1)).
Proof.
  intro H. pose proof (Z.log2_nonneg z). rewrite Z2Nat.id by lia.
  destruct (Z.eq_dec z 0) as [->|]; [reflexivity|]. pose proof (Z.log2_spec z). unfold Z.succ in *. lia.
Qed.

Lemma u_to_str_spec z : 0 <= z ->
  Forall (fun c => is_digit c = true) (u_to_str z) /\ dval (u_to_str z) 0 = z /\ u_to_str z <> [].
Proof.
  intro H. apply digits_spec.
  - pose proof (log2_fuel z H). lia.
  - pose proof (Z.log2_nonneg z). lia.
Qed.

Lemma u_to_str_len z k : 0 <= z < 10 ^ Z.of_nat k -> (0 < k)%nat -> (length (u_to_str z) <= k)%nat.
Proof. apply digits_len. Qed.

Lemma digit_not_space c : is_digit c = true -> is_space c = false.
Proof.
  unfold is_digit, is_space. intro H. apply andb_prop in H. destruct H as [A B].
  destruct (Z.eqb_spec c 32), (Z.leb_spec 9 c), (Z.leb_spec c 13); auto; lia.
Qed.
Lemma digit_range c : is_digit c = true -> 48 <= c <= 57.
Proof. unfold is_digit. lia. Qed.

(** atol undoes "%d". *)
Lemma atol_i_to_str z : is_s32 z -> c_atol (i_to_str z) = z.
Proof.
  intro H. unfold i_to_str, c_atol. unfold is_s32, W31 in H.
  destruct (Z.ltb_spec z 0).
  - destruct (u_to_str_spec (- z)) as (D & V & N); [lia|].
    cbn [skip_spaces is_space]. change (is_space 45) with false. cbn [take_sign]. rewrite Z.eqb_refl.
    rewrite <- (app_nil_r (u_to_str (- z))), take_digits_app by auto. rewrite V.
    rewrite Z.max_l by (unfold LONG_MAX; lia). rewrite Z.opp_involutive. apply s32_id. unfold is_s32, W31. lia.
  - destruct (u_to_str_spec z) as (D & V & N); [lia|].
    destruct (u_to_str z) as [|c r] eqn:E; [congruence|]. pose proof (Forall_inv D) as Dc. cbv beta in Dc.
    cbn [skip_spaces]. rewrite (digit_not_space c Dc). unfold take_sign.
    pose proof (digit_range c Dc).
    destruct (Z.eqb_spec c 45); [lia|]. destruct (Z.eqb_spec c 43); [lia|].
    rewrite <- E in *. rewrite <- (app_nil_r (u_to_str z)), take_digits_app by auto. rewrite V.
    rewrite Z.min_l by (unfold LONG_MAX; lia). apply s32_id. unfold is_s32, W31. lia.
Qed.

(** ** Lengths *)

Lemma i_to_str_len z : is_s32 z -> (length (i_to_str z) <= 11)%nat.
Proof.
  intro H. unfold is_s32, W31 in H. unfold i_to_str. destruct (Z.ltb_spec z 0); cbn [length].
  - pose proof (u_to_str_len (- z) 10). cbn in *. lia.
  - pose proof (u_to_str_len z 10). cbn in *. lia.
Qed.

Lemma u32_to_str_len z : is_u32 z -> (length (u_to_str z) <= 10)%nat.
Proof.
  intro H. unfold is_u32, W32 in H. pose proof (u_to_str_len z 10). cbn in *. lia.
Qed.

Lemma pad6_len z : 0 <= z < 1000000 -> length (pad6 z) = 6%nat.
Proof.
  intro H. unfold pad6. rewrite app_length, repeat_length.
  pose proof (u_to_str_len z 6). assert (0 < 6)%nat by lia. 
  change (10 ^ Z.of_nat 6) with 1000000 in *. lia.
Qed.

(** The bound on the integer part of a finite float. *)
Lemma f_dec_finite_bound b s m e : f_dec b = S754_finite s m e -> Zpos m < P24 /\ -149 <= e <= 104.
Proof.
  unfold f_dec. remember (u32 b mod P23) as q eqn:Hq. remember ((u32 b / P23) mod 256) as ex eqn:He.
  assert (0 <= q < P23) by (subst q; apply Z.mod_pos_bound; reflexivity).
  assert (0 <= ex < 256) by (subst ex; apply Z.mod_pos_bound; reflexivity).
  clear Hq He. unfold P23, P24 in *.
  destruct (Z.eqb_spec ex 255); [destruct (q =? 0); discriminate|].
  destruct (Z.eqb_spec ex 0).
  - destruct q eqn:Eq; try discriminate. intro E; inversion E; subst. lia.
  - destruct (q + 8388608) eqn:Eq; try discriminate. intro E; inversion E; subst. lia.
Qed.

Lemma f_to_str_len b : (length (f_to_str b) <= 47)%nat.
Proof.
  unfold f_to_str. destruct (f_dec b) as [s|s| |s m e] eqn:E; cbn [length].
  - destruct s; vm_compute; lia.
  - destruct s; vm_compute; lia.
  - vm_compute; lia.
  - destruct (f_dec_finite_bound _ _ _ _ E) as [Hm He].
    remember (round_e6 (Zpos m) e) as n eqn:Hn.
    assert (0 <= n < 10 ^ 39 * 1000000) as B.
    { subst n. unfold round_e6, P24 in *. destruct (Z.leb_spec 0 e).
      - assert (0 < 2 ^ e <= 2 ^ 104) by (split; [apply Z.pow_pos_nonneg; lia|apply Z.pow_le_mono_r; lia]).
        assert (2 ^ 104 * 16777216 < 10 ^ 39) by reflexivity. nia.
      - assert (1 <= 2 ^ (- e)) by (assert (0 < 2 ^ (-e)) by (apply Z.pow_pos_nonneg; lia); lia).
        remember (2 ^ (- e)) as d.
        assert (0 <= Zpos m * 1000000 / d <= Zpos m * 1000000).
        { split; [apply Z.div_pos; lia|]. apply Z.div_le_upper_bound; nia. }
        assert (16777216 * 1000000 + 1 < 10 ^ 39 * 1000000) by reflexivity.
        destruct (_ || _); lia. }
    rewrite !app_length.
    rewrite pad6_len by (apply Z.mod_pos_bound; lia).
    assert (length (u_to_str (n / 1000000)) <= 39)%nat.
    { apply u_to_str_len; [|lia]. change (Z.of_nat 39) with 39. split; [apply Z.div_pos; lia|].
      apply Z.div_lt_upper_bound; lia. }
    destruct s; cbn [length]; lia.
Qed.

(** All these texts are C strings. *)
Lemma digit_byte c : is_digit c = true -> 0 < c < 256.
Proof. intro H. apply digit_range in H. lia. Qed.
Lemma u_to_str_text z : 0 <= z -> Forall (fun c => 0 < c < 256) (u_to_str z).
Proof.
  intro H. destruct (u_to_str_spec z H) as (D & _). eapply Forall_impl; [|exact D]. apply digit_byte.
Qed.
Lemma i_to_str_text z : Forall (fun c => 0 < c < 256) (i_to_str z).
Proof.
  unfold i_to_str. destruct (Z.ltb_spec z 0).
  - constructor; [lia|]. apply u_to_str_text. lia.
  - apply u_to_str_text. lia.
Qed.
Lemma bs_text s : (forall n c, String.get n s = Some c -> Ascii.nat_of_ascii c <> O) ->
  Forall (fun c => 0 < c < 256) (bs s).
Proof.
  induction s as [|c s IH]; cbn [bs]; intro H; constructor.
  - specialize (H O c eq_refl). pose proof (Ascii.nat_ascii_bounded c). lia.
  - apply IH. intros n d. apply (H (S n)).
Qed.
Lemma f_to_str_text b : Forall (fun c => 0 < c < 256) (f_to_str b).
Proof.
  unfold f_to_str. destruct (f_dec b) as [s|s| |s m e].
  - destruct s; repeat constructor; lia.
  - destruct s; repeat constructor; lia.
  - repeat constructor; lia.
  - assert (0 <= round_e6 (Zpos m) e) as N.
    { unfold round_e6. destruct (Z.leb_spec 0 e); [assert (0 <= 2 ^ e) by (apply Z.pow_nonneg; lia); nia|].
      assert (0 <= Zpos m * 1000000 / 2 ^ (- e)).
      { apply Z.div_pos; [lia|]. apply Z.pow_pos_nonneg; lia. }
      destruct (_ || _); lia. }
    repeat (apply Forall_app; split).
    + destruct s; repeat constructor; lia.
    + apply u_to_str_text. apply Z.div_pos; lia.
    + repeat constructor; lia.
    + apply Forall_forall. intros x Hx. apply repeat_spec in Hx. lia.
    + apply u_to_str_text. apply Z.mod_pos_bound. lia.
Qed.
