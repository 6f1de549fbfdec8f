(** * FloatProofs: the arithmetic of FloatModel against FloatSpec, by Flocq *)
From Coq Require Import Reals Psatz Floats.SpecFloat.
From Flocq Require Import Core.Raux Core.Core IEEE754.BinarySingleNaN.
From Verif Require Import Base FloatModel TextProofs FloatSpec.
Open Scope Z_scope.

Lemma Hp : Prec_gt_0 24. Proof. reflexivity. Qed.
Lemma Hm : Prec_lt_emax 24 128. Proof. reflexivity. Qed.
Global Existing Instance Hp.
Global Existing Instance Hm.

Notation bf := (binary_float 24 128).
Notation fx := (SpecFloat.fexp 24 128).
Notation rnd := (round radix2 fx ZnearestE).
Notation fmt := (generic_format radix2 fx).
Definition ulp0 : R := bpow radix2 (-149).

Global Instance fx_valid : Valid_exp fx.
Proof. apply (fexp_correct 24 128 Hp). Qed.
Global Instance fx_mono : Monotone_exp fx.
Proof. apply (fexp_monotone 24 128). Qed.
Global Instance fx_ne : Exists_NE radix2 fx.
Proof. change fx with (FLT_exp (-149) 24). apply exists_NE_FLT. right; reflexivity. Qed.

(** The standard library's operations are Flocq's. *)
Lemma rne_equiv s m l : round_nearest_even m l = choice_mode mode_NE s m l.
Proof. destruct l as [|[]]; try reflexivity. simpl. unfold Round.cond_incr. destruct (Z.even m); reflexivity. Qed.

Lemma bra_equiv sx mx ex lx :
  SpecFloat.binary_round_aux 24 128 sx mx ex lx = binary_round_aux 24 128 mode_NE sx mx ex lx.
Proof.
  unfold SpecFloat.binary_round_aux, binary_round_aux.
  set (q := shr_fexp _ _ _). destruct q as [mrs' e']. simpl. rewrite (rne_equiv sx). reflexivity.
Qed.
Lemma br_equiv s m e : SpecFloat.binary_round 24 128 s m e = binary_round 24 128 mode_NE s m e.
Proof.
  unfold SpecFloat.binary_round, binary_round, shl_align_fexp.
  set (q := shl_align _ _ _). destruct q. apply bra_equiv.
Qed.
Lemma bn_equiv m e z :
  SpecFloat.binary_normalize 24 128 m e z = B2SF (binary_normalize 24 128 _ _ mode_NE m e z).
Proof. destruct m; simpl; [reflexivity| |]; rewrite B2SF_SF2B; apply br_equiv. Qed.
Lemma add_equiv (x y : bf) : SFadd 24 128 (B2SF x) (B2SF y) = B2SF (Bplus mode_NE x y).
Proof.
  destruct x as [sx|sx| |sx mx ex Bx], y as [sy|sy| |sy my ey By];
    try (simpl; try destruct (Bool.eqb _ _); reflexivity).
  apply bn_equiv.
Qed.
Lemma sub_equiv (x y : bf) : SFsub 24 128 (B2SF x) (B2SF y) = B2SF (Bminus mode_NE x y).
Proof.
  destruct x as [sx|sx| |sx mx ex Bx], y as [sy|sy| |sy my ey By];
    try (simpl; try destruct (Bool.eqb _ _); reflexivity).
  simpl. unfold Zminus. rewrite <- cond_Zopp_negb. apply bn_equiv.
Qed.
Lemma mul_equiv (x y : bf) : SFmul 24 128 (B2SF x) (B2SF y) = B2SF (Bmult mode_NE x y).
Proof.
  destruct x as [sx|sx| |sx mx ex Bx], y as [sy|sy| |sy my ey By]; try reflexivity.
  simpl. rewrite B2SF_SF2B. apply bra_equiv.
Qed.
Lemma div_equiv (x y : bf) : SFdiv 24 128 (B2SF x) (B2SF y) = B2SF (Bdiv mode_NE x y).
Proof.
  destruct x as [sx|sx| |sx mx ex Bx], y as [sy|sy| |sy my ey By]; try reflexivity.
  simpl. rewrite B2SF_SF2B. set (q := SFdiv_core_binary _ _ _ _ _ _). destruct q as [[mz ez] lz]. apply bra_equiv.
Qed.

(** Patterns and decoded numbers. *)
Lemma pattern_split b : pattern b ->
  exists s e m, (s = 0 \/ s = 1) /\ 0 <= e < 256 /\ 0 <= m < P23 /\
    b = s * 2 ^ 31 + e * P23 + m /\ sign_bit b = (s =? 1) /\ expo b = e /\ frac b = m /\
    f_dec b = (if e =? 255 then (if m =? 0 then S754_infinity (s =? 1) else S754_nan)
               else if e =? 0 then
                 match m with Zpos p => S754_finite (s =? 1) p (-149) | _ => S754_zero (s =? 1) end
               else match m + P23 with Zpos p => S754_finite (s =? 1) p (e - 150) | _ => S754_nan end).
Proof.
  intros Hb. unfold pattern in Hb.
  assert (E32 : 2 ^ 32 = 4294967296) by reflexivity.
  assert (E31 : 2 ^ 31 = 2147483648) by reflexivity.
  exists (b / 2 ^ 31), ((b / P23) mod 256), (b mod P23).
  assert (Hs : (2 ^ 31 <=? b) = (b / 2 ^ 31 =? 1)).
  { rewrite E31. destruct (Z.leb_spec 2147483648 b), (Z.eqb_spec (b / 2147483648) 1); try reflexivity;
      exfalso; Z.div_mod_to_equations; lia. }
  unfold P23 in *.
  assert (Hu : u32 b = b) by (unfold u32; apply Z.mod_small; unfold W32; lia).
  split; [Z.div_mod_to_equations; lia|]. split; [Z.div_mod_to_equations; lia|].
  split; [Z.div_mod_to_equations; lia|]. split; [rewrite E31; Z.div_mod_to_equations; lia|].
  split; [exact Hs|]. split; [reflexivity|]. split; [reflexivity|].
  unfold f_dec. rewrite Hu. change W31 with (2 ^ 31). rewrite Hs. reflexivity.
Qed.

Lemma pattern_join s e m : (s = 0 \/ s = 1) -> 0 <= e < 256 -> 0 <= m < P23 ->
  let b := s * 2 ^ 31 + e * P23 + m in
  pattern b /\ sign_bit b = (s =? 1) /\ expo b = e /\ frac b = m.
Proof.
  intros Hs He Hm' b. unfold P23 in *.
  assert (E32 : 2 ^ 32 = 4294967296) by reflexivity.
  assert (E31 : 2 ^ 31 = 2147483648) by reflexivity.
  assert (Hb : b = s * 2147483648 + e * 8388608 + m) by reflexivity.
  unfold pattern, sign_bit, expo, frac. rewrite E31, E32.
  change (2 ^ 23) with 8388608. change (2 ^ 8) with 256.
  repeat split; try (Z.div_mod_to_equations; lia);
  try (destruct (Z.leb_spec 2147483648 b), (Z.eqb_spec s 1); try reflexivity; exfalso; lia).
Qed.

Lemma dig m : Zpos (digits2_pos m) = Zdigits radix2 (Zpos m).
Proof. apply Zpos_digits2_pos. Qed.

Lemma dig24 m : P23 <= Zpos m < P24 -> Zdigits radix2 (Zpos m) = 24.
Proof.
  intros H. apply Zdigits_unique. unfold P23, P24 in H. simpl Z.abs. change (radix2 ^ (24 - 1))%Z with 8388608.
  change (radix2 ^ 24)%Z with 16777216. lia.
Qed.
Lemma dig23 m : Zpos m < P23 -> Zdigits radix2 (Zpos m) <= 23.
Proof.
  intros H. apply (Zdigits_le_Zpower radix2 23). unfold P23 in H. change (radix2 ^ 23)%Z with 8388608. lia.
Qed.

(** The finite numbers are exactly the mantissas and exponents the encoding
    has room for. *)
Lemma bounded_iff m e :
  SpecFloat.bounded 24 128 m e = true <->
  (Zpos m < P23 /\ e = -149) \/ (P23 <= Zpos m < P24 /\ -149 <= e <= 104).
Proof.
  unfold SpecFloat.bounded, canonical_mantissa. rewrite andb_true_iff, Z.leb_le.
  rewrite <- (Zeq_is_eq_bool _ e). rewrite dig. unfold SpecFloat.fexp, SpecFloat.emin.
  assert (D0 : 0 < Zdigits radix2 (Zpos m)) by (apply Zdigits_gt_0; discriminate).
  split.
  - intros [He Hx].
    destruct (Z_lt_le_dec (Zpos m) P23) as [L|L].
    + left. split; [exact L|]. pose proof (dig23 m L). lia.
    + right. destruct (Z_lt_le_dec (Zpos m) P24) as [L2|L2].
      * pose proof (dig24 m (conj L L2)). lia.
      * exfalso. assert (24 < Zdigits radix2 (Zpos m)).
        { apply (Zdigits_gt_Zpower radix2 24). exact L2. }
        lia.
  - intros [[L ->]|[L Hx]].
    + pose proof (dig23 m L). lia.
    + rewrite (dig24 m L). lia.
Qed.

Lemma f_dec_valid b : pattern b -> SpecFloat.valid_binary 24 128 (f_dec b) = true.
Proof.
  intros Hb. destruct (pattern_split b Hb) as (s & e & m & Hs & He & Hm' & _ & _ & _ & _ & ->).
  destruct (Z.eqb_spec e 255). { destruct (m =? 0); reflexivity. }
  destruct (Z.eqb_spec e 0).
  - destruct m as [|p|p]; try reflexivity. apply bounded_iff. left. lia.
  - destruct (m + P23) as [|p|p] eqn:E; try reflexivity. apply bounded_iff. right.
    unfold P23, P24 in *. lia.
Qed.

Definition num (b : Z) (H : pattern b) : bf := SF2B (f_dec b) (f_dec_valid b H).

Lemma num_dec b H : B2SF (num b H) = f_dec b.
Proof. apply B2SF_SF2B. Qed.

Lemma num_sign b H : ~ not_a_number b -> Bsign (num b H) = sign_bit b.
Proof.
  intros N. unfold num. rewrite Bsign_SF2B.
  destruct (pattern_split b H) as (s & e & m & Hs & He & Hm' & _ & -> & Ee & Em & ->).
  destruct (Z.eqb_spec e 255) as [E|E].
  { destruct (Z.eqb_spec m 0) as [E0|E0]; [reflexivity|]. exfalso. apply N. split; [exact H|]. lia. }
  destruct (Z.eqb_spec e 0).
  - destruct m as [|p|p]; reflexivity.
  - destruct (m + P23) as [|p|p] eqn:E2; try reflexivity; unfold P23 in *; lia.
Qed.

Lemma finite_nan b : finite b -> ~ not_a_number b.
Proof. intros [_ H] (_ & H' & _). exact (H H'). Qed.

Lemma num_finite b H : finite b -> is_finite (num b H) = true.
Proof.
  intros [_ N]. unfold num. rewrite is_finite_SF2B.
  destruct (pattern_split b H) as (s & e & m & Hs & He & Hm' & _ & _ & Ee & Em & ->).
  destruct (Z.eqb_spec e 255) as [E|E]; [lia|].
  destruct (Z.eqb_spec e 0).
  - destruct m as [|p|p]; reflexivity.
  - destruct (m + P23) as [|p|p] eqn:E2; try reflexivity; unfold P23 in *; lia.
Qed.

Lemma F2R_unit m e : -149 <= e -> F2R (Float radix2 m e) = (IZR (m * 2 ^ (e + 149)) * ulp0)%R.
Proof.
  intros He. unfold F2R, ulp0. simpl Fnum. simpl Fexp. rewrite mult_IZR.
  change 2 with (radix_val radix2) at 1. rewrite IZR_Zpower by lia. rewrite Rmult_assoc, <- bpow_plus.
  do 2 f_equal. lia.
Qed.

Lemma num_value b H : finite b -> B2R (num b H) = (IZR (value b) * ulp0)%R.
Proof.
  intros [_ N]. unfold num. rewrite B2R_SF2B. unfold value, magnitude.
  destruct (pattern_split b H) as (s & e & m & Hs & He & Hm' & _ & -> & Ee & -> & ->). rewrite Ee in N |- *.
  assert (Esg : forall b0 x, cond_Zopp b0 x = if b0 then - x else x) by (intros []; reflexivity).
  destruct (Z.eqb_spec e 255) as [E|E]; [lia|].
  destruct (Z.eqb_spec e 0) as [E0|E0].
  - destruct m as [|p|p]; simpl SF2R.
    + destruct (s =? 1); simpl; rewrite Rmult_0_l; reflexivity.
    + rewrite F2R_unit by lia. rewrite Esg. replace (2 ^ (-149 + 149)) with 1 by reflexivity. rewrite Z.mul_1_r. reflexivity.
    + lia.
  - change (2 ^ 23) with P23.
    destruct (m + P23) as [|p|p] eqn:E2; [unfold P23 in *; lia| |unfold P23 in *; lia].
    simpl SF2R. rewrite F2R_unit by lia. rewrite Esg. replace (P23 + m) with (Zpos p) by lia.
    replace (e - 150 + 149) with (e - 1) by lia. f_equal. f_equal. destruct (s =? 1); ring.
Qed.

(** Encoding a finite number: its pattern stands for it, and is even exactly
    when its mantissa is. *)
Lemma enc_finite (z : bf) : is_finite z = true ->
  finite (f_enc (B2SF z)) /\ sign_bit (f_enc (B2SF z)) = Bsign z /\
  B2R z = (IZR (value (f_enc (B2SF z))) * ulp0)%R.
Proof.
  assert (Esg : forall b0 x, cond_Zopp b0 x = if b0 then - x else x) by (intros []; reflexivity).
  destruct z as [s|s| |s m e Hb]; intros Hf; try discriminate.
  - destruct s; (split; [split; [split; [discriminate|reflexivity]|discriminate]|split; [reflexivity|]]);
      change (B2R _) with 0%R; match goal with |- _ = (IZR ?v * _)%R => change v with 0 end; rewrite Rmult_0_l; reflexivity.
  - simpl B2SF. simpl B2R. simpl Bsign. unfold f_enc.
    pose proof Hb as Hb'. apply bounded_iff in Hb'.
    set (sz := if s then 1 else 0).
    assert (Hsz : sz = 0 \/ sz = 1) by (subst sz; destruct s; lia).
    assert (Esz : (sz =? 1) = s) by (subst sz; destruct s; reflexivity).
    assert (Ef : f_sign s = sz * 2 ^ 31) by (subst sz; destruct s; reflexivity).
    destruct Hb' as [[L ->]|[L He]].
    + destruct (Z.ltb_spec (Zpos m) P23); [|lia].
      destruct (pattern_join sz 0 (Zpos m) Hsz ltac:(lia) ltac:(lia)) as (Hp' & Hs' & He' & Hm').
      replace (f_sign s + Zpos m) with (sz * 2 ^ 31 + 0 * P23 + Zpos m) by (rewrite Ef; ring).
      split; [split; [exact Hp'|rewrite He'; discriminate]|]. split; [rewrite Hs'; exact Esz|].
      unfold value, magnitude. rewrite Hs', He', Hm', Esz. simpl (0 =? 0). cbv iota.
      rewrite F2R_unit by lia. rewrite Esg. change (2 ^ (-149 + 149)) with 1. rewrite Z.mul_1_r. reflexivity.
    + destruct (Z.ltb_spec (Zpos m) P23); [lia|].
      destruct (pattern_join sz (e + 150) (Zpos m - P23) Hsz ltac:(lia) ltac:(unfold P23, P24 in *; lia)) as (Hp' & Hs' & He' & Hm').
      rewrite Ef.
      split; [split; [exact Hp'|rewrite He'; lia]|]. split; [rewrite Hs'; exact Esz|].
      unfold value, magnitude. rewrite Hs', He', Hm', Esz.
      destruct (Z.eqb_spec (e + 150) 0); [lia|]. change (2 ^ 23) with P23.
      rewrite F2R_unit by lia. rewrite Esg. replace (P23 + (Zpos m - P23)) with (Zpos m) by lia.
      replace (e + 150 - 1) with (e + 149) by lia. f_equal. f_equal. destruct s; ring.
Qed.

Lemma enc_even (z : bf) f : is_finite z = true ->
  canonical radix2 fx f -> B2R z = F2R f -> Z.even (Fnum f) = true -> Z.even (f_enc (B2SF z)) = true.
Proof.
  destruct z as [s|s| |s m e Hb]; intros Hf Hc Hv Hev; try discriminate.
  - destruct s; reflexivity.
  - simpl B2R in Hv.
    pose proof (canonical_unique _ _ _ _ (canonical_bounded 24 128 s m e Hb) Hc Hv) as E. subst f.
    simpl in Hev. assert (Hev' : Z.even (Zpos m) = true) by (destruct s; exact Hev).
    simpl B2SF. unfold f_enc. assert (Es : Z.even (f_sign s) = true) by (destruct s; reflexivity).
    destruct (Zpos m <? P23); unfold P23;
    rewrite ?Z.even_add, ?Z.even_sub, ?Z.even_mul, Es, Hev'; cbn [Z.even Bool.eqb orb]; rewrite ?orb_true_r; reflexivity.
Qed.

Lemma ulp0_pos : (0 < ulp0)%R.
Proof. apply bpow_gt_0. Qed.

Lemma fmt_value c : finite c -> fmt (IZR (value c) * ulp0)%R.
Proof.
  intros H. rewrite <- (num_value c (proj1 H) H). apply generic_format_B2R.
Qed.

Definition maxf : R := (IZR ((2 ^ 24 - 1) * 2 ^ 253) * ulp0)%R.
Definition mid : R := (IZR ((2 ^ 25 - 1) * 2 ^ 252) * ulp0)%R.

Lemma fmt_maxf : fmt maxf.
Proof.
  assert (H : finite (254 * 2 ^ 23 + (2 ^ 23 - 1))).
  { split; [split; [discriminate|reflexivity]|discriminate]. }
  exact (fmt_value _ H).
Qed.

Lemma big_unit : bpow radix2 128 = (IZR (2 ^ 277) * ulp0)%R.
Proof.
  unfold ulp0. change (2 ^ 277) with (Zpower (radix_val radix2) 277). rewrite IZR_Zpower by lia.
  rewrite <- bpow_plus. reflexivity.
Qed.

Lemma fmt_big : fmt (bpow radix2 128).
Proof. apply generic_format_bpow. vm_compute. discriminate. Qed.

Lemma rnd_mid : rnd mid = bpow radix2 128.
Proof.
  assert (Em : mid = (IZR (2 ^ 25 - 1) * bpow radix2 103)%R).
  { unfold mid, ulp0. rewrite mult_IZR. change (2 ^ 252) with (Zpower (radix_val radix2) 252).
    rewrite IZR_Zpower by lia. rewrite Rmult_assoc, <- bpow_plus. reflexivity. }
  assert (Emag : mag radix2 mid = 128 :> Z).
  { apply mag_unique_pos. rewrite Em.
    replace (128 - 1) with (24 + 103) by reflexivity. replace 128 with (25 + 103) by reflexivity.
    rewrite !bpow_plus. pose proof (bpow_gt_0 radix2 103).
    split; [apply Rmult_le_compat_r; [lra|]|apply Rmult_lt_compat_r; [lra|]].
    - change (bpow radix2 24) with (IZR 16777216). apply IZR_le. lia.
    - change (bpow radix2 25) with (IZR 33554432). apply IZR_lt. lia. }
  unfold round, scaled_mantissa, cexp. rewrite Emag. change (fx 128) with 104.
  assert (Es : (mid * bpow radix2 (- (104)) = IZR (2 ^ 25 - 1) / 2)%R).
  { rewrite Em, Rmult_assoc, <- bpow_plus. change (bpow radix2 (103 + - (104))) with (/ 2)%R. reflexivity. }
  rewrite Es.
  assert (Ef : Zfloor (IZR (2 ^ 25 - 1) / 2) = 16777215).
  { apply Zfloor_imp. change (2 ^ 25 - 1) with 33554431. change (16777215 + 1) with 16777216. lra. }
  assert (Ec : Zceil (IZR (2 ^ 25 - 1) / 2) = 16777216).
  { apply Zceil_imp. change (2 ^ 25 - 1) with 33554431. change (16777216 - 1) with 16777215. lra. }
  unfold Znearest. rewrite Ef, Ec. change (2 ^ 25 - 1) with 33554431.
  rewrite Rcompare_Eq by lra. simpl negb. cbv iota.
  unfold F2R. simpl Fnum. simpl Fexp. change 16777216 with (Zpower (radix_val radix2) 24).
  rewrite IZR_Zpower by lia. rewrite <- bpow_plus. reflexivity.
Qed.

Lemma overflow_iff x : (Rabs (rnd x) < bpow radix2 128 <-> Rabs x < mid)%R.
Proof.
  rewrite <- (round_NE_abs radix2 fx x). set (y := Rabs x).
  assert (Eb : (bpow radix2 128 - mid = mid - maxf)%R).
  { rewrite big_unit. unfold mid, maxf. rewrite <- !Rmult_minus_distr_r, <- !minus_IZR. f_equal. }
  assert (Lm : (maxf < mid)%R).
  { unfold maxf, mid. apply Rmult_lt_compat_r; [apply ulp0_pos|]. apply IZR_lt. reflexivity. }
  split; intros H.
  - destruct (Rlt_le_dec y mid) as [L|L]; [exact L|]. exfalso.
    assert (rnd mid <= rnd y)%R by (apply round_le; auto with typeclass_instances).
    rewrite rnd_mid in H0. lra.
  - destruct (Rle_lt_dec (bpow radix2 128) (rnd y)) as [L|L]; [|exact L]. exfalso.
    destruct (Rle_lt_dec y maxf) as [L2|L2].
    + assert (rnd y <= rnd maxf)%R by (apply round_le; auto with typeclass_instances).
      rewrite (round_generic _ _ _ maxf fmt_maxf) in H0. lra.
    + destruct (round_N_pt radix2 fx (fun t => negb (Z.even t)) y) as [_ Hn].
      specialize (Hn maxf fmt_maxf).
      rewrite (Rabs_left (maxf - y)) in Hn by lra. rewrite (Rabs_pos_eq (rnd y - y)) in Hn by lra. lra.
Qed.

Lemma scaled_abs n d a : 0 < d ->
  Rabs (IZR a * ulp0 - IZR n / IZR d * ulp0) = (IZR (Z.abs (a * d - n)) * (ulp0 / IZR d))%R.
Proof.
  intros Hd. assert (Hd' : (0 < IZR d)%R) by (apply IZR_lt; exact Hd). pose proof ulp0_pos as Hu.
  rewrite abs_IZR, minus_IZR, mult_IZR.
  replace (IZR a * ulp0 - IZR n / IZR d * ulp0)%R with ((IZR a * IZR d - IZR n) * (ulp0 / IZR d))%R by (field; lra).
  rewrite Rabs_mult. f_equal. apply Rabs_pos_eq. apply Rlt_le. apply Rdiv_lt_0_compat; assumption.
Qed.

Lemma scaled_le n d a c : 0 < d ->
  (Rabs (IZR a * ulp0 - IZR n / IZR d * ulp0) <= Rabs (IZR c * ulp0 - IZR n / IZR d * ulp0))%R <->
  Z.abs (a * d - n) <= Z.abs (c * d - n).
Proof.
  intros Hd. rewrite !scaled_abs by exact Hd.
  assert (Hk : (0 < ulp0 / IZR d)%R) by (apply Rdiv_lt_0_compat; [apply ulp0_pos|apply IZR_lt; exact Hd]).
  split; intros H.
  - apply le_IZR. apply (Rmult_le_reg_r _ _ _ Hk). exact H.
  - apply Rmult_le_compat_r; [lra|]. apply IZR_le. exact H.
Qed.

Lemma mid_iff n d : 0 < d ->
  (Rabs (IZR n / IZR d * ulp0) < mid)%R <-> Z.abs n < (2 ^ 25 - 1) * 2 ^ 252 * d.
Proof.
  intros Hd. assert (Hd' : (0 < IZR d)%R) by (apply IZR_lt; exact Hd). pose proof ulp0_pos as Hu.
  set (T := (2 ^ 25 - 1) * 2 ^ 252). unfold mid. fold T.
  assert (E : Rabs (IZR n / IZR d * ulp0) = (IZR (Z.abs n) * (ulp0 / IZR d))%R).
  { replace (IZR n / IZR d * ulp0)%R with (IZR n * (ulp0 / IZR d))%R by (field; lra).
    rewrite Rabs_mult, abs_IZR. f_equal. apply Rabs_pos_eq. apply Rlt_le. apply Rdiv_lt_0_compat; assumption. }
  rewrite E. replace (IZR T * ulp0)%R with (IZR (T * d) * (ulp0 / IZR d))%R by (rewrite mult_IZR; field; lra).
  assert (Hk : (0 < ulp0 / IZR d)%R) by (apply Rdiv_lt_0_compat; [apply ulp0_pos|exact Hd']).
  split; intros H.
  - apply lt_IZR. apply (Rmult_lt_reg_r _ _ _ Hk). exact H.
  - apply Rmult_lt_compat_r; [exact Hk|]. apply IZR_lt. exact H.
Qed.

(** What Flocq says of an operation is [rounded]. *)
Lemma rounded_of (z : bf) s n d : 0 < d ->
  (let x := (IZR n / IZR d * ulp0)%R in
   if Rlt_bool (Rabs (rnd x)) (bpow radix2 128)
   then B2R z = rnd x /\ is_finite z = true /\ Bsign z = s
   else B2SF z = S754_infinity s) ->
  rounded s n d (f_enc (B2SF z)).
Proof.
  intros Hd. cbv zeta. set (x := (IZR n / IZR d * ulp0)%R).
  destruct (Rlt_bool_spec (Rabs (rnd x)) (bpow radix2 128)) as [L|L].
  - intros (Hv & Hf & Hs). destruct (enc_finite z Hf) as (Hfin & Hsb & Hval).
    split; [congruence|].
    apply overflow_iff in L. apply (mid_iff n d Hd) in L.
    destruct (Z.leb_spec ((2 ^ 25 - 1) * 2 ^ 252 * d) (Z.abs n)); [exfalso; apply (Z.lt_irrefl (Z.abs n)); eapply Z.lt_le_trans; eassumption|].
    split; [exact Hfin|]. intros c Hc.
    pose proof (round_NE_pt radix2 fx x) as [[Hfm Hn] Ht].
    assert (Ex : rnd x = (IZR (value (f_enc (B2SF z))) * ulp0)%R) by congruence.
    split.
    + apply scaled_le; [exact Hd|]. rewrite <- Ex. apply Hn. apply fmt_value, Hc.
    + intros Hne Heq. destruct Ht as [Hev|Huq].
      * destruct Hev as (g & Hg & Hcan & Hev). apply (enc_even z g Hf Hcan); [congruence|exact Hev].
      * exfalso. apply Hne. apply eq_IZR. apply (Rmult_eq_reg_r ulp0); [|apply Rgt_not_eq, ulp0_pos].
        rewrite <- Ex. apply Huq. split; [apply fmt_value, Hc|]. intros g Hg.
        apply Rle_trans with (Rabs (rnd x - x)).
        -- rewrite Ex. apply scaled_le; [exact Hd|]. rewrite Heq. apply Z.le_refl.
        -- apply Hn, Hg.
  - intros E. rewrite E.
    assert (L' : (2 ^ 25 - 1) * 2 ^ 252 * d <= Z.abs n).
    { apply Z.nlt_ge. intros N. apply (mid_iff n d Hd) in N. apply overflow_iff in N. fold x in N. lra. }
    split; [destruct s; reflexivity|].
    destruct (Z.leb_spec ((2 ^ 25 - 1) * 2 ^ 252 * d) (Z.abs n)); [reflexivity|].
    exfalso; apply (Z.lt_irrefl (Z.abs n)); eapply Z.lt_le_trans; eassumption.
Qed.

Lemma magnitude_nonneg b : 0 <= magnitude b.
Proof.
  unfold magnitude, frac, expo.
  assert (0 <= b mod 2 ^ 23) by (apply Z.mod_pos_bound; reflexivity).
  destruct (_ =? 0); [assumption|]. apply Z.mul_nonneg_nonneg; [|apply Z.pow_nonneg; lia].
  change (2 ^ 23) with 8388608 in *. lia.
Qed.
Lemma value_pos b : sign_bit b = false -> 0 <= value b.
Proof. intros H. unfold value. rewrite H. apply magnitude_nonneg. Qed.
Lemma value_neg b : sign_bit b = true -> value b <= 0.
Proof. intros H. unfold value. rewrite H. pose proof (magnitude_nonneg b). lia. Qed.

Lemma compare_unit n d : 0 < d -> Rcompare (IZR n / IZR d * ulp0) 0 = (n ?= 0).
Proof.
  intros Hd. assert (Hd' : (0 < IZR d)%R) by (apply IZR_lt; exact Hd). pose proof ulp0_pos as Hu.
  assert (Hk : (0 < ulp0 / IZR d)%R) by (apply Rdiv_lt_0_compat; assumption).
  replace (IZR n / IZR d * ulp0)%R with (IZR n * (ulp0 / IZR d))%R by (field; lra).
  replace 0%R with (0 * (ulp0 / IZR d))%R by ring.
  rewrite Rcompare_mult_r by exact Hk. apply Rcompare_IZR.
Qed.

Lemma add_rounded a b : finite a -> finite b ->
  rounded (sum_sign (value a) (value b) (sign_bit a) (sign_bit b)) (value a + value b) 1 (f_add a b).
Proof.
  intros Ha Hb. unfold f_add. rewrite <- (num_dec a (proj1 Ha)), <- (num_dec b (proj1 Hb)), add_equiv.
  apply rounded_of; [lia|]. cbv zeta.
  pose proof (Bplus_correct 24 128 _ _ mode_NE (num a (proj1 Ha)) (num b (proj1 Hb)) (num_finite _ _ Ha) (num_finite _ _ Hb)) as H.
  change (round_mode mode_NE) with ZnearestE in H.
  rewrite (num_value _ _ Ha), (num_value _ _ Hb) in H.
  rewrite (num_sign _ _ (finite_nan _ Ha)), (num_sign _ _ (finite_nan _ Hb)) in H.
  replace (IZR (value a) * ulp0 + IZR (value b) * ulp0)%R with (IZR (value a + value b) / IZR 1 * ulp0)%R in H
    by (rewrite plus_IZR; field).
  rewrite compare_unit in H by lia.
  destruct (Rlt_bool_spec (Rabs (rnd (IZR (value a + value b) / IZR 1 * ulp0))) (bpow radix2 128)) as [L|L].
  - destruct H as (-> & -> & ->). split; [reflexivity|]. split; [reflexivity|]. unfold sum_sign.
    destruct (Z.compare_spec (value a + value b) 0) as [E|E|E].
    + rewrite E. reflexivity.
    + destruct (Z.eqb_spec (value a + value b) 0); [lia|]. symmetry. apply Z.ltb_lt. exact E.
    + destruct (Z.eqb_spec (value a + value b) 0); [lia|]. symmetry. apply Z.ltb_ge. lia.
  - destruct H as (-> & Hs). unfold binary_overflow. simpl. f_equal.
    assert (Hn : ~ (Rabs (IZR (value a + value b) / IZR 1 * ulp0) < mid)%R).
    { intros N. apply overflow_iff in N. lra. }
    assert (value a + value b <> 0).
    { intros E. apply Hn. apply mid_iff; [lia|]. rewrite E. reflexivity. }
    unfold sum_sign. destruct (Z.eqb_spec (value a + value b) 0); [contradiction|].
    destruct (sign_bit a) eqn:Ea; symmetry in Hs |- *.
    + pose proof (value_neg a Ea). pose proof (value_neg b Hs). apply Z.ltb_lt. lia.
    + pose proof (value_pos a Ea). pose proof (value_pos b Hs). apply Z.ltb_ge. lia.
Qed.

Lemma sub_rounded a b : finite a -> finite b ->
  rounded (sum_sign (value a) (- value b) (sign_bit a) (negb (sign_bit b))) (value a - value b) 1 (f_sub a b).
Proof.
  intros Ha Hb. unfold f_sub. rewrite <- (num_dec a (proj1 Ha)), <- (num_dec b (proj1 Hb)), sub_equiv.
  apply rounded_of; [lia|]. cbv zeta.
  pose proof (Bminus_correct 24 128 _ _ mode_NE (num a (proj1 Ha)) (num b (proj1 Hb)) (num_finite _ _ Ha) (num_finite _ _ Hb)) as H.
  change (round_mode mode_NE) with ZnearestE in H.
  rewrite (num_value _ _ Ha), (num_value _ _ Hb) in H.
  rewrite (num_sign _ _ (finite_nan _ Ha)), (num_sign _ _ (finite_nan _ Hb)) in H.
  replace (IZR (value a) * ulp0 - IZR (value b) * ulp0)%R with (IZR (value a - value b) / IZR 1 * ulp0)%R in H
    by (rewrite minus_IZR; field).
  rewrite compare_unit in H by lia.
  unfold sum_sign. change (value a + - value b) with (value a - value b).
  destruct (Rlt_bool_spec (Rabs (rnd (IZR (value a - value b) / IZR 1 * ulp0))) (bpow radix2 128)) as [L|L].
  - destruct H as (-> & -> & ->). split; [reflexivity|]. split; [reflexivity|].
    destruct (Z.compare_spec (value a - value b) 0) as [E|E|E].
    + rewrite E. reflexivity.
    + destruct (Z.eqb_spec (value a - value b) 0); [lia|]. symmetry. apply Z.ltb_lt. exact E.
    + destruct (Z.eqb_spec (value a - value b) 0); [lia|]. symmetry. apply Z.ltb_ge. lia.
  - destruct H as (-> & Hs). unfold binary_overflow. simpl. f_equal.
    assert (Hn : ~ (Rabs (IZR (value a - value b) / IZR 1 * ulp0) < mid)%R).
    { intros N. apply overflow_iff in N. lra. }
    assert (value a - value b <> 0).
    { intros E. apply Hn. apply mid_iff; [lia|]. rewrite E. reflexivity. }
    destruct (Z.eqb_spec (value a - value b) 0); [contradiction|].
    destruct (sign_bit a) eqn:Ea; destruct (sign_bit b) eqn:Eb; try discriminate Hs; symmetry.
    + pose proof (value_neg a Ea). pose proof (value_pos b Eb). apply Z.ltb_lt. lia.
    + pose proof (value_pos a Ea). pose proof (value_neg b Eb). apply Z.ltb_ge. lia.
Qed.

Lemma unit_one : (IZR (2 ^ 149) * ulp0 = 1)%R.
Proof.
  unfold ulp0. change (2 ^ 149) with (Zpower (radix_val radix2) 149). rewrite IZR_Zpower by lia.
  rewrite <- bpow_plus. reflexivity.
Qed.

Lemma finite_not_nan (z : bf) : is_finite z = true -> is_nan z = false.
Proof. destruct z; try discriminate; reflexivity. Qed.

Lemma mul_rounded a b : finite a -> finite b ->
  rounded (xorb (sign_bit a) (sign_bit b)) (value a * value b) (2 ^ 149) (f_mul a b).
Proof.
  intros Ha Hb. unfold f_mul. rewrite <- (num_dec a (proj1 Ha)), <- (num_dec b (proj1 Hb)), mul_equiv.
  apply rounded_of; [reflexivity|]. cbv zeta.
  pose proof (Bmult_correct 24 128 _ _ mode_NE (num a (proj1 Ha)) (num b (proj1 Hb))) as H.
  change (round_mode mode_NE) with ZnearestE in H.
  rewrite (num_value _ _ Ha), (num_value _ _ Hb) in H.
  rewrite (num_sign _ _ (finite_nan _ Ha)), (num_sign _ _ (finite_nan _ Hb)) in H.
  rewrite (num_finite _ _ Ha), (num_finite _ _ Hb) in H.
  assert (E1 : (IZR (2 ^ 149) <> 0)%R) by (apply IZR_neq; discriminate).
  assert (Eu : ulp0 = (/ IZR (2 ^ 149))%R).
  { apply (Rmult_eq_reg_l (IZR (2 ^ 149))); [|exact E1]. rewrite unit_one, Rinv_r by exact E1. reflexivity. }
  replace (IZR (value a) * ulp0 * (IZR (value b) * ulp0))%R with (IZR (value a * value b) / IZR (2 ^ 149) * ulp0)%R in H
    by (rewrite mult_IZR, Eu; field; exact E1).
  set (q := Rlt_bool _ _) in *. destruct q.
  - destruct H as (-> & Hf & Hs). split; [reflexivity|]. split; [exact Hf|]. apply Hs, finite_not_nan, Hf.
  - rewrite H. reflexivity.
Qed.

Lemma div_rounded a b : finite a -> finite b -> value b <> 0 ->
  rounded (xorb (sign_bit a) (sign_bit b)) (value a * 2 ^ 149 * Z.sgn (value b)) (Z.abs (value b)) (f_div a b).
Proof.
  intros Ha Hb Hz. unfold f_div. rewrite <- (num_dec a (proj1 Ha)), <- (num_dec b (proj1 Hb)), div_equiv.
  apply rounded_of; [lia|]. cbv zeta. pose proof ulp0_pos as Hu.
  assert (Hzr : (IZR (value b) <> 0)%R) by (apply IZR_neq; exact Hz).
  assert (Hnz : B2R (num b (proj1 Hb)) <> 0%R).
  { rewrite (num_value _ _ Hb). apply Rmult_integral_contrapositive. split; [exact Hzr|lra]. }
  pose proof (Bdiv_correct 24 128 _ _ mode_NE (num a (proj1 Ha)) (num b (proj1 Hb)) Hnz) as H.
  change (round_mode mode_NE) with ZnearestE in H.
  rewrite (num_value _ _ Ha), (num_value _ _ Hb) in H.
  rewrite (num_sign _ _ (finite_nan _ Ha)), (num_sign _ _ (finite_nan _ Hb)) in H.
  rewrite (num_finite _ _ Ha) in H.
  replace (IZR (value a) * ulp0 / (IZR (value b) * ulp0))%R
    with (IZR (value a * 2 ^ 149 * Z.sgn (value b)) / IZR (Z.abs (value b)) * ulp0)%R in H.
  2:{ rewrite !mult_IZR. transitivity (IZR (value a) * IZR (Z.sgn (value b)) / IZR (Z.abs (value b)) * (IZR (2 ^ 149) * ulp0))%R.
      - field. apply IZR_neq. lia.
      - rewrite unit_one. destruct (Z_lt_le_dec (value b) 0).
        + rewrite (Z.sgn_neg (value b)), (Z.abs_neq (value b)), opp_IZR by lia. field. split; lra.
        + rewrite (Z.sgn_pos (value b)), (Z.abs_eq (value b)) by lia. field. split; lra. }
  set (q := Rlt_bool _ _) in *. destruct q.
  - destruct H as (-> & Hf & Hs). split; [reflexivity|]. split; [exact Hf|]. apply Hs, finite_not_nan, Hf.
  - rewrite H. reflexivity.
Qed.

Lemma of_int_rounded z : rounded (z <? 0) (z * 2 ^ 149) 1 (f_of_int z).
Proof.
  unfold f_of_int. rewrite bn_equiv. apply rounded_of; [lia|]. cbv zeta.
  pose proof (binary_normalize_correct 24 128 _ _ mode_NE z 0 false) as H. cbv zeta in H.
  change (round_mode mode_NE) with ZnearestE in H.
  rewrite (F2R_unit z 0) in H by lia. change (0 + 149) with 149 in H.
  replace (IZR (z * 2 ^ 149) * ulp0)%R with (IZR (z * 2 ^ 149) / IZR 1 * ulp0)%R in H by field.
  rewrite compare_unit in H by lia.
  assert (Hc : (z * 2 ^ 149 ?= 0) = (z ?= 0)).
  { destruct (Z.compare_spec z 0) as [E|L|L]; [rewrite E; reflexivity| |].
    - apply Z.compare_lt_iff. apply Z.mul_neg_pos; [exact L|reflexivity].
    - apply Z.compare_gt_iff. apply Z.mul_pos_pos; [exact L|reflexivity]. }
  rewrite Hc in H.
  destruct (Rlt_bool_spec (Rabs (rnd (IZR (z * 2 ^ 149) / IZR 1 * ulp0))) (bpow radix2 128)) as [L|L].
  - destruct H as (-> & -> & ->). split; [reflexivity|]. split; [reflexivity|].
    destruct (Z.compare_spec z 0) as [E|E|E]; symmetry; [rewrite E; reflexivity|apply Z.ltb_lt; exact E|apply Z.ltb_ge; lia].
  - rewrite H. transitivity (S754_infinity (Rlt_bool (IZR (z * 2 ^ 149) / IZR 1 * ulp0) 0)); [reflexivity|].
    f_equal. assert (E1 : (IZR (z * 2 ^ 149) / IZR 1 * ulp0 = IZR (z * 2 ^ 149) * ulp0)%R) by field. rewrite E1.
    destruct (Z.ltb_spec z 0) as [E|E].
    + apply Rlt_bool_true. rewrite <- (Rmult_0_l ulp0).
      apply Rmult_lt_compat_r; [apply ulp0_pos|]. apply IZR_lt. apply Z.mul_neg_pos; [exact E|reflexivity].
    + apply Rlt_bool_false. rewrite <- (Rmult_0_l ulp0).
      apply Rmult_le_compat_r; [apply Rlt_le, ulp0_pos|]. apply IZR_le. apply Z.mul_nonneg_nonneg; [exact E|discriminate].
Qed.

Lemma compare_value a b : finite a -> finite b ->
  SFcompare (f_dec a) (f_dec b) = Some (value a ?= value b).
Proof.
  intros Ha Hb. rewrite <- (num_dec a (proj1 Ha)), <- (num_dec b (proj1 Hb)).
  transitivity (Bcompare (num a (proj1 Ha)) (num b (proj1 Hb))); [reflexivity|].
  rewrite Bcompare_correct by (apply num_finite; assumption).
  rewrite (num_value _ _ Ha), (num_value _ _ Hb), Rcompare_mult_r by apply ulp0_pos.
  rewrite Rcompare_IZR. reflexivity.
Qed.

(** The four kinds of patterns. *)
Lemma dec_infinite s : f_dec (infinite s) = S754_infinity s.
Proof. destruct s; reflexivity. Qed.
Lemma dec_nan b : not_a_number b -> f_dec b = S754_nan.
Proof.
  intros (Hp' & He' & Hf'). destruct (pattern_split b Hp') as (s & e & m & _ & _ & _ & _ & _ & Ee & Em & ->).
  destruct (Z.eqb_spec e 255); [|lia]. destruct (Z.eqb_spec m 0); [lia|reflexivity].
Qed.
Lemma dec_finite b : finite b ->
  (value b = 0 /\ f_dec b = S754_zero (sign_bit b)) \/
  (value b <> 0 /\ exists m e, -149 <= e <= 104 /\ f_dec b = S754_finite (sign_bit b) m e /\ magnitude b = Zpos m * 2 ^ (e + 149)).
Proof.
  intros [Hp' He']. unfold value, magnitude.
  destruct (pattern_split b Hp') as (s & e & m & Hs & He & Hm' & _ & -> & Ee & -> & ->). rewrite Ee in He' |- *.
  destruct (Z.eqb_spec e 255); [lia|]. destruct (Z.eqb_spec e 0).
  - destruct m as [|p|p]; [left|right|lia].
    + split; [destruct (s =? 1); reflexivity|reflexivity].
    + split; [destruct (s =? 1); discriminate|]. exists p, (-149). split; [lia|]. split; [reflexivity|]. change (2 ^ (-149 + 149)) with 1. lia.
  - right. change (2 ^ 23) with P23. destruct (m + P23) as [|p|p] eqn:E; [unfold P23 in *; lia| |unfold P23 in *; lia].
    assert (0 < 2 ^ (e - 1)) by (apply Z.pow_pos_nonneg; lia).
    split. { destruct (s =? 1); unfold P23 in *; nia. }
    exists p, (e - 150). split; [lia|]. split; [reflexivity|]. replace (e - 150 + 149) with (e - 1) by lia. replace (P23 + m) with (Zpos p) by lia. reflexivity.
Qed.

Lemma neg_flips b : pattern b -> ~ not_a_number b ->
  pattern (f_neg b) /\ sign_bit (f_neg b) = negb (sign_bit b) /\ expo (f_neg b) = expo b /\ frac (f_neg b) = frac b.
Proof.
  intros Hp' Hn. unfold f_neg, f_enc.
  destruct (pattern_split b Hp') as (s & e & m & Hs & He & Hm' & _ & Es & Ee & Em & ->). rewrite Es, Ee, Em.
  assert (Hn' : ~ (e = 255 /\ m <> 0)) by (intros [? ?]; apply Hn; split; [exact Hp'|lia]). clear Ee Em.
  assert (K : forall e0 m0, 0 <= e0 < 256 -> 0 <= m0 < P23 ->
    pattern (f_sign (negb (s =? 1)) + e0 * P23 + m0) /\ sign_bit (f_sign (negb (s =? 1)) + e0 * P23 + m0) = negb (s =? 1) /\
    expo (f_sign (negb (s =? 1)) + e0 * P23 + m0) = e0 /\ frac (f_sign (negb (s =? 1)) + e0 * P23 + m0) = m0).
  { intros e0 m0 H1 H2. destruct Hs as [-> | ->]; cbn [Z.eqb negb f_sign Pos.eqb].
    - exact (pattern_join 1 e0 m0 (or_intror eq_refl) H1 H2).
    - exact (pattern_join 0 e0 m0 (or_introl eq_refl) H1 H2). }
  destruct (Z.eqb_spec e 255) as [E|E].
  - destruct (Z.eqb_spec m 0) as [E0|E0]; [|lia].
    cbn [SFopp]. subst e m. specialize (K 255 0 ltac:(lia) ltac:(unfold P23; lia)). rewrite Z.add_0_r in K. exact K.
  - destruct (Z.eqb_spec e 0) as [E0|E0].
    + subst e. destruct m as [|p|p]; [| |lia]; cbn [SFopp].
      * specialize (K 0 0 ltac:(lia) ltac:(unfold P23; lia)). rewrite Z.mul_0_l, !Z.add_0_r in K. exact K.
      * destruct (Z.ltb_spec (Zpos p) P23); [|lia]. specialize (K 0 (Zpos p) ltac:(lia) Hm'). rewrite Z.mul_0_l, Z.add_0_r in K. exact K.
    + destruct (m + P23) as [|p|p] eqn:E2; [unfold P23 in *; lia| |unfold P23 in *; lia]. cbn [SFopp].
      destruct (Z.ltb_spec (Zpos p) P23); [lia|]. replace (e - 150 + 150) with e by lia. replace (Zpos p - P23) with m by lia.
      exact (K e m He Hm').
Qed.

Lemma trunc_quot b : finite b ->
  f_trunc b = if in_s32 (Z.quot (value b) (2 ^ 149)) then Some (Z.quot (value b) (2 ^ 149)) else None.
Proof.
  intros Hf. unfold f_trunc.
  destruct (dec_finite b Hf) as [[Hv ->]|(Hv & m & e & He & -> & Hmg)].
  - rewrite Hv. reflexivity.
  - assert (Hq : Z.quot (value b) (2 ^ 149) =
      if sign_bit b then - (if 0 <=? e then Zpos m * 2 ^ e else Zpos m / 2 ^ (- e)) else (if 0 <=? e then Zpos m * 2 ^ e else Zpos m / 2 ^ (- e))).
    { assert (Ha : Z.quot (magnitude b) (2 ^ 149) = if 0 <=? e then Zpos m * 2 ^ e else Zpos m / 2 ^ (- e)).
      { rewrite Hmg. assert (0 <= 2 ^ (e + 149)) by (apply Z.pow_nonneg; lia).
        rewrite Z.quot_div_nonneg; [|lia|reflexivity].
        destruct (Z.leb_spec 0 e).
        - rewrite Z.pow_add_r, Z.mul_assoc by lia. apply Z.div_mul. discriminate.
        - replace (2 ^ 149) with (2 ^ (- e) * 2 ^ (e + 149)) by (rewrite <- Z.pow_add_r by lia; f_equal; lia).
          rewrite Z.div_mul_cancel_r; [reflexivity| |]; apply Z.pow_nonzero; lia. }
      unfold value. destruct (sign_bit b); [|exact Ha]. rewrite Z.quot_opp_l by discriminate. rewrite Ha. reflexivity. }
    rewrite Hq. cbv zeta. destruct (sign_bit b); reflexivity.
Qed.

(** An integer with at most 24 significant bits is represented exactly. *)
Lemma of_int_exact m k : Z.abs m < 2 ^ 24 -> 0 <= k <= 100 ->
  finite (f_of_int (m * 2 ^ k)) /\ value (f_of_int (m * 2 ^ k)) = m * 2 ^ k * 2 ^ 149.
Proof.
  intros Hm' Hk. set (z := m * 2 ^ k). unfold f_of_int. rewrite bn_equiv.
  pose proof (binary_normalize_correct 24 128 _ _ mode_NE z 0 false) as H. cbv zeta in H.
  change (round_mode mode_NE) with ZnearestE in H.
  assert (Ez : F2R (Float radix2 z 0) = F2R (Float radix2 m k)).
  { unfold F2R. simpl Fnum. simpl Fexp. unfold z. rewrite mult_IZR. change 2 with (radix_val radix2) at 1.
    rewrite IZR_Zpower by lia. simpl (bpow radix2 0). ring. }
  rewrite Ez in H.
  assert (Hg : fmt (F2R (Float radix2 m k))).
  { change fx with (FLT_exp (-149) 24). apply generic_format_FLT. exists (Float radix2 m k); [reflexivity|exact Hm'|simpl; lia]. }
  rewrite (round_generic radix2 fx ZnearestE _ Hg) in H.
  assert (Hl : (Rabs (F2R (Float radix2 m k)) < bpow radix2 128)%R).
  { rewrite <- F2R_Zabs. apply Rlt_le_trans with (bpow radix2 (24 + k)).
    - unfold F2R. simpl Fnum. simpl Fexp. rewrite bpow_plus. apply Rmult_lt_compat_r; [apply bpow_gt_0|].
      change (bpow radix2 24) with (IZR 16777216). apply IZR_lt. exact Hm'.
    - apply bpow_le. lia. }
  rewrite Rlt_bool_true in H by exact Hl. destruct H as (Hv & Hf & _).
  destruct (enc_finite _ Hf) as (H1 & _ & H3). split; [exact H1|].
  rewrite Hv, <- Ez, (F2R_unit z 0) in H3 by lia. change (0 + 149) with 149 in H3.
  apply Rmult_eq_reg_r in H3; [|apply Rgt_not_eq, ulp0_pos]. symmetry. apply eq_IZR. exact H3.
Qed.

(** Text. *)
Lemma u_to_str_head z : 0 < z -> hd 48 (u_to_str z) <> 48.
Proof.
  intros Hz. unfold u_to_str. pose proof (log2_fuel z ltac:(lia)) as Hf.
  revert Hf Hz. generalize (Z.to_nat (Z.log2 z + 1)). intros f. revert z.
  induction f as [|f IH]; intros z Hf Hz; [cbn in Hf; lia|]. cbn [digits].
  destruct (Z.ltb_spec z 10); [cbn [hd]; lia|].
  rewrite digits_app. rewrite Nat2Z.inj_succ, Z.pow_succ_r in Hf by lia.
  assert (H10 : 0 < z / 10) by (apply Z.div_str_pos; lia).
  assert (Hz2 : z / 10 < 2 ^ Z.of_nat f) by (apply Z.div_lt_upper_bound; lia).
  specialize (IH (z / 10) Hz2 H10). destruct (digits f (z / 10) []) as [|c r]; [cbn in IH; congruence|exact IH].
Qed.

Lemma decimal_acc ds : forall a, fold_left (fun v c => 10 * v + (c - 48)) ds a = dval ds a.
Proof. induction ds as [|c ds IH]; intros a; [reflexivity|]. cbn [fold_left]. rewrite IH. unfold dval. cbn [fold_left]. f_equal. lia. Qed.

Lemma is_digit_spec l : Forall (fun c => is_digit c = true) l -> Forall (fun c => 48 <= c <= 57) l.
Proof. apply Forall_impl. intros c H. unfold is_digit in H. lia. Qed.

Lemma dval_shift ds : forall a, dval ds a = a * 10 ^ zlen ds + dval ds 0.
Proof.
  induction ds as [|c ds IH]; intros a.
  - unfold dval. cbn. lia.
  - unfold dval in *. cbn [fold_left]. rewrite IH, (IH (0 * 10 + (c - 48))).
    replace (zlen (c :: ds)) with (zlen ds + 1) by (unfold zlen; cbn [length]; lia).
    rewrite Z.pow_add_r by (unfold zlen; lia). ring.
Qed.

Lemma pad6_spec z : 0 <= z < 1000000 -> Forall (fun c => is_digit c = true) (pad6 z) /\ dval (pad6 z) 0 = z.
Proof.
  intros Hz. unfold pad6. destruct (u_to_str_spec z ltac:(lia)) as (D & V & _). split.
  - apply Forall_app. split; [|exact D]. apply Forall_forall. intros c Hc. apply repeat_spec in Hc. subst c. reflexivity.
  - rewrite dval_app. replace (dval (repeat 48 _) 0) with 0; [exact V|].
    generalize (6 - length (u_to_str z))%nat. intros n. induction n; [reflexivity|exact IHn].
Qed.

(** [round_e6] is within half a millionth. *)
Lemma round_e6_near m e : -149 <= e -> 0 < m ->
  0 <= round_e6 m e /\ 2 * Z.abs (round_e6 m e * 2 ^ 149 - m * 2 ^ (e + 149) * 1000000) <= 2 ^ 149.
Proof.
  intros He Hm'. unfold round_e6. destruct (Z.leb_spec 0 e).
  - assert (0 < 2 ^ e) by (apply Z.pow_pos_nonneg; lia). split; [nia|].
    rewrite Z.pow_add_r by lia. replace (_ - _) with 0 by ring. discriminate.
  - set (den := 2 ^ (- e)). assert (Hd : 0 < den) by (apply Z.pow_pos_nonneg; lia).
    assert (E149 : 2 ^ 149 = den * 2 ^ (e + 149)) by (unfold den; rewrite <- Z.pow_add_r by lia; f_equal; lia).
    assert (Hp0 : 0 < 2 ^ (e + 149)) by (apply Z.pow_pos_nonneg; lia).
    rewrite E149. generalize dependent (2 ^ (e + 149)). intros P HP HP0.
    assert (Hq : 0 <= m * 1000000 / den) by (apply Z.div_pos; lia).
    pose proof (Z.div_mod (m * 1000000) den ltac:(lia)) as Hdm.
    pose proof (Z.mod_pos_bound (m * 1000000) den Hd) as Hr.
    cbv zeta. set (q := m * 1000000 / den) in *. set (r := (m * 1000000) mod den) in *.
    assert (K : forall n, 0 <= n -> 2 * Z.abs (n * den - m * 1000000) <= den ->
      0 <= n /\ 2 * Z.abs (n * (den * P) - m * P * 1000000) <= den * P).
    { intros n Hn Hle. split; [exact Hn|].
      replace (n * (den * P) - m * P * 1000000) with ((n * den - m * 1000000) * P) by ring.
      rewrite Z.abs_mul, (Z.abs_eq P) by lia. nia. }
    destruct ((den <? 2 * r) || ((2 * r =? den) && Z.odd q)) eqn:E; apply K; try lia.
Qed.

Lemma text_decimal b : finite b ->
  exists whole six, f_to_str b = (if sign_bit b then [45] else []) ++ whole ++ [46] ++ six /\
    Forall (fun c => 48 <= c <= 57) (whole ++ six) /\ length six = 6%nat /\
    (whole = [48] \/ hd 48 whole <> 48) /\
    2 * Z.abs (decimal (whole ++ six) * 2 ^ 149 - magnitude b * 1000000) <= 2 ^ 149.
Proof.
  intros Hf. unfold f_to_str. destruct (dec_finite b Hf) as [[Hv ->]|(Hv & m & e & He & -> & Hmg)].
  - exists [48], (repeat 48 6). assert (Hg : magnitude b = 0) by (unfold value in Hv; destruct (sign_bit b); lia).
    rewrite Hg. split; [destruct (sign_bit b); reflexivity|]. split; [repeat constructor; lia|].
    split; [reflexivity|]. split; [left; reflexivity|]. vm_compute. discriminate.
  - destruct (round_e6_near (Zpos m) e ltac:(lia) ltac:(lia)) as (Hn & Hd). rewrite Hmg.
    set (n := round_e6 (Zpos m) e) in *.
    assert (Hm6 : 0 <= n mod 1000000 < 1000000) by (apply Z.mod_pos_bound; lia).
    assert (Hd6 : 0 <= n / 1000000) by (apply Z.div_pos; lia).
    destruct (u_to_str_spec (n / 1000000) Hd6) as (D1 & V1 & _).
    destruct (pad6_spec (n mod 1000000) Hm6) as (D2 & V2).
    exists (u_to_str (n / 1000000)), (pad6 (n mod 1000000)).
    split; [reflexivity|]. split; [apply is_digit_spec, Forall_app; split; assumption|].
    split; [apply pad6_len; exact Hm6|]. split.
    { destruct (Z.eq_dec (n / 1000000) 0) as [E|E]; [left; rewrite E; reflexivity|right; apply u_to_str_head; lia]. }
    replace (decimal (u_to_str (n / 1000000) ++ pad6 (n mod 1000000))) with n; [exact Hd|].
    unfold decimal. rewrite decimal_acc, dval_app, V1, dval_shift, V2.
    replace (zlen (pad6 (n mod 1000000))) with 6 by (unfold zlen; rewrite pad6_len by exact Hm6; reflexivity).
    change (10 ^ 6) with 1000000. pose proof (Z.div_mod n 1000000 ltac:(lia)). lia.
Qed.
(** Reading text. *)
Section Exact.
Context (prec emax : Z) (Hpr : Prec_gt_0 prec) (Hem : Prec_lt_emax prec emax).

Lemma bn_equiv_g m e z :
  SpecFloat.binary_normalize prec emax m e z = B2SF (binary_normalize prec emax Hpr Hem mode_NE m e z).
Proof.
  assert (A : forall sx mx ex lx, SpecFloat.binary_round_aux prec emax sx mx ex lx = binary_round_aux prec emax mode_NE sx mx ex lx).
  { intros. unfold SpecFloat.binary_round_aux, binary_round_aux.
    set (q := shr_fexp _ _ _). destruct q as [mrs' e']. simpl. rewrite (rne_equiv sx). reflexivity. }
  assert (B : forall s m0 e0, SpecFloat.binary_round prec emax s m0 e0 = binary_round prec emax mode_NE s m0 e0).
  { intros. unfold SpecFloat.binary_round, binary_round, shl_align_fexp. set (q := shl_align _ _ _). destruct q. apply A. }
  destruct m; simpl; [reflexivity| |]; rewrite B2SF_SF2B; apply B.
Qed.

Lemma bn_exact m e z :
  generic_format radix2 (SpecFloat.fexp prec emax) (F2R (Float radix2 m e)) ->
  (Rabs (F2R (Float radix2 m e)) < bpow radix2 emax)%R -> m <> 0 ->
  let f := binary_normalize prec emax Hpr Hem mode_NE m e z in
  B2R f = F2R (Float radix2 m e) /\ is_finite f = true /\ Bsign f = (m <? 0).
Proof.
  intros Hg Hl Hz f. pose proof (binary_normalize_correct prec emax _ _ mode_NE m e z) as H. cbv zeta in H.
  change (round_mode mode_NE) with ZnearestE in H. fold f in H.
  assert (Valid_exp (SpecFloat.fexp prec emax)) by (apply (fexp_correct prec emax Hpr)).
  rewrite (round_generic radix2 _ ZnearestE _ Hg) in H. rewrite Rlt_bool_true in H by exact Hl.
  destruct H as (Hv & Hf & Hs). split; [exact Hv|]. split; [exact Hf|]. rewrite Hs.
  destruct (Z.ltb_spec m 0) as [L|L].
  - rewrite Rcompare_Lt; [reflexivity|]. apply F2R_lt_0. exact L.
  - rewrite Rcompare_Gt; [reflexivity|]. apply F2R_gt_0. simpl. lia.
Qed.
End Exact.

Lemma Hp64 : Prec_gt_0 53. Proof. reflexivity. Qed.
Lemma Hm64 : Prec_lt_emax 53 1024. Proof. reflexivity. Qed.

Lemma enc_dec b : finite b -> f_enc (f_dec b) = b.
Proof.
  intros [Hp' He']. 
  destruct (pattern_split b Hp') as (s & e & m & Hs & He & Hm' & Hb & _ & Ee & _ & ->). rewrite Ee in He'. clear Ee.
  assert (Hsg : f_sign (s =? 1) = s * 2 ^ 31) by (destruct Hs as [-> | ->]; reflexivity).
  destruct (Z.eqb_spec e 255); [lia|]. destruct (Z.eqb_spec e 0) as [E0|E0].
  - destruct m as [|p|p]; [| |lia]; cbn [f_enc]; rewrite Hsg.
    + lia.
    + destruct (Z.ltb_spec (Zpos p) P23); lia.
  - destruct (m + P23) as [|p|p] eqn:E; [unfold P23 in *; lia| |unfold P23 in *; lia]. cbn [f_enc]. rewrite Hsg.
    destruct (Z.ltb_spec (Zpos p) P23); lia.
Qed.

Lemma enc_unique (z : bf) b : finite b -> is_finite z = true ->
  B2R z = (IZR (value b) * ulp0)%R -> Bsign z = sign_bit b -> f_enc (B2SF z) = b.
Proof.
  intros Hb Hf Hv Hs. rewrite <- (enc_dec b Hb), <- (num_dec b (proj1 Hb)). f_equal. f_equal.
  apply B2R_Bsign_inj; [exact Hf|apply num_finite; exact Hb| |].
  - rewrite (num_value _ _ Hb). exact Hv.
  - rewrite (num_sign _ _ (finite_nan _ Hb)). exact Hs.
Qed.

(** A double that is a single precision number becomes that number. *)
Lemma of_double_exact b (z : binary_float 53 1024) : finite b -> value b <> 0 ->
  is_finite z = true -> B2R z = (IZR (value b) * ulp0)%R -> f_of_double (B2SF z) = b.
Proof.
  intros Hb Hnz Hf Hv.
  assert (Hx : (IZR (value b) * ulp0 <> 0)%R).
  { apply Rmult_integral_contrapositive. split; [apply IZR_neq; exact Hnz|apply Rgt_not_eq, ulp0_pos]. }
  destruct z as [s|s| |s m e Hz]; try discriminate Hf.
  - exfalso. apply Hx. symmetry. exact Hv.
  - simpl B2SF. unfold f_of_double. simpl B2R in Hv.
    assert (Ec : (if s then Zneg m else Zpos m) = cond_Zopp s (Zpos m)) by (destruct s; reflexivity). rewrite Ec.
    rewrite (bn_equiv_g 24 128 Hp Hm).
    pose proof (fmt_value b Hb) as Hg. rewrite <- Hv in Hg.
    assert (Hl : (Rabs (F2R (Float radix2 (cond_Zopp s (Zpos m)) e)) < bpow radix2 128)%R).
    { rewrite Hv, <- (num_value b (proj1 Hb) Hb). apply abs_B2R_lt_emax. }
    destruct (bn_exact 24 128 Hp Hm _ _ s Hg Hl ltac:(destruct s; discriminate)) as (H1 & H2 & H3).
    apply enc_unique; [exact Hb|exact H2|congruence|]. rewrite H3.
    assert (Hsg : (cond_Zopp s (Zpos m) <? 0) = s) by (destruct s; reflexivity). rewrite Hsg.
    destruct (sign_bit b) eqn:Sb, s; try reflexivity; exfalso.
    + pose proof (value_neg b Sb) as L. apply IZR_le in L.
      assert (0 < F2R (Float radix2 (cond_Zopp false (Zpos m)) e))%R by (apply F2R_gt_0; reflexivity).
      pose proof ulp0_pos. nra.
    + pose proof (value_pos b Sb) as L. apply IZR_le in L.
      assert (F2R (Float radix2 (cond_Zopp true (Zpos m)) e) < 0)%R by (apply F2R_lt_0; reflexivity).
      pose proof ulp0_pos. nra.
Qed.

Lemma ndigits_spec f : forall z, 0 < z < 10 ^ Z.of_nat f ->
  1 <= ndigits f z /\ 10 ^ (ndigits f z - 1) <= z < 10 ^ ndigits f z.
Proof.
  induction f as [|f IH]; intros z Hz; [cbn in Hz; lia|].
  cbn [ndigits]. destruct (Z.leb_spec z 0); [lia|].
  rewrite Nat2Z.inj_succ, Z.pow_succ_r in Hz by lia.
  destruct (Z_lt_le_dec z 10) as [L|L].
  - assert (E : z / 10 = 0) by (apply Z.div_small; lia). rewrite E.
    assert (E1 : ndigits f 0 = 0) by (destruct f; reflexivity). rewrite E1. cbn. lia.
  - assert (H10 : 0 < z / 10) by (apply Z.div_str_pos; lia).
    assert (Hz2 : z / 10 < 10 ^ Z.of_nat f) by (apply Z.div_lt_upper_bound; lia).
    destruct (IH (z / 10) (conj H10 Hz2)) as (N & A & B). set (n := ndigits f (z / 10)) in *.
    split; [lia|]. replace (1 + n - 1) with ((n - 1) + 1) by lia. rewrite !(Z.add_comm 1 n), !Z.pow_add_r by lia.
    change (10 ^ 1) with 10. pose proof (Z.div_mod z 10 ltac:(lia)). pose proof (Z.mod_pos_bound z 10 ltac:(lia)). lia.
Qed.

Lemma fmt64_value b : finite b ->
  generic_format radix2 (SpecFloat.fexp 53 1024) (IZR (value b) * ulp0)%R /\
  (Rabs (IZR (value b) * ulp0) < bpow radix2 1024)%R.
Proof.
  intros Hb. rewrite <- (num_value b (proj1 Hb) Hb). split.
  - pose proof (FLT_format_B2R 24 128 Hp (num b (proj1 Hb))) as [f Hf Hm' He].
    change (SpecFloat.fexp 53 1024) with (FLT_exp (-1074) 53). apply generic_format_FLT. exists f; [exact Hf| |].
    + eapply Z.lt_trans; [exact Hm'|]. reflexivity.
    + eapply Z.le_trans; [|exact He]. discriminate.
  - eapply Rlt_trans; [apply abs_B2R_lt_emax|]. apply bpow_lt. reflexivity.
Qed.

Lemma dec_exact b d L : finite b -> 0 < d -> 0 <= L -> d * 2 ^ 149 = magnitude b * 10 ^ L ->
  f_of_double (d_of_dec (sign_bit b) d (- L)) = b.
Proof.
  intros Hb Hd HL Heq.
  destruct (dec_finite b Hb) as [[Hv _]|(Hv & m & e & He & Hdec & Hmg)].
  { exfalso. assert (Hg : magnitude b = 0) by (unfold value in Hv; destruct (sign_bit b); lia).
    rewrite Hg in Heq. lia. }
  assert (HmB : Zpos m < 2 ^ 24).
  { pose proof (f_dec_finite_bound b _ _ _ Hdec) as [H _]. exact H. }
  assert (HT : 0 < 10 ^ L) by (apply Z.pow_pos_nonneg; lia).
  unfold d_of_dec. destruct (Z.eqb_spec d 0); [lia|]. cbv zeta.
  assert (Hmag1 : 1 <= magnitude b).
  { pose proof (magnitude_nonneg b). unfold value in Hv. destruct (sign_bit b); lia. }
  assert (Hmag2 : magnitude b < 2 ^ 277).
  { rewrite Hmg. apply Z.lt_le_trans with (2 ^ 24 * 2 ^ (e + 149)).
    - apply Z.mul_lt_mono_pos_r; [apply Z.pow_pos_nonneg; lia|exact HmB].
    - rewrite <- Z.pow_add_r by lia. apply Z.pow_le_mono_r; lia. }
  assert (Hfl : 0 < d < 10 ^ Z.of_nat (Z.to_nat (Z.log2 d + 2))).
  { split; [exact Hd|]. pose proof (Z.log2_nonneg d). rewrite Z2Nat.id by lia.
    pose proof (Z.log2_spec d Hd) as [_ H2]. eapply Z.lt_le_trans; [exact H2|].
    apply Z.le_trans with (10 ^ Z.succ (Z.log2 d)); [apply Z.pow_le_mono_l; lia|apply Z.pow_le_mono_r; lia]. }
  destruct (ndigits_spec _ d Hfl) as (N1 & N2 & N3). set (nd := ndigits _ d) in *.
  assert (Hhi : - L + nd <= 40).
  { destruct (Z_le_gt_dec (- L + nd) 40) as [|G]; [assumption|exfalso].
    assert (10 ^ (L + 40) <= 10 ^ (nd - 1)) by (apply Z.pow_le_mono_r; lia).
    rewrite Z.pow_add_r in H by lia.
    assert (C1 : 2 ^ 277 < 10 ^ 40 * 2 ^ 149) by reflexivity.
    set (T := 10 ^ L) in *. set (A := 10 ^ 40) in *. set (B := 2 ^ 149) in *. set (C := 2 ^ 277) in *.
    assert (0 < B) by reflexivity.
    assert (T * A * B <= d * B) by (apply Z.mul_le_mono_nonneg_r; lia).
    assert (magnitude b * T < C * T) by (apply Z.mul_lt_mono_pos_r; lia).
    assert (C * T < A * B * T) by (apply Z.mul_lt_mono_pos_r; lia).
    replace (T * A * B) with (A * B * T) in * by ring. lia. }
  assert (Hlo : -50 <= - L + nd).
  { destruct (Z_le_gt_dec (-50) (- L + nd)) as [|G]; [assumption|exfalso].
    assert (10 ^ nd * 10 ^ 50 <= 10 ^ L) by (rewrite <- Z.pow_add_r by lia; apply Z.pow_le_mono_r; lia).
    assert (C1 : 2 ^ 149 < 10 ^ 50) by reflexivity.
    set (T := 10 ^ L) in *. set (A := 10 ^ 50) in *. set (B := 2 ^ 149) in *. set (D := 10 ^ nd) in *.
    assert (d * B < D * A) by (apply Z.mul_lt_mono_nonneg; lia || (unfold B; discriminate) || idtac; try lia; unfold B; discriminate).
    nia. }
  destruct (Z.ltb_spec 310 (- L + nd)); [lia|]. destruct (Z.ltb_spec (- L + nd) (-330)); [lia|].
  assert (Hsgn : forall z, (if sign_bit b then - z else z) = cond_Zopp (sign_bit b) z) by (intros; destruct (sign_bit b); reflexivity).
  destruct (fmt64_value b Hb) as [Hg Hl].
  assert (K : forall mm ee, 0 < mm -> F2R (Float radix2 mm ee) = (IZR (magnitude b) * ulp0)%R ->
    f_of_double (SpecFloat.binary_normalize 53 1024 (if sign_bit b then - mm else mm) ee (sign_bit b)) = b).
  { intros mm ee Hmm Hf. rewrite Hsgn.
    assert (Hf' : F2R (Float radix2 (cond_Zopp (sign_bit b) mm) ee) = (IZR (value b) * ulp0)%R).
    { rewrite F2R_cond_Zopp, Hf. unfold value. destruct (sign_bit b); simpl; [rewrite opp_IZR; ring|reflexivity]. }
    rewrite <- Hf' in Hg, Hl.
    rewrite (bn_equiv_g 53 1024 Hp64 Hm64).
    destruct (bn_exact 53 1024 Hp64 Hm64 _ _ (sign_bit b) Hg Hl ltac:(destruct (sign_bit b); simpl; lia)) as (H1 & H2 & _).
    apply of_double_exact; [exact Hb|exact Hv|exact H2|congruence]. }
  destruct (Z.leb_spec 0 (- L)) as [L0|L0].
  - assert (L = 0) by lia. subst L. change (10 ^ 0) with 1 in *. change (10 ^ (-0)) with 1. rewrite Z.mul_1_r in *.
    apply K; [exact Hd|]. rewrite F2R_unit by lia. change (0 + 149) with 149. rewrite Heq. reflexivity.
  - rewrite Z.opp_involutive. set (T := 10 ^ L) in *.
    set (k := Z.max 0 (66 + Z.log2 T - Z.log2 d)).
    assert (Hk : 0 <= k) by lia.
    assert (Hke : 0 <= k + e).
    { assert (Hlog : d * 2 ^ 149 < 2 ^ (e + 173 + Z.succ (Z.log2 T))).
      { rewrite Heq, Hmg. pose proof (Z.log2_spec T HT) as [_ HT2]. pose proof (Z.log2_nonneg T).
        replace (e + 173) with (24 + (e + 149)) by lia. rewrite (Z.pow_add_r 2 (24 + (e + 149))), (Z.pow_add_r 2 24) by lia.
        apply Z.mul_lt_mono_nonneg; [|apply Z.mul_lt_mono_pos_r; [apply Z.pow_pos_nonneg; lia|exact HmB]|lia|exact HT2].
        apply Z.mul_nonneg_nonneg; [lia|apply Z.pow_nonneg; lia]. }
      pose proof (Z.log2_spec d Hd) as [Hd2 _]. pose proof (Z.log2_nonneg d). pose proof (Z.log2_nonneg T).
      assert (Hpw : 2 ^ (Z.log2 d + 149) < 2 ^ (e + 173 + Z.succ (Z.log2 T))).
      { eapply Z.le_lt_trans; [|exact Hlog]. rewrite Z.pow_add_r by lia. apply Z.mul_le_mono_nonneg_r; [discriminate|exact Hd2]. }
      apply Z.pow_lt_mono_r_iff in Hpw; lia. }
    assert (Hdk : d * 2 ^ k = Zpos m * 2 ^ (k + e) * T).
    { apply (Z.mul_cancel_r _ _ (2 ^ 149)); [discriminate|].
      replace (d * 2 ^ k * 2 ^ 149) with (d * 2 ^ 149 * 2 ^ k) by ring. rewrite Heq, Hmg.
      replace (Zpos m * 2 ^ (k + e) * T * 2 ^ 149) with (Zpos m * T * (2 ^ (k + e) * 2 ^ 149)) by ring.
      replace (Zpos m * 2 ^ (e + 149) * T * 2 ^ k) with (Zpos m * T * (2 ^ (e + 149) * 2 ^ k)) by ring.
      rewrite <- !Z.pow_add_r by lia. do 2 f_equal. lia. }
    rewrite Hdk, Z.div_mul, Z.mod_mul by lia. simpl (0 =? 0). cbv iota. rewrite Z.add_0_r.
    apply K.
    + assert (0 < 2 ^ (k + e)) by (apply Z.pow_pos_nonneg; lia). lia.
    + rewrite Hmg. unfold ulp0, F2R. cbn [Fnum Fexp].
      assert (Pw : forall n, 0 <= n -> IZR (2 ^ n) = bpow radix2 n).
      { intros w Hw. change (2 ^ w) with (Zpower (radix_val radix2) w). apply IZR_Zpower. exact Hw. }
      rewrite !mult_IZR, !Pw by lia. change (IZR 2) with (bpow radix2 1).
      transitivity (IZR (Zpos m) * (bpow radix2 1 * (bpow radix2 (k + e) * bpow radix2 (- k - 1))))%R; [ring|].
      rewrite Rmult_assoc, <- !bpow_plus. do 2 f_equal. lia.
Qed.

Lemma atof_plain (neg : bool) whole fr : Forall (fun c => 48 <= c <= 57) whole -> Forall (fun c => 48 <= c <= 57) fr -> whole <> [] ->
  c_atof ((if neg then [45] else []) ++ whole ++ [46] ++ fr) = f_of_double (d_of_dec neg (decimal (whole ++ fr)) (- zlen fr)).
Proof.
  intros Hw Hfr Hne.
  assert (Dg : forall l, Forall (fun c => 48 <= c <= 57) l -> Forall (fun c => is_digit c = true) l).
  { intros l. apply Forall_impl. intros c H. unfold is_digit. lia. }
  assert (Hs : take_sign (skip_spaces ((if neg then [45] else []) ++ whole ++ [46] ++ fr)) = (neg, whole ++ [46] ++ fr)).
  { destruct neg; [reflexivity|]. destruct whole as [|c w]; [contradiction|]. inversion Hw; subst. cbn [app skip_spaces].
    assert (is_space c = false) as -> by (unfold is_space; lia). cbn [take_sign].
    destruct (Z.eqb_spec c 45); [lia|]. destruct (Z.eqb_spec c 43); [lia|]. reflexivity. }
  unfold c_atof. rewrite Hs.
  rewrite (take_digits_app whole ([46] ++ fr) (Dg _ Hw)) by reflexivity. cbn [app].
  change (46 =? 46) with true. cbv iota.
  rewrite <- (app_nil_r fr) at 1. rewrite (take_digits_app fr [] (Dg _ Hfr) I).
  assert (0 < zlen whole) by (unfold zlen; destruct whole; [contradiction|cbn [length]; lia]).
  assert (0 <= zlen fr) by (unfold zlen; lia).
  destruct (Z.eqb_spec (0 + zlen whole + (0 + zlen fr)) 0); [lia|].
  unfold decimal. rewrite decimal_acc, dval_app. reflexivity.
Qed.

Lemma decimal_nonneg l : Forall (fun c => 48 <= c <= 57) l -> 0 <= decimal l.
Proof.
  unfold decimal. intros H. assert (G : forall a, 0 <= a -> 0 <= fold_left (fun v c => 10 * v + (c - 48)) l a).
  { induction H as [|c l Hc H IH]; intros a Ha; [exact Ha|]. cbn [fold_left]. apply IH. lia. }
  apply G. lia.
Qed.

(** A decimal text of a single precision number reads as that number. *)
Lemma atof_exact b whole fr : finite b ->
  Forall (fun c => 48 <= c <= 57) whole -> Forall (fun c => 48 <= c <= 57) fr -> whole <> [] ->
  decimal (whole ++ fr) * 2 ^ 149 = magnitude b * 10 ^ zlen fr ->
  c_atof ((if sign_bit b then [45] else []) ++ whole ++ [46] ++ fr) = b.
Proof.
  intros Hb Hw Hfr Hne Heq. rewrite atof_plain by assumption.
  pose proof (decimal_nonneg (whole ++ fr) (proj2 (Forall_app _ _ _) (conj Hw Hfr))) as Hd.
  assert (HL : 0 <= zlen fr) by (unfold zlen; lia).
  destruct (Z.eq_dec (decimal (whole ++ fr)) 0) as [E|E].
  - rewrite E in *. unfold d_of_dec. simpl (0 =? 0). cbv iota.
    assert (Hg : magnitude b = 0).
    { pose proof (magnitude_nonneg b). assert (0 < 10 ^ zlen fr) by (apply Z.pow_pos_nonneg; lia). nia. }
    assert (Hv : value b = 0) by (unfold value; rewrite Hg; destruct (sign_bit b); reflexivity).
    destruct (dec_finite b Hb) as [[_ Hdec]|(Hv' & _)]; [|contradiction].
    rewrite <- (enc_dec b Hb) at 2. rewrite Hdec. reflexivity.
  - apply dec_exact; try assumption. lia.
Qed.

Lemma text_round_trip b : finite b -> (2 ^ 149 | magnitude b * 10 ^ 6) -> c_atof (f_to_str b) = b.
Proof.
  intros Hb [q Hq]. destruct (text_decimal b Hb) as (whole & six & -> & Hd & Hl & Hw & Hn).
  apply Forall_app in Hd. destruct Hd as [H1 H2].
  assert (Hz : zlen six = 6) by (unfold zlen; rewrite Hl; reflexivity).
  apply atof_exact; try assumption.
  - intros ->. destruct Hw as [Hw|Hw]; [discriminate|]. apply Hw. reflexivity.
  - rewrite Hz. change 1000000 with (10 ^ 6) in Hn. rewrite Hq in *.
    replace (decimal (whole ++ six) * 2 ^ 149 - q * 2 ^ 149) with ((decimal (whole ++ six) - q) * 2 ^ 149) in Hn by ring.
    rewrite Z.abs_mul in Hn. change (Z.abs (2 ^ 149)) with (2 ^ 149) in Hn.
    assert (decimal (whole ++ six) = q) as ->; [|reflexivity].
    assert (0 < 2 ^ 149) by reflexivity. set (B := 2 ^ 149) in *. nia.
Qed.

Lemma kinds b : pattern b -> finite b \/ (exists s, b = infinite s) \/ not_a_number b.
Proof.
  intros Hb. destruct (pattern_split b Hb) as (s & e & m & Hs & He & Hm' & Eb & _ & Ee & Em & _).
  destruct (Z.eq_dec e 255) as [E|E].
  - right. destruct (Z.eq_dec m 0) as [E0|E0].
    + left. exists (s =? 1). rewrite Eb, E, E0. destruct Hs as [-> | ->]; reflexivity.
    + right. split; [exact Hb|]. lia.
  - left. split; [exact Hb|]. lia.
Qed.

Definition f_op (op : arith) : Z -> Z -> Z :=
  match op with Plus => f_add | Minus => f_sub | Times => f_mul | Over => f_div end.

Lemma f_op_dec op x y : f_op op x y = f_enc (match op with
  | Plus => SFadd 24 128 (f_dec x) (f_dec y) | Minus => SFsub 24 128 (f_dec x) (f_dec y)
  | Times => SFmul 24 128 (f_dec x) (f_dec y) | Over => SFdiv 24 128 (f_dec x) (f_dec y) end).
Proof. destruct op; reflexivity. Qed.

Lemma nan_nan : not_a_number f_nan.
Proof. split; [split; [discriminate|reflexivity]|]. split; [reflexivity|discriminate]. Qed.

Lemma op_ieee op x y : pattern x -> pattern y -> ieee op x y (f_op op x y).
Proof.
  intros Hx Hy.
  destruct (kinds x Hx) as [Fx|[[s ->]|Nx]].
  - destruct (kinds y Hy) as [Fy|[[t ->]|Ny]].
    + destruct op; cbn [f_op].
      * apply i_add; auto. apply add_rounded; assumption.
      * apply i_sub; auto. apply sub_rounded; assumption.
      * apply i_mul; auto. apply mul_rounded; assumption.
      * destruct (Z.eq_dec (value y) 0) as [E|E].
        -- destruct (dec_finite y Fy) as [[_ Dy]|[N _]]; [|contradiction].
           destruct (dec_finite x Fx) as [[Vx Dx]|(Vx & m & e & _ & Dx & _)].
           ++ apply i_div_zeros; auto. unfold f_div. rewrite Dx, Dy. exact nan_nan.
           ++ replace (f_div x y) with (infinite (xorb (sign_bit x) (sign_bit y))); [apply i_div_zero; assumption|].
              unfold f_div. rewrite Dx, Dy. destruct (sign_bit x), (sign_bit y); reflexivity.
        -- apply i_div; auto. apply div_rounded; assumption.
    + rewrite f_op_dec. rewrite (dec_infinite t).
      destruct (dec_finite x Fx) as [[Vx Dx]|(Vx & m & e & _ & Dx & _)]; rewrite Dx; destruct op; cbn [SFadd SFsub SFmul SFdiv].
      * exact (i_add_right x t Fx).
      * exact (i_sub_right x t Fx).
      * apply i_mul_zero_left; auto. exact nan_nan.
      * exact (i_div_right x t Fx).
      * exact (i_add_right x t Fx).
      * exact (i_sub_right x t Fx).
      * exact (i_mul_right x t Fx Vx).
      * exact (i_div_right x t Fx).
    + apply i_nan; [auto|]. rewrite f_op_dec. rewrite (dec_nan y Ny).
      destruct op, (f_dec x); exact nan_nan.
  - destruct (kinds y Hy) as [Fy|[[t ->]|Ny]].
    + rewrite f_op_dec. rewrite (dec_infinite s).
      destruct (dec_finite y Fy) as [[Vy Dy]|(Vy & m & e & _ & Dy & _)]; rewrite Dy; destruct op; cbn [SFadd SFsub SFmul SFdiv].
      * exact (i_add_left s y Fy).
      * exact (i_sub_left s y Fy).
      * apply i_mul_zero_right; auto. exact nan_nan.
      * exact (i_div_left s y Fy).
      * exact (i_add_left s y Fy).
      * exact (i_sub_left s y Fy).
      * exact (i_mul_left s y Fy Vy).
      * exact (i_div_left s y Fy).
    + rewrite f_op_dec. rewrite !dec_infinite.
      destruct op, s, t; cbn [SFadd SFsub SFmul SFdiv Bool.eqb xorb negb];
      first [exact (i_add_both true)|exact (i_add_both false)|exact (i_sub_opposite true)|exact (i_sub_opposite false)
            |exact (i_mul_both true true)|exact (i_mul_both true false)|exact (i_mul_both false true)|exact (i_mul_both false false)
            |apply (i_add_opposite true); exact nan_nan|apply (i_add_opposite false); exact nan_nan
            |apply i_sub_both; exact nan_nan|apply i_div_both; exact nan_nan].
    + apply i_nan; [auto|]. rewrite f_op_dec. rewrite (dec_nan y Ny), dec_infinite.
      destruct op; exact nan_nan.
  - apply i_nan; [auto|]. rewrite f_op_dec. rewrite (dec_nan x Nx).
    destruct op; exact nan_nan.
Qed.

(** The patterns of one sign are in the order of their magnitudes. *)
Definition low (b : Z) : Z := if sign_bit b then b - 2 ^ 31 else b.

Lemma low_spec b : finite b -> 0 <= low b < 255 * P23 /\ magnitude b = magnitude (low b) /\ Z.even (low b) = Z.even b /\
  b = (if sign_bit b then 2 ^ 31 else 0) + low b.
Proof.
  intros [Hp' He']. unfold low. destruct (sign_bit b) eqn:Sb; (split; [|split; [|split; [|lia]]]).
  - unfold sign_bit, pattern, expo in *. change (2 ^ 31) with 2147483648 in *. change (2 ^ 32) with 4294967296 in *.
    change (2 ^ 23) with 8388608 in *. change (2 ^ 8) with 256 in *. unfold P23. Z.div_mod_to_equations; lia.
  - unfold sign_bit, pattern, magnitude, expo, frac in *. change (2 ^ 31) with 2147483648 in *. change (2 ^ 32) with 4294967296 in *.
    change (2 ^ 23) with 8388608 in *. change (2 ^ 8) with 256 in *.
    assert (E1 : (b - 2147483648) mod 8388608 = b mod 8388608) by (Z.div_mod_to_equations; lia).
    assert (E2 : ((b - 2147483648) / 8388608) mod 256 = (b / 8388608) mod 256) by (Z.div_mod_to_equations; lia).
    rewrite E1, E2. reflexivity.
  - rewrite Z.even_sub. change (Z.even (2 ^ 31)) with true. destruct (Z.even b); reflexivity.
  - unfold sign_bit, pattern, expo in *. change (2 ^ 31) with 2147483648 in *. change (2 ^ 32) with 4294967296 in *.
    change (2 ^ 23) with 8388608 in *. change (2 ^ 8) with 256 in *. unfold P23. Z.div_mod_to_equations; lia.
  - reflexivity.
  - reflexivity.
Qed.

Lemma mag_succ a : 0 <= a -> a + 1 < 255 * P23 -> magnitude a < magnitude (a + 1).
Proof.
  intros Ha Hb. unfold P23 in *. unfold magnitude, expo, frac. change (2 ^ 23) with 8388608. change (2 ^ 8) with 256.
  assert (Ea : (a / 8388608) mod 256 = a / 8388608) by (apply Z.mod_small; Z.div_mod_to_equations; lia).
  assert (Eb : ((a + 1) / 8388608) mod 256 = (a + 1) / 8388608) by (apply Z.mod_small; Z.div_mod_to_equations; lia).
  rewrite Ea, Eb. destruct (Z.eq_dec (a mod 8388608) 8388607) as [E|E].
  - assert (E1 : (a + 1) mod 8388608 = 0) by (Z.div_mod_to_equations; lia).
    assert (E2 : (a + 1) / 8388608 = a / 8388608 + 1) by (Z.div_mod_to_equations; lia).
    assert (E3 : 0 <= a / 8388608) by (Z.div_mod_to_equations; lia).
    rewrite E1, E2, E. set (q := a / 8388608) in *. destruct (Z.eqb_spec (q + 1) 0); [lia|].
    destruct (Z.eqb_spec q 0) as [Q|Q].
    + rewrite Q. reflexivity.
    + replace (q + 1 - 1) with (q - 1 + 1) by lia. rewrite Z.pow_add_r by lia. assert (0 < 2 ^ (q - 1)) by (apply Z.pow_pos_nonneg; lia). lia.
  - assert (E1 : (a + 1) mod 8388608 = a mod 8388608 + 1) by (Z.div_mod_to_equations; lia).
    assert (E2 : (a + 1) / 8388608 = a / 8388608) by (Z.div_mod_to_equations; lia).
    assert (E3 : 0 <= a / 8388608) by (Z.div_mod_to_equations; lia).
    rewrite E1, E2. set (q := a / 8388608) in *. destruct (Z.eqb_spec q 0) as [Q|Q]; [lia|].
    assert (0 < 2 ^ (q - 1)) by (apply Z.pow_pos_nonneg; lia). lia.
Qed.

Lemma mag_mono n : forall a, 0 <= a -> a + Z.of_nat n + 1 < 255 * P23 -> magnitude a < magnitude (a + Z.of_nat n + 1).
Proof.
  induction n as [|n IH]; intros a Ha Hb.
  - change (Z.of_nat 0) with 0 in *. rewrite Z.add_0_r in *. apply mag_succ; assumption.
  - rewrite Nat2Z.inj_succ in *. eapply Z.lt_trans; [apply IH; [exact Ha|lia]|].
    replace (a + Z.succ (Z.of_nat n) + 1) with (a + Z.of_nat n + 1 + 1) by lia. apply mag_succ; lia.
Qed.
Lemma mag_lt a b : 0 <= a < b -> b < 255 * P23 -> magnitude a < magnitude b.
Proof. intros H H2. replace b with (a + Z.of_nat (Z.to_nat (b - a - 1)) + 1) by lia. apply mag_mono; lia. Qed.

Lemma same_finite a b : finite a -> finite b -> sign_bit a = sign_bit b -> value a = value b -> a = b.
Proof.
  intros Ha Hb Hs Hv.
  destruct (low_spec a Ha) as (Ra & Ma & _ & Ea), (low_spec b Hb) as (Rb & Mb & _ & Eb).
  rewrite Ea, Eb, Hs. f_equal.
  assert (Hm' : magnitude (low a) = magnitude (low b)).
  { rewrite <- Ma, <- Mb. unfold value in Hv. rewrite Hs in Hv. destruct (sign_bit b); lia. }
  destruct (Z.lt_trichotomy (low a) (low b)) as [L|[L|L]]; [|exact L|].
  - pose proof (mag_lt (low a) (low b)). lia.
  - pose proof (mag_lt (low b) (low a)). lia.
Qed.

Lemma finite_low (s : bool) l : 0 <= l < 255 * P23 ->
  finite ((if s then 2 ^ 31 else 0) + l) /\ value ((if s then 2 ^ 31 else 0) + l) = (if s then - magnitude l else magnitude l).
Proof.
  intros Hl.
  assert (Hf : finite ((if s then 2 ^ 31 else 0) + l) /\ sign_bit ((if s then 2 ^ 31 else 0) + l) = s).
  { unfold finite, pattern, sign_bit, expo, P23 in *. change (2 ^ 31) with 2147483648. change (2 ^ 32) with 4294967296.
    change (2 ^ 23) with 8388608. change (2 ^ 8) with 256.
    destruct s; (split; [split; [lia|]|]); try (Z.div_mod_to_equations; lia); first [apply Z.leb_le; lia|apply Z.leb_gt; lia]. }
  destruct Hf as [Hf Hs]. split; [exact Hf|].
  destruct (low_spec _ Hf) as (_ & M & _ & _). unfold value. rewrite M. unfold low. rewrite Hs.
  destruct s; [replace (2 ^ 31 + l - 2 ^ 31) with l by lia|rewrite Z.add_0_l]; reflexivity.
Qed.

(** Two even patterns are not neighbours, so they are not both nearest. *)
Lemma no_even_ties s n d r r' : 0 < d -> finite r -> finite r' -> sign_bit r = s -> sign_bit r' = s ->
  value r <> value r' -> Z.abs (value r * d - n) = Z.abs (value r' * d - n) ->
  (forall c, finite c -> Z.abs (value r * d - n) <= Z.abs (value c * d - n)) ->
  Z.even r = true -> Z.even r' = true -> False.
Proof.
  assert (W : forall r r', 0 < d -> finite r -> finite r' -> sign_bit r = s -> sign_bit r' = s -> low r < low r' ->
    Z.abs (value r * d - n) = Z.abs (value r' * d - n) ->
    (forall c, finite c -> Z.abs (value r * d - n) <= Z.abs (value c * d - n)) ->
    Z.even r = true -> Z.even r' = true -> False).
  { clear r r'. intros r r' Hd Fr Fr' Sr Sr' Lt Eq Near Ev Ev'.
    destruct (low_spec r Fr) as (Rr & Mr & Er & Qr), (low_spec r' Fr') as (Rr' & Mr' & Er' & Qr').
    assert (Hne : low r + 1 <> low r').
    { intros N. assert (Z.even (low r + 1) = true) by (rewrite N, Er'; exact Ev').
      rewrite Z.even_add, Er, Ev in H. discriminate. }
    pose proof (mag_lt (low r) (low r + 1) ltac:(lia) ltac:(lia)) as M1.
    pose proof (mag_lt (low r + 1) (low r') ltac:(lia) ltac:(lia)) as M2.
    destruct (finite_low s (low r + 1) ltac:(lia)) as [Fc Vc].
    specialize (Near _ Fc). rewrite Vc in Near.
    unfold value in *. rewrite Sr in *. rewrite Sr' in Eq. rewrite Mr in *. rewrite Mr' in Eq.
    set (u := magnitude (low r)) in *. set (v := magnitude (low r')) in *. set (w := magnitude (low r + 1)) in *.
    assert (u * d < w * d) by (apply Z.mul_lt_mono_pos_r; lia).
    assert (w * d < v * d) by (apply Z.mul_lt_mono_pos_r; lia).
    destruct s.
    - replace (- u * d) with (- (u * d)) in * by ring. replace (- v * d) with (- (v * d)) in * by ring.
      replace (- w * d) with (- (w * d)) in * by ring. lia.
    - lia. }
  intros Hd Fr Fr' Sr Sr' Ne Eq Near Ev Ev'.
  destruct (Z.lt_trichotomy (low r) (low r')) as [L|[L|L]].
  - exact (W r r' Hd Fr Fr' Sr Sr' L Eq Near Ev Ev').
  - apply Ne. destruct (low_spec r Fr) as (_ & Mr & _ & _), (low_spec r' Fr') as (_ & Mr' & _ & _).
    unfold value. rewrite Sr, Sr', Mr, Mr', L. reflexivity.
  - apply (W r' r Hd Fr' Fr Sr' Sr L (eq_sym Eq)); [|exact Ev'|exact Ev]. intros c Fc. rewrite <- Eq. apply Near, Fc.
Qed.
