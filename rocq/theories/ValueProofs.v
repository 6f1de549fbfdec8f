(** * ValueProofs: lemmas about value comparison and conversion *)
From Coq Require Import Floats.SpecFloat.
From Verif Require Import Base.
From Verif Require Export TextProofs StrProofs ValueModel ValueSpec.

(** ** Text comparison *)

Lemma s8_nz y : is_byte y -> s8 y <> 0.
Proof. unfold is_byte, s8. destruct (Z.ltb_spec y 128); lia. Qed.

Lemma str_cmp_anti a : forall b, is_text a -> is_text b -> str_cmp b a = - str_cmp a b.
Proof.
  induction a as [|x a IH]; intros [|y b] Ha Hb; cbn [str_cmp]; auto.
  - inversion Hb as [|? ? Y Hb']; subst. apply s8_nz in Y.
    destruct (Z.ltb_spec 0 (s8 y)), (Z.ltb_spec (s8 y) 0); lia.
  - inversion Ha as [|? ? X Ha']; subst. apply s8_nz in X.
    destruct (Z.ltb_spec 0 (s8 x)), (Z.ltb_spec (s8 x) 0); lia.
  - inversion Ha as [|? ? X Ha']; inversion Hb as [|? ? Y Hb']; subst.
    destruct (Z.ltb_spec (s8 y) (s8 x)), (Z.ltb_spec (s8 x) (s8 y)); auto with zarith.
Qed.

Lemma str_cmp_range a : forall b, -1 <= str_cmp a b <= 1.
Proof.
  induction a as [|x a IH]; intros [|y b]; cbn [str_cmp]; try lia.
  - destruct (s8 y <? 0); lia.
  - destruct (0 <? s8 x); lia.
  - destruct (s8 y <? s8 x); [lia|]. destruct (s8 x <? s8 y); [lia|]. apply IH.
Qed.

Lemma str_cmp_trans a : forall b c, is_text a -> is_text b -> is_text c ->
  str_cmp a b <= 0 -> str_cmp b c <= 0 -> str_cmp a c <= 0.
Proof.
  induction a as [|x a IH]; intros [|y b] [|z c] Ha Hb Hc; cbn [str_cmp]; try lia;
    try (inversion Ha as [|? ? X Ha']; subst; apply s8_nz in X);
    try (inversion Hb as [|? ? Y Hb']; subst; apply s8_nz in Y);
    try (inversion Hc as [|? ? Z0 Hc']; subst; apply s8_nz in Z0);
    repeat match goal with |- context [?p <? ?q] => destruct (Z.ltb_spec p q) end; try lia.
  apply IH; auto.
Qed.

(** ** Float comparison *)

(** Position of a float pattern on the number line. *)
Definition f_key (b : Z) : Z :=
  if W31 <=? u32 b then - (u32 b - W31) else u32 b.

Lemma pos_compare_Z p q c : Pos.compare_cont c p q = match Z.compare (Zpos p) (Zpos q) with Eq => c | r => r end.
Proof. cbn. rewrite Pos.compare_cont_spec. unfold Pos.switch_Eq. destruct (Pos.compare p q); reflexivity. Qed.

Lemma f_dec_cases b : exists sg ex m,
  u32 b = f_sign sg + ex * P23 + m /\ 0 <= ex < 256 /\ 0 <= m < P23 /\
  f_key b = (if sg then - (ex * P23 + m) else ex * P23 + m) /\
  f_dec b = (if ex =? 255 then (if m =? 0 then S754_infinity sg else S754_nan)
             else if ex =? 0 then match m with Zpos p => S754_finite sg p (-149) | _ => S754_zero sg end
             else match m + P23 with Zpos p => S754_finite sg p (ex - 150) | _ => S754_nan end).
Proof.
  exists (W31 <=? u32 b), ((u32 b / P23) mod 256), (u32 b mod P23).
  pose proof (u32_range b) as R. unfold is_u32 in R. unfold f_key, f_sign, f_dec.
  unfold P23, W31, W32 in *. remember (u32 b) as u. destruct (Z.leb_spec 2147483648 u); sp; try lia; reflexivity.
Qed.

Lemma zcompare_lt x y : x < y -> Z.compare x y = Lt. Proof. apply Z.compare_lt_iff. Qed.
Lemma zcompare_gt x y : y < x -> Z.compare x y = Gt. Proof. intro. apply Z.compare_gt_iff. auto. Qed.

(** The decoded value together with its magnitude. *)
Inductive fv : spec_float -> bool -> Z -> Prop :=
| fv_zero s : fv (S754_zero s) s 0
| fv_inf s : fv (S754_infinity s) s (255 * P23)
| fv_fin s m e g : 0 < g < 255 * P23 ->
    (* magnitude orders like (e, m) *)
    g = (e + 149) * P23 + Zpos m -> -149 <= e -> (Zpos m < P23 -> e = -149) -> Zpos m < 2 * P23 ->
    fv (S754_finite s m e) s g.

Lemma f_dec_fv b : f_dec b <> S754_nan -> exists s g, fv (f_dec b) s g /\ f_key b = if s then - g else g.
Proof.
  intro N. destruct (f_dec_cases b) as (sg & ex & m & _ & Hex & Hm & K & D).
  exists sg, (ex * P23 + m). split; [|exact K]. rewrite D in *. clear D K.
  destruct (Z.eqb_spec ex 255) as [Ex|Nx]; [subst ex|].
  - destruct (Z.eqb_spec m 0) as [Em|]; [subst m|congruence]. rewrite Z.add_0_r. constructor.
  - destruct (Z.eqb_spec ex 0) as [Ex|]; [subst ex|].
    + destruct m as [|p|p]; [constructor| |lia]. unfold P23 in *. constructor; unfold P23; lia.
    + unfold P23 in *. destruct (m + 8388608) eqn:E; [lia| |lia]. constructor; unfold P23; try lia.
Qed.

Lemma fv_compare x y s1 g1 s2 g2 : fv x s1 g1 -> fv y s2 g2 ->
  SFcompare x y = Some (Z.compare (if s1 then - g1 else g1) (if s2 then - g2 else g2)).
Proof.
  assert (0 < 255 * P23) by reflexivity.
  intros [s|s|s m e g G E L S U] [s'|s'|s' m' e' g' G' E' L' S' U']; cbn [SFcompare];
    try (destruct s; try destruct s'; f_equal; symmetry;
         first [apply Z.compare_eq_iff; lia | apply zcompare_lt; lia | apply zcompare_gt; lia]).
  destruct s, s'; f_equal; symmetry; try (first [apply zcompare_lt; lia | apply zcompare_gt; lia]).
  - destruct (Z.compare_spec e e').
    + subst e'. rewrite pos_compare_Z. destruct (Z.compare_spec (Zpos m) (Zpos m')); cbn [CompOpp];
        first [apply Z.compare_eq_iff; lia | apply zcompare_lt; lia | apply zcompare_gt; lia].
    + apply zcompare_gt. unfold P23 in *. nia.
    + apply zcompare_lt. unfold P23 in *. nia.
  - destruct (Z.compare_spec e e').
    + subst e'. rewrite pos_compare_Z. destruct (Z.compare_spec (Zpos m) (Zpos m'));
        first [apply Z.compare_eq_iff; lia | apply zcompare_lt; lia | apply zcompare_gt; lia].
    + apply zcompare_lt. unfold P23 in *. nia.
    + apply zcompare_gt. unfold P23 in *. nia.
Qed.

Lemma f_compare_key a b : f_dec a <> S754_nan -> f_dec b <> S754_nan ->
  SFcompare (f_dec a) (f_dec b) = Some (Z.compare (f_key a) (f_key b)).
Proof.
  intros Ha Hb. destruct (f_dec_fv a Ha) as (s1 & g1 & F1 & ->).
  destruct (f_dec_fv b Hb) as (s2 & g2 & F2 & ->). apply fv_compare; auto.
Qed.

(** Equal floats agree in the low bits of their pattern. *)
Lemma f_key_low a b : f_key a = f_key b -> Z.land (u32 a) 15 = Z.land (u32 b) 15.
Proof.
  unfold f_key. pose proof (u32_range a) as Ra. pose proof (u32_range b) as Rb. unfold is_u32, W31, W32 in *.
  change 15 with (Z.ones 4). rewrite !Z.land_ones by lia. change (2 ^ 4) with 16.
  destruct (Z.leb_spec 2147483648 (u32 a)), (Z.leb_spec 2147483648 (u32 b)); lia.
Qed.

(** ** Strict comparison in closed form *)

Definition zcmp (x y : Z) : Z := cmp3 (y <? x) (x =? y).

Definition strict_cmp (s : vm) (a b : value) : Z :=
  if v_type a <? v_type b then -1
  else if v_type b <? v_type a then 1
  else if v_type a =? T_NIL then 0
  else if v_type a =? T_INT then zcmp (v_int a) (v_int b)
  else if v_type a =? T_FLOAT then zcmp (f_key (v_data a)) (f_key (v_data b))
  else if v_type a =? T_STRING then
    match get_str s (v_data a), get_str s (v_data b) with
    | Some x, Some y => str_cmp x y
    | _, _ => 1
    end
  else zcmp (v_data a) (v_data b).

Ltac tag := unfold T_INT, T_FLOAT, T_STRING, T_FUNC, T_OBJ, T_NIL in *.

Lemma value_compare_strict s a b : ordinary s a -> ordinary s b ->
  value_compare a b true s = Ok (strict_cmp s a b, s).
Proof.
  intros [Da Ha] [Db Hb]. unfold value_compare, strict_cmp. cbn [andb].
  destruct (Z.ltb_spec (v_type a) (v_type b)) as [|L1]; [reflexivity|].
  destruct (Z.ltb_spec (v_type b) (v_type a)) as [|L2]; [reflexivity|].
  assert (v_type b = v_type a) as E by lia. rewrite E in *.
  destruct (Z.eqb_spec (v_type a) T_NIL) as [|NN]; [reflexivity|].
  unfold to_int, to_float, to_string. rewrite E.
  destruct (Z.eqb_spec (v_type a) T_INT) as [TI|NI]; [reflexivity|].
  destruct (Z.eqb_spec (v_type a) T_FLOAT) as [TF|NF].
  { assert (f_dec (v_data a) <> S754_nan) by (rewrite TF in Ha; tag; intuition congruence).
    assert (f_dec (v_data b) <> S754_nan) by (rewrite TF in Hb; tag; intuition congruence).
    unfold mbind, ret. unfold f_gt, f_eq. rewrite f_compare_key by auto. unfold zcmp.
    f_equal. f_equal.
    destruct (Z.compare_spec (f_key (v_data a)) (f_key (v_data b))), (Z.ltb_spec (f_key (v_data b)) (f_key (v_data a))),
      (Z.eqb_spec (f_key (v_data a)) (f_key (v_data b))); try lia; reflexivity. }
  destruct (Z.eqb_spec (v_type a) T_STRING) as [TS|NS].
  { assert (exists x, get_str s (v_data a) = Some x) as [x Ex] by (rewrite TS in Ha; tag; intuition congruence).
    assert (exists y, get_str s (v_data b) = Some y) as [y Ey] by (rewrite TS in Hb; tag; intuition congruence).
    unfold mbind, gets. rewrite Ex, Ey. reflexivity. }
  assert ((v_type a =? T_FUNC) || (v_type a =? T_OBJ) = true) as ->.
  { tag. destruct (Z.eqb_spec (v_type a) 3), (Z.eqb_spec (v_type a) 4); auto. intuition congruence. }
  rewrite Z.eqb_refl. cbn [andb]. unfold ret, zcmp, cmp3.
  destruct (Z.eqb_spec (v_data b) (v_data a)), (Z.ltb_spec (v_data a) (v_data b)), (Z.ltb_spec (v_data b) (v_data a)),
    (Z.eqb_spec (v_data a) (v_data b)); try lia; reflexivity.
Qed.

Lemma zcmp_eq x y : zcmp x y = 0 <-> x = y.
Proof. unfold zcmp, cmp3. destruct (Z.ltb_spec y x), (Z.eqb_spec x y); lia. Qed.
Lemma zcmp_anti x y : zcmp y x = - zcmp x y.
Proof. unfold zcmp, cmp3. destruct (Z.ltb_spec y x), (Z.eqb_spec x y), (Z.ltb_spec x y), (Z.eqb_spec y x); lia. Qed.
Lemma zcmp_le x y : zcmp x y <= 0 <-> x <= y.
Proof. unfold zcmp, cmp3. destruct (Z.ltb_spec y x), (Z.eqb_spec x y); lia. Qed.
Lemma zcmp_range x y : -1 <= zcmp x y <= 1.
Proof. unfold zcmp, cmp3. destruct (Z.ltb_spec y x), (Z.eqb_spec x y); lia. Qed.

Lemma get_str_text s i t : str_wf (v_strs s) (v_byhash s) -> get_str s i = Some t -> is_text t.
Proof.
  intros W. unfold get_str, get_str_entry. destruct (tab_get (v_strs s) i) eqn:E; [|discriminate].
  intro H; inversion H; subst. apply (sw_ent _ _ W _ _ E).
Qed.

Lemma ordinary_type s a : ordinary s a -> 0 <= v_type a <= 5.
Proof. intros [_ H]. tag. lia. Qed.

Ltac ord_str H E := assert (exists x, _ = Some x) as [? E] by (destruct H as [_ H]; tag; intuition eassumption || intuition congruence).

Lemma strict_cmp_refl s a : strict_cmp s a a = 0 \/ (v_type a = T_STRING /\ get_str s (v_data a) = None).
Proof.
  unfold strict_cmp. rewrite Z.ltb_irrefl. 
  destruct (v_type a =? T_NIL); auto.
  destruct (v_type a =? T_INT); [left; apply zcmp_eq; auto|].
  destruct (v_type a =? T_FLOAT); [left; apply zcmp_eq; auto|].
  destruct (Z.eqb_spec (v_type a) T_STRING) as [E|]; [|left; apply zcmp_eq; auto].
  destruct (get_str s (v_data a)); [left; apply str_cmp_refl|right; auto].
Qed.

Lemma ordinary_str s a : ordinary s a -> v_type a = T_STRING -> exists t, get_str s (v_data a) = Some t.
Proof. intros [_ H] E. tag. rewrite E in H. intuition congruence. Qed.

Lemma strict_cmp_anti s a b : str_wf (v_strs s) (v_byhash s) -> ordinary s a -> ordinary s b ->
  strict_cmp s b a = - strict_cmp s a b.
Proof.
  intros W Ha Hb. unfold strict_cmp.
  destruct (Z.ltb_spec (v_type a) (v_type b)), (Z.ltb_spec (v_type b) (v_type a)); try lia.
  assert (v_type b = v_type a) as E by lia. rewrite E.
  destruct (v_type a =? T_NIL); auto.
  destruct (v_type a =? T_INT); [apply zcmp_anti|].
  destruct (v_type a =? T_FLOAT); [apply zcmp_anti|].
  destruct (Z.eqb_spec (v_type a) T_STRING) as [TS|]; [|apply zcmp_anti].
  destruct (ordinary_str s a Ha TS) as [x Ex]. destruct (ordinary_str s b Hb) as [y Ey]; [congruence|].
  rewrite Ex, Ey. apply str_cmp_anti; eapply get_str_text; eauto.
Qed.

Lemma strict_cmp_trans s a b c : str_wf (v_strs s) (v_byhash s) -> ordinary s a -> ordinary s b -> ordinary s c ->
  strict_cmp s a b <= 0 -> strict_cmp s b c <= 0 -> strict_cmp s a c <= 0.
Proof.
  intros W Ha Hb Hc. unfold strict_cmp.
  destruct (Z.ltb_spec (v_type a) (v_type b)), (Z.ltb_spec (v_type b) (v_type a)),
    (Z.ltb_spec (v_type b) (v_type c)), (Z.ltb_spec (v_type c) (v_type b)),
    (Z.ltb_spec (v_type a) (v_type c)), (Z.ltb_spec (v_type c) (v_type a)); try lia.
  assert (v_type b = v_type a) as E by lia. assert (v_type c = v_type a) as E' by lia. rewrite E.
  destruct (v_type a =? T_NIL); auto.
  destruct (v_type a =? T_INT); [rewrite !zcmp_le; lia|].
  destruct (v_type a =? T_FLOAT); [rewrite !zcmp_le; lia|].
  destruct (Z.eqb_spec (v_type a) T_STRING) as [TS|]; [|rewrite !zcmp_le; lia].
  destruct (ordinary_str s a Ha TS) as [x Ex]. destruct (ordinary_str s b Hb) as [y Ey]; [congruence|].
  destruct (ordinary_str s c Hc) as [z Ez]; [congruence|].
  rewrite Ex, Ey, Ez. apply str_cmp_trans; eapply get_str_text; eauto.
Qed.

Lemma strict_cmp_same s a b : str_wf (v_strs s) (v_byhash s) -> ordinary s a -> ordinary s b ->
  (strict_cmp s a b = 0 <-> same_value s a b).
Proof.
  intros W Ha Hb. unfold strict_cmp, same_value.
  destruct (Z.ltb_spec (v_type a) (v_type b)); [split; [discriminate|lia]|].
  destruct (Z.ltb_spec (v_type b) (v_type a)); [split; [discriminate|lia]|].
  assert (v_type b = v_type a) as E by lia. rewrite E.
  destruct (Z.eqb_spec (v_type a) T_NIL) as [T|N1].
  { rewrite T. tag. split; auto. intros _. sp; congruence. }
  destruct (Z.eqb_spec (v_type a) T_INT) as [T|N2].
  { rewrite T. tag. rewrite zcmp_eq. split; [intro; sp; congruence|]. intros (_ & H' & _). apply H'. reflexivity. }
  destruct (Z.eqb_spec (v_type a) T_FLOAT) as [T|N3].
  { assert (f_dec (v_data a) <> S754_nan) by (destruct Ha as [_ Ha]; rewrite T in Ha; tag; intuition congruence).
    assert (f_dec (v_data b) <> S754_nan) by (destruct Hb as [_ Hb]; rewrite E, T in Hb; tag; intuition congruence).
    rewrite f_compare_key by auto. rewrite T. tag. rewrite zcmp_eq. split.
    - intro K. sp; try congruence. intros _. f_equal. apply Z.compare_eq_iff. exact K.
    - intros (_ & _ & H' & _). specialize (H' eq_refl). inversion H'. apply Z.compare_eq_iff. auto. }
  destruct (Z.eqb_spec (v_type a) T_STRING) as [T|N4].
  { destruct (ordinary_str s a Ha T) as [x Ex]. destruct (ordinary_str s b Hb) as [y Ey]; [congruence|].
    rewrite Ex, Ey. rewrite str_cmp_eq by (eapply get_str_text; eauto). rewrite T. tag. split.
    - intros ->. sp; try congruence. intros _. exists y. auto.
    - intros (_ & _ & _ & H' & _). destruct (H' eq_refl) as (t & A & B). congruence. }
  rewrite zcmp_eq. split.
  - intro. sp; congruence.
  - destruct Ha as [_ Ha]. intros (_ & _ & _ & _ & F & O). tag. intuition congruence.
Qed.

(** ** Hashing *)

Lemma value_hash_same s a b : str_wf (v_strs s) (v_byhash s) -> ordinary s a -> ordinary s b ->
  same_value s a b -> Z.land (value_hash s a) 15 = Z.land (value_hash s b) 15.
Proof.
  intros W Ha Hb H. pose proof (proj2 (strict_cmp_same s a b W Ha Hb) H) as C.
  destruct H as (E & HI & _ & HS & HF & HO). unfold value_hash. rewrite <- E.
  destruct Ha as [Da Ta], Hb as [Db Tb].
  destruct (Z.eqb_spec (v_type a) T_INT) as [T|N1].
  { cbn [orb]. f_equal. specialize (HI T). unfold v_int in HI.
    rewrite <- (u32_id (v_data a)), <- (u32_id (v_data b)) by auto. rewrite <- (u32_s32 (v_data a)), <- (u32_s32 (v_data b)). congruence. }
  destruct (Z.eqb_spec (v_type a) T_FLOAT) as [T|N2].
  { cbn [orb]. rewrite <- (u32_id (v_data a)), <- (u32_id (v_data b)) by assumption. apply f_key_low.
    unfold strict_cmp in C. rewrite <- E, Z.ltb_irrefl, T in C. tag.
    change (1 =? 5) with false in C. change (1 =? 0) with false in C. rewrite Z.eqb_refl in C. exact (proj1 (zcmp_eq _ _) C). }
  destruct (Z.eqb_spec (v_type a) T_FUNC) as [T|N3].
  { cbn [orb]. f_equal. auto. }
  destruct (Z.eqb_spec (v_type a) T_OBJ) as [T|N4].
  { cbn [orb]. f_equal. auto. }
  cbn [orb]. destruct (Z.eqb_spec (v_type a) T_STRING) as [T|N5]; [|reflexivity].
  destruct (HS T) as (t & A & B). f_equal. unfold get_str in A, B.
  destruct (get_str_entry s (v_data a)) as [e|] eqn:Ea; [|discriminate].
  destruct (get_str_entry s (v_data b)) as [f|] eqn:Eb; [|discriminate].
  destruct (sw_ent _ _ W _ _ Ea) as (_ & X & _). destruct (sw_ent _ _ W _ _ Eb) as (_ & Y & _). congruence.
Qed.
