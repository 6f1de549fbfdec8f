(** * Facts about the shared vocabulary *)
From Verif Require Import Base.
Ltac Zify.zify_post_hook ::= Z.div_mod_to_equations.

(** Split conjunctions only (never records). *)
Ltac sp := repeat match goal with |- _ /\ _ => split end.

Lemma u32_range z : is_u32 (u32 z).
Proof. unfold is_u32, u32, W32. lia. Qed.

Lemma u32_id z : is_u32 z -> u32 z = z.
Proof. unfold is_u32, u32, W32. intros H. apply Z.mod_small. lia. Qed.

Lemma s32_range z : is_s32 (s32 z).
Proof.
  unfold is_s32, s32, u32, W31, W32.
  destruct (Z.ltb_spec (z mod 4294967296) 2147483648); lia.
Qed.

Lemma s32_id z : is_s32 z -> s32 z = z.
Proof.
  unfold is_s32, s32, u32, W31, W32. intros H.
  destruct (Z.ltb_spec (z mod 4294967296) 2147483648); lia.
Qed.

Lemma s32_u32 z : is_s32 z -> s32 (u32 z) = z.
Proof.
  unfold is_s32, s32, u32, W31, W32. intros H.
  destruct (Z.ltb_spec ((z mod 4294967296) mod 4294967296) 2147483648); lia.
Qed.

Lemma u32_s32 z : u32 (s32 z) = u32 z.
Proof.
  unfold s32, u32, W31, W32.
  destruct (Z.ltb_spec (z mod 4294967296) 2147483648); lia.
Qed.

Lemma in_s32_spec z : in_s32 z = true <-> is_s32 z.
Proof. unfold in_s32, is_s32. lia. Qed.

Lemma bytes_eqb_refl a : bytes_eqb a a = true.
Proof. induction a as [|x a IH]; cbn; [reflexivity|]. rewrite Z.eqb_refl. exact IH. Qed.

Lemma bytes_eqb_eq a b : bytes_eqb a b = true <-> a = b.
Proof.
  split.
  - revert b. induction a as [|x a IH]; intros [|y b]; cbn; try congruence.
    intros H. apply andb_prop in H as [H1 H2]. apply Z.eqb_eq in H1.
    f_equal; auto.
  - intros ->. apply bytes_eqb_refl.
Qed.

Lemma bytes_eqb_neq a b : bytes_eqb a b = false <-> a <> b.
Proof.
  rewrite <- bytes_eqb_eq. destruct (bytes_eqb a b); intuition congruence.
Qed.

Lemma bytes_eqb_sym a b : bytes_eqb a b = bytes_eqb b a.
Proof.
  destruct (bytes_eqb a b) eqn:E.
  - apply bytes_eqb_eq in E. subst. symmetry. apply bytes_eqb_refl.
  - destruct (bytes_eqb b a) eqn:E2; [|reflexivity].
    apply bytes_eqb_eq in E2. subst. rewrite bytes_eqb_refl in E. discriminate.
Qed.

Lemma upd_length {A} (l : list A) n x : length (upd l n x) = length l.
Proof. revert n. induction l as [|a l IH]; intros [|n]; cbn; auto. Qed.

Lemma zupd_length {A} (l : list A) i x : length (zupd l i x) = length l.
Proof. unfold zupd. destruct (i <? 0); [reflexivity|apply upd_length]. Qed.

Lemma zlen_zupd {A} (l : list A) i x : zlen (zupd l i x) = zlen l.
Proof. unfold zlen. rewrite zupd_length. reflexivity. Qed.

Lemma nth_upd_same {A} (l : list A) n x :
  (n < length l)%nat -> nth_error (upd l n x) n = Some x.
Proof.
  revert n. induction l as [|a l IH]; intros [|n]; cbn; intros H; try lia; auto.
  apply IH. lia.
Qed.

Lemma nth_upd_other {A} (l : list A) n m x :
  n <> m -> nth_error (upd l n x) m = nth_error l m.
Proof.
  revert n m. induction l as [|a l IH]; intros [|n] [|m]; cbn; intros H; try congruence; auto.
Qed.

Lemma znth_def {A} (l : list A) i : znth l i = if i <? 0 then None else nth_error l (Z.to_nat i).
Proof.
  unfold znth, zlen. destruct (Z.ltb_spec i 0); [reflexivity|]. cbn [orb].
  destruct (Z.leb_spec (Z.of_nat (length l)) i); [|reflexivity].
  symmetry. apply nth_error_None. lia.
Qed.

Lemma znth_some_range {A} (l : list A) i a :
  znth l i = Some a -> 0 <= i < zlen l.
Proof.
  rewrite ?znth_def; unfold zlen. destruct (Z.ltb_spec i 0); [discriminate|].
  intros E. assert (nth_error l (Z.to_nat i) <> None) by congruence.
  apply nth_error_Some in H0. lia.
Qed.

Lemma znth_none_range {A} (l : list A) i :
  znth l i = None -> i < 0 \/ zlen l <= i.
Proof.
  rewrite ?znth_def; unfold zlen. destruct (Z.ltb_spec i 0); [lia|].
  intros E. apply nth_error_None in E. lia.
Qed.

Lemma znth_in_range {A} (l : list A) i :
  0 <= i < zlen l -> exists a, znth l i = Some a.
Proof.
  intros H. destruct (znth l i) eqn:E; [eauto|].
  apply znth_none_range in E. lia.
Qed.

Lemma znth_out {A} (l : list A) i :
  i < 0 \/ zlen l <= i -> znth l i = None.
Proof.
  intros H. destruct (znth l i) eqn:E; [|reflexivity].
  apply znth_some_range in E. lia.
Qed.

Lemma znth_zupd_same {A} (l : list A) i x :
  0 <= i < zlen l -> znth (zupd l i x) i = Some x.
Proof.
  rewrite ?znth_def; unfold zupd, zlen. intros H. destruct (Z.ltb_spec i 0); [lia|].
  apply nth_upd_same. lia.
Qed.

Lemma znth_zupd_other {A} (l : list A) i j x :
  i <> j -> znth (zupd l i x) j = znth l j.
Proof.
  rewrite ?znth_def; unfold zupd. intros H.
  destruct (Z.ltb_spec j 0); [reflexivity|].
  destruct (Z.ltb_spec i 0); [reflexivity|].
  apply nth_upd_other. lia.
Qed.

Lemma znth_zupd {A} (l : list A) i j x :
  znth (zupd l i x) j =
  if (i =? j) && (0 <=? i) && (i <? zlen l) then Some x else znth l j.
Proof.
  destruct (Z.eqb_spec i j) as [->|Hne].
  - destruct ((0 <=? j) && (j <? zlen l)) eqn:E; cbn [andb].
    + rewrite E. apply znth_zupd_same. lia.
    + rewrite E. unfold zupd. destruct (Z.ltb_spec j 0); [reflexivity|].
      rewrite !znth_out; [reflexivity|lia|].
      unfold zlen. rewrite upd_length. unfold zlen in *. lia.
  - cbn [andb]. apply znth_zupd_other. exact Hne.
Qed.

Lemma znth_app_l {A} (l r : list A) i :
  i < zlen l -> znth (l ++ r) i = znth l i.
Proof.
  rewrite ?znth_def; unfold zlen. intros H. destruct (Z.ltb_spec i 0); [reflexivity|].
  apply nth_error_app1. lia.
Qed.

Lemma znth_app_r {A} (l r : list A) i :
  zlen l <= i -> znth (l ++ r) i = znth r (i - zlen l).
Proof.
  rewrite ?znth_def; unfold zlen. intros H. destruct (Z.ltb_spec i 0); [lia|].
  destruct (Z.ltb_spec (i - Z.of_nat (length l)) 0); [lia|].
  rewrite nth_error_app2 by lia. f_equal. lia.
Qed.

Lemma zlen_app {A} (l r : list A) : zlen (l ++ r) = zlen l + zlen r.
Proof. unfold zlen. rewrite app_length. lia. Qed.

Lemma zlen_nonneg {A} (l : list A) : 0 <= zlen l.
Proof. unfold zlen. lia. Qed.

Lemma zlen_cons {A} (a : A) l : zlen (a :: l) = zlen l + 1.
Proof. unfold zlen. cbn [length]. lia. Qed.

Lemma zlen_nil {A} : zlen (@nil A) = 0.
Proof. reflexivity. Qed.

Lemma zlen_repeat {A} (a : A) n : zlen (repeat a n) = Z.of_nat n.
Proof. unfold zlen. rewrite repeat_length. reflexivity. Qed.

Lemma znth_repeat {A} (a : A) n i :
  0 <= i < Z.of_nat n -> znth (repeat a n) i = Some a.
Proof.
  intros H. rewrite ?znth_def. destruct (Z.ltb_spec i 0); [lia|].
  apply nth_error_repeat. lia.
Qed.

Lemma znth_cons_0 {A} (a : A) l : znth (a :: l) 0 = Some a.
Proof. reflexivity. Qed.

Lemma znth_cons_S {A} (a : A) l i : 0 < i -> znth (a :: l) i = znth l (i - 1).
Proof.
  intros H. rewrite ?znth_def. destruct (Z.ltb_spec i 0); [lia|].
  destruct (Z.ltb_spec (i - 1) 0); [lia|].
  replace (Z.to_nat i) with (S (Z.to_nat (i - 1))) by lia. reflexivity.
Qed.

Lemma zupd_out {A} (l : list A) i x : i < 0 \/ zlen l <= i -> zupd l i x = l.
Proof.
  unfold zupd, zlen. intros H. destruct (Z.ltb_spec i 0); [reflexivity|].
  assert (G : forall (l : list A) n, (length l <= n)%nat -> upd l n x = l).
  { clear. induction l as [|a l IH]; intros [|n]; cbn; intros H; try lia; auto.
    f_equal. apply IH. lia. }
  apply G. lia.
Qed.

Lemma list_ext_znth {A} (l r : list A) :
  (forall i, znth l i = znth r i) -> l = r.
Proof.
  revert r. induction l as [|a l IH]; intros [|b r] H; auto.
  - specialize (H 0). discriminate.
  - specialize (H 0). discriminate.
  - pose proof (H 0) as H0. cbn in H0. injection H0 as ->. f_equal.
    apply IH. intros i. destruct (Z.ltb_spec i 0).
    + rewrite !znth_out by lia. reflexivity.
    + specialize (H (i + 1)). rewrite !znth_cons_S in H by lia.
      replace (i + 1 - 1) with i in H by lia. exact H.
Qed.

Lemma In_znth {A} (l : list A) a : In a l <-> exists i, znth l i = Some a.
Proof.
  split.
  - intros H. apply In_nth_error in H as [n Hn]. exists (Z.of_nat n).
    rewrite ?znth_def. destruct (Z.ltb_spec (Z.of_nat n) 0); [lia|].
    rewrite Nat2Z.id. exact Hn.
  - intros [i Hi]. rewrite znth_def in Hi. destruct (i <? 0); [discriminate|].
    eapply nth_error_In. exact Hi.
Qed.

Lemma zseq_length lo n : length (zseq lo n) = n.
Proof. revert lo. induction n as [|n IH]; intros lo; cbn; auto. Qed.

Lemma In_zseq lo n x : In x (zseq lo n) <-> lo <= x < lo + Z.of_nat n.
Proof.
  revert lo. induction n as [|n IH]; intros lo; cbn [zseq In].
  - lia.
  - rewrite IH. lia.
Qed.

Lemma NoDup_zseq lo n : NoDup (zseq lo n).
Proof.
  revert lo. induction n as [|n IH]; intros lo; cbn [zseq]; constructor; auto.
  rewrite In_zseq. lia.
Qed.

Lemma rd_ok {A} (l : list A) i : 0 <= i < zlen l -> exists a, rd l i = Ok a.
Proof.
  intros H. destruct (znth_in_range l i H) as [a Ha]. exists a. unfold rd. rewrite Ha. reflexivity.
Qed.

Lemma wr_ok {A} (l : list A) i x : 0 <= i < zlen l -> wr l i x = Ok (zupd l i x).
Proof.
  intros H. destruct (znth_in_range l i H) as [a Ha]. unfold wr. rewrite Ha. reflexivity.
Qed.

Lemma bind_ok {A B} (x : res A) (f : A -> res B) b :
  bind x f = Ok b -> exists a, x = Ok a /\ f a = Ok b.
Proof. destruct x; cbn; intros H; [eauto|discriminate]. Qed.
