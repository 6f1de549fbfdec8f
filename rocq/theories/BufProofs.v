(** * BufProofs: proofs for C71 *)
From Coq Require Import ZArith List Lia Bool.
From Verif Require Import Base BaseFacts BufModel BufSpec.
Import ListNotations.
Open Scope Z_scope.

Lemma zlen_length {A} (l : list A) : zlen l = Z.of_nat (length l).
Proof. reflexivity. Qed.
Lemma znth_at (p r : list Z) c i : i = zlen p -> znth (p ++ c :: r) i = Some c.
Proof. intros ->. rewrite znth_app_r by lia. rewrite Z.sub_diag. apply znth_cons_0. Qed.
Lemma rd_at (p r : list Z) c i : i = zlen p -> rd (p ++ c :: r) i = Ok c.
Proof. intro H. unfold rd. rewrite znth_at by exact H. reflexivity. Qed.
Lemma wr_at (p r : list Z) c d i : i = zlen p -> wr (p ++ c :: r) i d = Ok (p ++ d :: r).
Proof.
  intro H. unfold wr. rewrite znth_at by exact H. f_equal. unfold zupd. pose proof (zlen_nonneg p).
  destruct (Z.ltb_spec i 0); [lia|]. subst i. rewrite zlen_length, Nat2Z.id. clear.
  induction p as [|a p IH]; cbn; [reflexivity|]. rewrite IH. reflexivity.
Qed.
Lemma wr_past (b : list Z) d i : zlen b <= i -> wr b i d = Ub UbOob.
Proof. intro H. unfold wr. destruct (znth b i) eqn:E; [|reflexivity]. apply znth_some_range in E. lia. Qed.

Lemma plain_inv c t : plain (c :: t) -> c <> 0 /\ 0 < c < 256 /\ plain t.
Proof. intro H. inversion H; subst. split; [lia|]. split; assumption. Qed.
Lemma plain_app a b : plain (a ++ b) <-> plain a /\ plain b.
Proof. apply Forall_app. Qed.

Ltac zl := rewrite ?zlen_app, ?zlen_cons, ?zlen_nil in *.
Ltac tail t := (* t1 ++ c :: t ++ .. as (t1 ++ [c]) ++ t ++ .. *)
  change (cons t) with (app [t]); rewrite ?app_assoc.

Lemma strlen_loop_run t2 : forall fuel t1 rest, plain t2 -> (length t2 < fuel)%nat -> zlen t1 <= MAX32 - 1 ->
  strlen_loop fuel (t1 ++ t2 ++ 0 :: rest) (zlen t1) = Ok (Z.min (zlen t1 + zlen t2) (MAX32 - 1)).
Proof.
  induction t2 as [|c t2 IH]; intros [|f] t1 rest P L M; cbn [length] in L; try lia; cbn [strlen_loop app].
  - rewrite (rd_at t1) by reflexivity. cbn [bind]. change (0 =? 0) with true. cbv iota. f_equal. zl. lia.
  - destruct (plain_inv _ _ P) as (N & _ & P2). rewrite (rd_at t1) by reflexivity. cbn [bind].
    destruct (Z.eqb_spec c 0); [contradiction|]. pose proof (zlen_nonneg t2).
    destruct (Z.eqb_spec (zlen t1) (MAX32 - 1)) as [E|E]; [f_equal; zl; lia|].
    replace (t1 ++ c :: t2 ++ 0 :: rest) with ((t1 ++ [c]) ++ t2 ++ 0 :: rest) by (rewrite <- app_assoc; reflexivity).
    replace (zlen t1 + 1) with (zlen (t1 ++ [c])) by (zl; lia).
    rewrite IH; [f_equal; zl; lia|exact P2|lia|zl; lia].
Qed.

Lemma strlen_run b t : holds b t -> strlen b = Ok (Z.min (zlen t) (MAX32 - 1)).
Proof.
  intros (P & rest & ->). unfold strlen.
  change (t ++ 0 :: rest) with ([] ++ t ++ 0 :: rest) at 2. change 0 with (zlen (@nil Z)) at 2.
  rewrite strlen_loop_run; [reflexivity|exact P|rewrite app_length; cbn; lia|zl; unfold MAX32; lia].
Qed.
Lemma strlen_short b t : holds b t -> zlen t < MAX32 -> strlen b = Ok (zlen t).
Proof. intros H L. rewrite (strlen_run _ _ H). f_equal. lia. Qed.

(** Copying [u] when [v] is what is left out. *)
Lemma strcpy_loop_run u : forall fuel t1 v r p old rest len,
  plain (u ++ v) -> (length u < fuel)%nat -> zlen p = zlen t1 -> length old = S (length u) ->
  zlen t1 + zlen u + zlen v < MAX32 ->
  (v = [] /\ zlen t1 + zlen u <= len \/ v <> [] /\ zlen t1 + zlen u = len) ->
  strcpy_loop fuel (p ++ old ++ rest) (t1 ++ (u ++ v) ++ 0 :: r) len (zlen t1) = Ok (p ++ u ++ 0 :: rest).
Proof.
  induction u as [|c u IH]; intros [|f] t1 v r p old rest len P L Zp Lo M C; cbn [length] in L, Lo; try lia; cbn [strcpy_loop app].
  - destruct old as [|o old]; [discriminate Lo|]. destruct old; [|discriminate Lo]. cbn [app].
    destruct v as [|d v].
    + cbn [app]. rewrite (rd_at t1) by reflexivity. cbn [bind]. change (0 =? 0) with true. cbv iota.
      apply wr_at. lia.
    + cbn [app] in *. destruct (plain_inv _ _ P) as (N & _). rewrite (rd_at t1) by reflexivity. cbn [bind].
      destruct (Z.eqb_spec d 0); [contradiction|]. destruct C as [(C & _)|(_ & C)]; [discriminate C|]. zl.
      destruct (Z.leb_spec len (zlen t1)); [|lia]. apply wr_at. lia.
  - destruct old as [|o old]; [discriminate Lo|]. cbn [length] in Lo. cbn [app] in *. destruct (plain_inv _ _ P) as (N & _ & P2).
    rewrite (rd_at t1) by reflexivity. cbn [bind]. destruct (Z.eqb_spec c 0); [contradiction|].
    pose proof (zlen_nonneg u). pose proof (zlen_nonneg v). zl.
    destruct (Z.leb_spec len (zlen t1)); [destruct C as [(_ & C)|(_ & C)]; lia|].
    rewrite (wr_at p) by lia. cbn [bind]. destruct (Z.eqb_spec (zlen t1 + 1) MAX32); [lia|].
    replace (p ++ c :: old ++ rest) with ((p ++ [c]) ++ old ++ rest) by (rewrite <- app_assoc; reflexivity).
    replace (t1 ++ c :: (u ++ v) ++ 0 :: r) with ((t1 ++ [c]) ++ (u ++ v) ++ 0 :: r) by (rewrite <- app_assoc; reflexivity).
    replace (zlen t1 + 1) with (zlen (t1 ++ [c])) by (zl; lia).
    rewrite IH; [rewrite <- app_assoc; reflexivity|exact P2|lia|zl; lia|lia|zl; lia|].
    destruct C as [(C1 & C2)|(C1 & C2)]; [left|right]; (split; [exact C1|zl; lia]).
Qed.

Lemma split_at {A} (l : list A) n : 0 <= n <= zlen l -> exists a b, l = a ++ b /\ zlen a = n.
Proof.
  intro H. exists (firstn (Z.to_nat n) l), (skipn (Z.to_nat n) l). split; [symmetry; apply firstn_skipn|].
  rewrite zlen_length, firstn_length. rewrite zlen_length in H. lia.
Qed.

Lemma strcpy_s_run dst src t len : holds src t -> zlen t < MAX32 -> 0 <= len -> Z.min (zlen t) len < zlen dst ->
  exists u v dst', t = u ++ v /\ zlen u = Z.min (zlen t) len /\ strcpy_s dst src len = Ok dst' /\ overwritten dst u dst'.
Proof.
  intros (P & r & ->) M Pl F. pose proof (zlen_nonneg t).
  destruct (split_at t (Z.min (zlen t) len)) as (u & v & -> & Zu); [lia|].
  destruct (split_at dst (zlen u + 1)) as (old & rest & -> & Zo); [lia|].
  exists u, v, (u ++ 0 :: rest). split; [reflexivity|]. split; [exact Zu|]. pose proof (zlen_nonneg v).
  split.
  - unfold strcpy_s. change (old ++ rest) with ([] ++ old ++ rest).
    change ((u ++ v) ++ 0 :: r) with ([] ++ (u ++ v) ++ 0 :: r) at 2. change 0 with (zlen (@nil Z)) at 2.
    zl. rewrite strcpy_loop_run; [reflexivity|exact P|rewrite !app_length; cbn; lia|reflexivity| |zl; lia|].
    + rewrite !zlen_length in Zo. lia.
    + destruct v as [|c v]; [left; split; [reflexivity|zl; lia]|right; split; [discriminate|zl; pose proof (zlen_nonneg v); lia]].
  - exists old, rest. split; [rewrite !zlen_length in Zo; lia|]. split; reflexivity.
Qed.

Lemma strcpy_loop_past u : forall fuel t1 v r p len,
  plain (u ++ v) -> (length u < fuel)%nat -> zlen p = zlen t1 + zlen u ->
  (exists q, p = q) -> zlen t1 + zlen u + zlen v < MAX32 -> zlen t1 + zlen u <= len -> zlen p <= zlen t1 + zlen u ->
  strcpy_loop fuel p (t1 ++ (u ++ v) ++ 0 :: r) len (zlen t1) = Ub UbOob.
Proof.
  induction u as [|c u IH]; intros [|f] t1 v r p len P L Zp _ M C Sm; cbn [length] in L; try lia; cbn [strcpy_loop app].
  - assert (W : forall d, wr p (zlen t1) d = Ub UbOob) by (intro d; apply wr_past; zl; lia).
    destruct v as [|d v]; cbn [app]; rewrite (rd_at t1) by reflexivity; cbn [bind];
    [change (0 =? 0) with true; cbv iota; apply W|].
    destruct (d =? 0); [apply W|]. destruct (len <=? zlen t1); [apply W|]. rewrite W. reflexivity.
  - cbn [app] in P. destruct (plain_inv _ _ P) as (N & _ & P2). rewrite (rd_at t1) by reflexivity. cbn [bind].
    destruct (Z.eqb_spec c 0); [contradiction|]. pose proof (zlen_nonneg u). pose proof (zlen_nonneg v). pose proof (zlen_nonneg t1). zl.
    destruct (Z.leb_spec len (zlen t1)); [lia|].
    destruct (split_at p (zlen t1)) as (a & b & -> & Za); [lia|]. zl.
    destruct b as [|o b]; [zl; lia|]. zl. rewrite (wr_at a) by lia. cbn [bind].
    destruct (Z.eqb_spec (zlen t1 + 1) MAX32); [lia|].
    replace (t1 ++ c :: (u ++ v) ++ 0 :: r) with ((t1 ++ [c]) ++ (u ++ v) ++ 0 :: r) by (rewrite <- app_assoc; reflexivity).
    replace (zlen t1 + 1) with (zlen (t1 ++ [c])) by (zl; lia).
    apply IH; [exact P2|lia|zl; lia|eauto|zl; lia|zl; lia|zl; lia].
Qed.

Lemma strcpy_s_past dst src t len : holds src t -> zlen t < MAX32 -> zlen dst <= Z.min (zlen t) len ->
  strcpy_s dst src len = Ub UbOob.
Proof.
  intros (P & r & ->) M F. pose proof (zlen_nonneg dst).
  destruct (split_at t (zlen dst)) as (u & v & -> & Zu); [lia|]. unfold strcpy_s.
  change ((u ++ v) ++ 0 :: r) with ([] ++ (u ++ v) ++ 0 :: r) at 2. change 0 with (zlen (@nil Z)) at 2.
  zl. apply strcpy_loop_past; [exact P|rewrite !app_length; cbn; lia|zl; lia|eauto|zl; lia|zl; lia|zl; lia].
Qed.

Lemma strcat_loop_run t2 : forall fuel t1 r p old rest start,
  plain t2 -> (length t2 < fuel)%nat -> zlen p = start + zlen t1 -> length old = S (length t2) ->
  start + zlen t1 + zlen t2 <= MAX32 ->
  strcat_loop fuel (p ++ old ++ rest) (t1 ++ t2 ++ 0 :: r) start (start + zlen t1) = Ok (p ++ t2 ++ 0 :: rest).
Proof.
  induction t2 as [|c u IH]; intros [|f] t1 r p old rest start P L Zp Lo M; cbn [length] in L, Lo; try lia; cbn [strcat_loop app].
  - destruct old as [|o old]; [discriminate Lo|]. destruct old; [|discriminate Lo]. cbn [app].
    rewrite (rd_at t1) by lia. cbn [bind]. change (0 =? 0) with true. cbv iota. apply wr_at. lia.
  - destruct old as [|o old]; [discriminate Lo|]. cbn [length] in Lo. cbn [app]. destruct (plain_inv _ _ P) as (N & _ & P2).
    rewrite (rd_at t1) by lia. cbn [bind]. destruct (Z.eqb_spec c 0); [contradiction|]. pose proof (zlen_nonneg u). zl.
    destruct (Z.eqb_spec (start + zlen t1) MAX32); [lia|].
    rewrite (wr_at p) by lia. cbn [bind].
    replace (p ++ c :: old ++ rest) with ((p ++ [c]) ++ old ++ rest) by (rewrite <- app_assoc; reflexivity).
    replace (t1 ++ c :: u ++ 0 :: r) with ((t1 ++ [c]) ++ u ++ 0 :: r) by (rewrite <- app_assoc; reflexivity).
    replace (start + zlen t1 + 1) with (start + zlen (t1 ++ [c])) by (zl; lia).
    rewrite IH; [rewrite <- app_assoc; reflexivity|exact P2|lia|zl; lia|lia|zl; lia].
Qed.

Lemma strcat_run a rest src t : plain a -> holds src t -> zlen a + zlen t < MAX32 -> zlen t <= zlen rest ->
  strcat (a ++ 0 :: rest) src = Ok (a ++ t ++ 0 :: skipn (length t) rest).
Proof.
  intros Pa (P & r & ->) M F. unfold strcat. pose proof (zlen_nonneg t).
  rewrite (strlen_short _ a); [|split; [exact Pa|eauto]|lia]. cbn [bind].
  destruct (split_at rest (zlen t)) as (b & r' & -> & Zb); [lia|].
  assert (Lb : length b = length t) by (rewrite !zlen_length in Zb; lia).
  rewrite <- Lb, skipn_app, skipn_all, Nat.sub_diag. cbn [app skipn].
  change (a ++ 0 :: b ++ r') with (a ++ (0 :: b) ++ r').
  replace (zlen a) with (zlen a + zlen (@nil Z)) at 2 by (zl; lia).
  change (t ++ 0 :: r) with ([] ++ t ++ 0 :: r) at 2.
  rewrite strcat_loop_run; [reflexivity|exact P|rewrite app_length; cbn; lia|zl; lia|cbn; lia|zl; lia].
Qed.

(** ** Blocks of bytes *)
Lemma memset_loop_run n : forall p old rest c, length old = n ->
  memset_loop n (p ++ old ++ rest) c (zlen p) = Ok (p ++ repeat (c mod 256) n ++ rest).
Proof.
  induction n as [|n IH]; intros p [|o old] rest c L; try discriminate L; cbn [memset_loop repeat app]; [reflexivity|].
  rewrite (wr_at p) by reflexivity. cbn [bind].
  replace (p ++ c mod 256 :: old ++ rest) with ((p ++ [c mod 256]) ++ old ++ rest) by (rewrite <- app_assoc; reflexivity).
  replace (zlen p + 1) with (zlen (p ++ [c mod 256])) by (zl; lia).
  rewrite IH by (injection L as L; exact L). rewrite <- app_assoc. reflexivity.
Qed.
Lemma memset_run p c len : 0 <= len <= zlen p ->
  memset p c len = Ok (repeat (c mod 256) (Z.to_nat len) ++ skipn (Z.to_nat len) p).
Proof.
  intro H. destruct (split_at p len H) as (a & b & -> & Za). unfold memset.
  assert (La : length a = Z.to_nat len) by (rewrite zlen_length in Za; lia).
  rewrite <- La, skipn_app, skipn_all, Nat.sub_diag. cbn [app skipn].
  exact (memset_loop_run (length a) [] a b c eq_refl).
Qed.

Lemma memcpy_loop_run u : forall p t1 old rest r, length old = length u -> zlen p = zlen t1 ->
  memcpy_loop (length u) (p ++ old ++ rest) (t1 ++ u ++ r) (zlen t1) = Ok (p ++ u ++ rest).
Proof.
  induction u as [|c u IH]; intros p t1 [|o old] rest r L E; try discriminate L; cbn [memcpy_loop length app]; [reflexivity|].
  rewrite (rd_at t1) by reflexivity. cbn [bind]. rewrite (wr_at p) by lia. cbn [bind].
  replace (p ++ c :: old ++ rest) with ((p ++ [c]) ++ old ++ rest) by (rewrite <- app_assoc; reflexivity).
  replace (t1 ++ c :: u ++ r) with ((t1 ++ [c]) ++ u ++ r) by (rewrite <- app_assoc; reflexivity).
  replace (zlen t1 + 1) with (zlen (t1 ++ [c])) by (zl; lia).
  rewrite IH; [rewrite <- app_assoc; reflexivity|injection L as L; exact L|zl; lia].
Qed.
Lemma memcpy_run dst src len : 0 <= len <= zlen dst -> len <= zlen src ->
  memcpy dst src len = Ok (firstn (Z.to_nat len) src ++ skipn (Z.to_nat len) dst).
Proof.
  intros H H2. destruct (split_at dst len H) as (a & b & -> & Za). destruct (split_at src len) as (u & r & -> & Zu); [lia|].
  unfold memcpy.
  assert (La : length a = Z.to_nat len) by (rewrite zlen_length in Za; lia).
  assert (Lu : length u = Z.to_nat len) by (rewrite zlen_length in Zu; lia).
  rewrite <- La at 3. rewrite skipn_app, skipn_all, Nat.sub_diag. cbn [app skipn].
  rewrite <- Lu. rewrite firstn_app, firstn_all, Nat.sub_diag. cbn [firstn]. rewrite app_nil_r.
  refine (memcpy_loop_run u [] [] a b r _ eq_refl). lia.
Qed.

Lemma memcmp_loop_run u : forall v t1 t2 r1 r2, length u = length v -> zlen t1 = zlen t2 ->
  memcmp_loop (length u) (t1 ++ u ++ r1) (t2 ++ v ++ r2) (zlen t1) = Ok (order u v).
Proof.
  induction u as [|x u IH]; intros [|y v] t1 t2 r1 r2 L E; try discriminate L; cbn [memcmp_loop length app order]; [reflexivity|].
  rewrite (rd_at t1) by reflexivity. cbn [bind]. rewrite (rd_at t2) by lia. cbn [bind].
  destruct (y <? x); [reflexivity|]. destruct (x <? y); [reflexivity|].
  replace (t1 ++ x :: u ++ r1) with ((t1 ++ [x]) ++ u ++ r1) by (rewrite <- app_assoc; reflexivity).
  replace (t2 ++ y :: v ++ r2) with ((t2 ++ [y]) ++ v ++ r2) by (rewrite <- app_assoc; reflexivity).
  replace (zlen t1 + 1) with (zlen (t1 ++ [x])) by (zl; lia).
  apply IH; [injection L as L; exact L|zl; lia].
Qed.
Lemma firstn_exact {A} (u r : list A) n : length u = n -> firstn n (u ++ r) = u.
Proof. intros <-. rewrite firstn_app, firstn_all, Nat.sub_diag. cbn [firstn]. apply app_nil_r. Qed.
Lemma memcmp_run a b len : 0 <= len <= zlen a -> len <= zlen b ->
  memcmp a b len = Ok (order (firstn (Z.to_nat len) a) (firstn (Z.to_nat len) b)).
Proof.
  intros H H2. destruct (split_at a len H) as (u & r & -> & Za). destruct (split_at b len) as (v & r2 & -> & Zv); [lia|].
  unfold memcmp.
  assert (La : length u = Z.to_nat len) by (rewrite zlen_length in Za; lia).
  assert (Lv : length v = Z.to_nat len) by (rewrite zlen_length in Zv; lia).
  rewrite (firstn_exact u r _ La), (firstn_exact v r2 _ Lv), <- La.
  refine (memcmp_loop_run u v [] [] r r2 _ eq_refl). lia.
Qed.

Lemma order_same u : forall v, length u = length v -> (order u v = 0 <-> u = v).
Proof.
  induction u as [|x u IH]; intros [|y v] L; try discriminate L; cbn [order]; [tauto|].
  destruct (Z.ltb_spec y x); [split; [discriminate|intro E; injection E; lia]|].
  destruct (Z.ltb_spec x y); [split; [discriminate|intro E; injection E; lia]|].
  rewrite IH by (injection L as L; exact L). assert (x = y) by lia. subst. split; [intros ->; reflexivity|intro E; injection E; tauto].
Qed.

(** ** Comparing strings *)
Lemma schar_eq c : schar c = as_char c.
Proof. reflexivity. Qed.
Lemma as_char_nz c : 0 < c < 256 -> as_char c <> 0.
Proof. intro H. unfold as_char. destruct (Z.ltb_spec c 128); lia. Qed.

Lemma strcmp_loop_run s : forall fuel t t1 t2 r1 r2, plain s -> plain t -> (length s < fuel)%nat ->
  zlen t1 = zlen t2 -> zlen t1 + zlen s < MAX32 ->
  strcmp_loop fuel (t1 ++ s ++ 0 :: r1) (t2 ++ t ++ 0 :: r2) (zlen t1) = Ok (order_of s t).
Proof.
  unfold order_of.
  induction s as [|x s IH]; intros [|f] t t1 t2 r1 r2 Ps Pt L E M; cbn [length] in L; try lia; cbn [strcmp_loop app];
    rewrite (rd_at t1) by reflexivity; cbn [bind].
  - destruct t as [|y t]; cbn [app].
    + rewrite (rd_at t2) by lia. reflexivity.
    + destruct (plain_inv _ _ Pt) as (N & B & _). rewrite (rd_at t2) by lia. cbn [bind].
      change (negb (0 =? 0)) with false. cbn [andb map app order]. change schar with as_char. change (as_char 0) with 0.
      pose proof (as_char_nz y B). destruct (Z.ltb_spec (as_char y) 0); [reflexivity|].
      destruct (Z.ltb_spec 0 (as_char y)); [reflexivity|lia].
  - destruct (plain_inv _ _ Ps) as (N & B & Ps2). pose proof (zlen_nonneg s). zl.
    destruct t as [|y t]; cbn [app].
    + rewrite (rd_at t2) by lia. cbn [bind]. change (negb (0 =? 0)) with false. rewrite andb_false_r.
      cbn [map app order]. change schar with as_char. change (as_char 0) with 0.
      pose proof (as_char_nz x B). destruct (Z.ltb_spec 0 (as_char x)); [reflexivity|].
      destruct (Z.ltb_spec (as_char x) 0); [reflexivity|lia].
    + destruct (plain_inv _ _ Pt) as (N2 & B2 & Pt2). rewrite (rd_at t2) by lia. cbn [bind].
      destruct (Z.eqb_spec x 0); [contradiction|]. destruct (Z.eqb_spec y 0); [contradiction|]. cbn [negb andb].
      destruct (Z.eqb_spec (zlen t1) (MAX32 - 1)); [lia|]. change schar with as_char. cbn [map app order].
      destruct (as_char y <? as_char x); [reflexivity|]. destruct (as_char x <? as_char y); [reflexivity|].
      replace (t1 ++ x :: s ++ 0 :: r1) with ((t1 ++ [x]) ++ s ++ 0 :: r1) by (rewrite <- app_assoc; reflexivity).
      replace (t2 ++ y :: t ++ 0 :: r2) with ((t2 ++ [y]) ++ t ++ 0 :: r2) by (rewrite <- app_assoc; reflexivity).
      replace (zlen t1 + 1) with (zlen (t1 ++ [x])) by (zl; lia).
      apply IH; [exact Ps2|exact Pt2|lia|zl; lia|zl; lia].
Qed.
Lemma strcmp_run a b s t : holds a s -> holds b t -> zlen s < MAX32 -> strcmp a b = Ok (order_of s t).
Proof.
  intros (Ps & r1 & ->) (Pt & r2 & ->) M. unfold strcmp.
  refine (strcmp_loop_run s _ t [] [] r1 r2 Ps Pt _ eq_refl _); [rewrite app_length; cbn; lia|zl; lia].
Qed.
Lemma as_char_inj x y : 0 < x < 256 -> 0 < y < 256 -> as_char x = as_char y -> x = y.
Proof. unfold as_char. destruct (Z.ltb_spec x 128), (Z.ltb_spec y 128); lia. Qed.
Lemma order_of_zero s : forall t, plain s -> plain t -> (order_of s t = 0 <-> s = t).
Proof.
  unfold order_of. induction s as [|x s IH]; intros [|y t] Ps Pt; cbn [map app order].
  - tauto.
  - destruct (plain_inv _ _ Pt) as (_ & B & _). pose proof (as_char_nz y B).
    destruct (Z.ltb_spec (as_char y) 0); [split; discriminate|]. destruct (Z.ltb_spec 0 (as_char y)); [split; discriminate|lia].
  - destruct (plain_inv _ _ Ps) as (_ & B & _). pose proof (as_char_nz x B).
    destruct (Z.ltb_spec 0 (as_char x)); [split; discriminate|]. destruct (Z.ltb_spec (as_char x) 0); [split; discriminate|lia].
  - destruct (plain_inv _ _ Ps) as (_ & B & Ps2), (plain_inv _ _ Pt) as (_ & B2 & Pt2).
    destruct (Z.ltb_spec (as_char y) (as_char x)); [split; [discriminate|intro E; injection E; intros; subst; lia]|].
    destruct (Z.ltb_spec (as_char x) (as_char y)); [split; [discriminate|intro E; injection E; intros; subst; lia]|].
    rewrite (IH t Ps2 Pt2). assert (x = y) by (apply as_char_inj; [exact B|exact B2|lia]). subst.
    split; [intros ->; reflexivity|intro E; injection E; tauto].
Qed.


(** ** Strings on the heap *)
Definition exact_blocks (o : heap) : Prop := forall n b, o n = Some b -> zlen b = n.

Lemma block_some o n b : exact_blocks o -> block o n = Some b -> zlen b = n /\ n <= MAX32 - 32.
Proof. intros Ho H. unfold block in H. destruct (Z.ltb_spec (MAX32 - 32) n); [discriminate H|]. split; [exact (Ho _ _ H)|lia]. Qed.
Lemma block_none o n : MAX32 - 32 < n -> block o n = None.
Proof. intro H. unfold block. destruct (Z.ltb_spec (MAX32 - 32) n); [reflexivity|lia]. Qed.

Definition got (o : heap) (n : Z) (t : list Z) : option (list Z) :=
  match block o n with Some _ => Some t | None => None end.

Lemma strdup_run o b t : exact_blocks o -> holds b t -> strdup o b = Ok (got o (zlen t + 1) (t ++ [0])).
Proof.
  intros Ho H. unfold strdup, got. rewrite (strlen_run _ _ H). cbn [bind]. pose proof (zlen_nonneg t).
  destruct (Z.le_gt_cases MAX32 (zlen t)) as [G|G].
  - rewrite !block_none by (unfold MAX32 in *; lia). reflexivity.
  - replace (Z.min (zlen t) (MAX32 - 1)) with (zlen t) by lia.
    destruct (block o (zlen t + 1)) as [d|] eqn:E; [|reflexivity]. destruct (block_some _ _ _ Ho E) as (Zd & _).
    unfold strcpy. destruct (strcpy_s_run d b t MAX32 H G) as (u & v & d' & Et & Zu & R & W); [unfold MAX32; lia|lia|].
    rewrite R. cbn [bind]. do 2 f_equal. destruct W as (old & rest & Lo & -> & ->). subst t. zl.
    assert (zlen v = 0) by lia. destruct v; [|zl; pose proof (zlen_nonneg v); lia].
    assert (zlen rest = 0) by (rewrite !zlen_length in *; lia). destruct rest; [|zl; pose proof (zlen_nonneg rest); lia].
    rewrite app_nil_r. reflexivity.
Qed.

Lemma append_run o data a str t : exact_blocks o -> holds data a -> holds str t ->
  dyn_append o data (Some str) =
  Ok (match got o (zlen a + zlen t + 1) (a ++ t ++ [0]) with Some d => Some (d, false) | None => None end).
Proof.
  intros Ho Ha Ht. unfold dyn_append, or_null, got, resize. rewrite (strlen_run _ _ Ha), (strlen_run _ _ Ht). cbn [bind].
  pose proof (zlen_nonneg a). pose proof (zlen_nonneg t).
  set (l1 := Z.min (zlen a) (MAX32 - 1)). set (l2 := Z.min (zlen t) (MAX32 - 1)).
  destruct (Z.leb_spec (MAX32 - l1) l2) as [G|G].
  - rewrite !block_none by (unfold MAX32 in *; lia). reflexivity.
  - destruct (Z.le_gt_cases MAX32 (zlen a + zlen t)) as [Q|Q].
    { rewrite !block_none by (unfold MAX32 in *; lia). reflexivity. }
    replace (l1 + l2 + 1) with (zlen a + zlen t + 1) by (unfold l1, l2; lia).
    destruct (block o (zlen a + zlen t + 1)) as [d|] eqn:E; [|reflexivity].
    destruct (block_some _ _ _ Ho E) as (Zd & _). destruct Ha as (Pa & r & ->).
    set (m := Z.min (zlen a + zlen t + 1) (zlen (a ++ 0 :: r))).
    assert (Hm : zlen a + 1 <= m /\ m <= zlen (a ++ 0 :: r) /\ m <= zlen d) by (subst m; pose proof (zlen_nonneg r); zl; lia).
    rewrite memcpy_run by lia. cbn [bind].
    assert (X : exists rest, firstn (Z.to_nat m) (a ++ 0 :: r) ++ skipn (Z.to_nat m) d = a ++ 0 :: rest).
    { exists (firstn (Z.to_nat m - length a - 1) r ++ skipn (Z.to_nat m) d). rewrite firstn_app.
      rewrite firstn_all2 by (rewrite zlen_length in Hm; lia). rewrite <- app_assoc. f_equal.
      destruct (Z.to_nat m - length a)%nat as [|k] eqn:K; [rewrite zlen_length in Hm; lia|]. cbn [firstn app]. do 3 f_equal. lia. }
    destruct X as (rest & X).
    assert (Zr : zlen rest = zlen t).
    { apply (f_equal zlen) in X. zl. rewrite zlen_length, firstn_length in X.
      rewrite (zlen_length (skipn _ _)), skipn_length in X. rewrite !zlen_length in *. rewrite app_length in *. cbn [length] in *. lia. }
    rewrite X. rewrite (strcat_run a rest str t Pa Ht) by lia. cbn [bind].
    rewrite skipn_all2 by (rewrite !zlen_length in Zr; lia). reflexivity.
Qed.

Lemma append_null o data a : exact_blocks o -> holds data a ->
  dyn_append o data None =
  Ok (match got o (zlen a + 6 + 1) (a ++ [60; 110; 117; 108; 108; 62] ++ [0]) with Some d => Some (d, false) | None => None end).
Proof.
  intros Ho Ha. change (dyn_append o data None) with (dyn_append o data (Some null_text)).
  exact (append_run o data a null_text [60; 110; 117; 108; 108; 62] Ho Ha ltac:(split; [repeat constructor|exists []; reflexivity])).
Qed.

Lemma appends_run o : exact_blocks o -> forall l ts data a, holds data a -> zlen data = zlen a + 1 -> Forall2 holds l ts ->
  dyn_appends o data l = Ok None \/ dyn_appends o data l = Ok (Some (a ++ concat ts ++ [0])).
Proof.
  intros Ho l ts data a Ha Zd F. revert data a Ha Zd. induction F as [|b t l ts Hb F IH]; intros data a Ha Zd; cbn [dyn_appends concat].
  - right. do 2 f_equal. destruct Ha as (_ & r & ->). zl. cbn. destruct r; [reflexivity|]. zl. pose proof (zlen_nonneg r). lia.
  - rewrite (append_run o data a b t Ho Ha Hb). unfold got. cbn [bind].
    destruct (block o (zlen a + zlen t + 1)); [|left; reflexivity].
    destruct (IH (a ++ t ++ [0]) (a ++ t)) as [E|E].
    + destruct Ha as (Pa & _), Hb as (Pb & _). split; [apply plain_app; split; assumption|].
      exists []. rewrite app_assoc. reflexivity.
    + zl. lia.
    + left. exact E.
    + right. rewrite E. rewrite <- !app_assoc. reflexivity.
Qed.

(** If the host has memory for every string, there is a sum as long as it fits. *)
Lemma appends_done o : exact_blocks o -> (forall n, 0 < n <= MAX32 - 32 -> o n <> None) ->
  forall l ts data a, holds data a -> zlen data = zlen a + 1 -> Forall2 holds l ts ->
  zlen a + zlen (concat ts) + 1 <= MAX32 - 32 ->
  dyn_appends o data l = Ok (Some (a ++ concat ts ++ [0])).
Proof.
  intros Ho Hm l ts data a Ha Zd F. revert data a Ha Zd. induction F as [|b t l ts Hb F IH]; intros data a Ha Zd M; cbn [dyn_appends concat] in *.
  - do 2 f_equal. destruct Ha as (_ & r & ->). zl. cbn. destruct r; [reflexivity|]. zl. pose proof (zlen_nonneg r). lia.
  - rewrite (append_run o data a b t Ho Ha Hb). unfold got. cbn [bind]. zl.
    pose proof (zlen_nonneg a). pose proof (zlen_nonneg t). pose proof (zlen_nonneg (concat ts)).
    unfold block. destruct (Z.ltb_spec (MAX32 - 32) (zlen a + zlen t + 1)); [lia|].
    destruct (o (zlen a + zlen t + 1)) eqn:E; [|exfalso; eapply Hm; [|exact E]; lia].
    rewrite (IH (a ++ t ++ [0]) (a ++ t)).
    + rewrite <- !app_assoc. reflexivity.
    + destruct Ha as (Pa & _), Hb as (Pb & _). split; [apply plain_app; split; assumption|].
      exists []. rewrite app_assoc. reflexivity.
    + zl. lia.
    + zl. lia.
Qed.

Lemma join_run o x a y b : exact_blocks o -> holds x a -> holds y b -> zlen a + zlen b < MAX32 ->
  join_literals o x y =
  Ok (match got o (zlen a + zlen b + 1) (a ++ b ++ [0]) with Some d => Some (d, false) | None => None end).
Proof.
  intros Ho Ha Hb M. pose proof (zlen_nonneg a). pose proof (zlen_nonneg b). unfold join_literals, got.
  rewrite (strlen_short _ _ Ha), (strlen_short _ _ Hb) by lia. cbn [bind].
  destruct (Z.ltb_spec (MAX32 - zlen a) (zlen b)); [lia|].
  unfold u32. rewrite Z.mod_small by (unfold MAX32, W32 in *; lia). destruct (Z.eqb_spec (zlen a + zlen b + 1) 0); [lia|].
  destruct (block o (zlen a + zlen b + 1)) as [d|] eqn:E; [|reflexivity]. destruct (block_some _ _ _ Ho E) as (Zd & _).
  unfold strcpy. destruct (strcpy_s_run d x a MAX32 Ha) as (u & v & d' & Et & Zu & R & W); [lia|unfold MAX32; lia|lia|].
  rewrite R. cbn [bind]. destruct W as (old & rest & Lo & -> & ->). subst a. zl.
  assert (zlen v = 0) by lia. destruct v as [|x0 v]; [|zl; pose proof (zlen_nonneg v); lia]. rewrite app_nil_r in *.
  assert (zlen rest = zlen b) by (rewrite !zlen_length in *; cbn [length] in *; lia).
  destruct Ha as (Pu & _). rewrite (strcat_run u rest y b Pu Hb) by (zl; lia). cbn [bind].
  rewrite skipn_all2 by (rewrite !zlen_length in *; lia). reflexivity.
Qed.

Lemma join_huge o x a y b : holds x a -> holds y b -> zlen a < MAX32 -> MAX32 <= zlen a + zlen b -> zlen b < MAX32 ->
  join_literals o x y = Ub UbOob.
Proof.
  intros Ha Hb L M L2. pose proof (zlen_nonneg a). pose proof (zlen_nonneg b). unfold join_literals.
  rewrite (strlen_short _ _ Ha), (strlen_short _ _ Hb) by lia. cbn [bind].
  replace (u32 _) with 0; [reflexivity|].
  destruct (Z.ltb_spec (MAX32 - zlen a) (zlen b)).
  - replace (zlen a + (MAX32 - zlen a) + 1) with 4294967296 by (unfold MAX32; lia). reflexivity.
  - replace (zlen a + zlen b + 1) with 4294967296 by (unfold MAX32 in *; lia). reflexivity.
Qed.


(** ** Lines of a listing *)
Lemma wr_end p q i : i = zlen p -> q <> [] -> exists old rest, length old = 1%nat /\ q = old ++ rest /\ wr (p ++ q) i 0 = Ok (p ++ 0 :: rest).
Proof. intros -> N. destruct q as [|x q]; [contradiction|]. exists [x], q. split; [reflexivity|]. split; [reflexivity|]. apply wr_at. reflexivity. Qed.

Lemma appended_step p x q t b' u : appended (p ++ x ++ q) (p ++ x) t b' -> forall o, length o = length x -> u = x ++ t ->
  appended (p ++ o ++ q) p u b'.
Proof.
  intros (old & rest & L & E & ->) o Lo ->. rewrite <- !app_assoc in E. apply app_inv_head in E. apply app_inv_head in E. subst q.
  exists (o ++ old), rest. rewrite !app_length. split; [lia|]. rewrite <- !app_assoc. split; reflexivity.
Qed.
Lemma appended_done p q i : i = zlen p -> q <> [] -> exists b', wr (p ++ q) i 0 = Ok b' /\ appended (p ++ q) p [] b'.
Proof.
  intros E N. destruct (wr_end p q i E N) as (old & rest & L & -> & W). exists (p ++ 0 :: rest). split; [exact W|].
  exists old, rest. auto.
Qed.

Lemma escaped_loop_run t2 : forall fuel size t1 r p q, plain t2 -> (length t2 < fuel)%nat -> q <> [] -> size <= zlen (p ++ q) ->
  exists t3 t4 b', t2 = t3 ++ t4 /\ escaped_loop fuel size (p ++ q) (t1 ++ t2 ++ 0 :: r) (zlen p) (zlen t1) = Ok b' /\
    appended (p ++ q) p (escapes t3) b' /\
    (t4 = [] \/ size <= zlen p + zlen (escapes t3) + 2) /\
    (t3 = [] \/ zlen p + zlen (escapes t3) < size).
Proof.
  induction t2 as [|c t2 IH]; intros [|f] size t1 r p q P L N B; cbn [length] in L; try lia; cbn [escaped_loop app].
  - exists [], []. destruct (appended_done p q (zlen p) eq_refl N) as (b' & W & A).
    exists b'. split; [reflexivity|]. rewrite (rd_at t1) by reflexivity. cbn [bind]. change (0 =? 0) with true. cbv iota.
    rewrite W. replace (if zlen p + 2 <? size then Ok b' else Ok b') with (Ok b') by (destruct (_ <? _); reflexivity).
    split; [reflexivity|]. split; [exact A|]. split; left; reflexivity.
  - destruct (plain_inv _ _ P) as (Nc & _ & P2). rewrite (rd_at t1) by reflexivity. cbn [bind].
    destruct (Z.eqb_spec c 0); [contradiction|].
    destruct (Z.ltb_spec (zlen p + 2) size) as [G|G].
    2:{ exists [], (c :: t2). destruct (appended_done p q (zlen p) eq_refl N) as (b' & W & A). exists b'.
        split; [reflexivity|]. split; [exact W|]. split; [exact A|]. split; [right; cbn; zl; lia|left; reflexivity]. }
    destruct q as [|o1 [|o2 q]]; [contradiction|zl; lia|]. assert (Nq : q <> []) by (intros ->; zl; lia).
    replace (t1 ++ c :: t2 ++ 0 :: r) with ((t1 ++ [c]) ++ t2 ++ 0 :: r) by (rewrite <- app_assoc; reflexivity).
    replace (zlen t1 + 1) with (zlen (t1 ++ [c])) by (zl; lia).
    assert (Two : forall e, escape c = [92; e] -> exists t3 t4 b',
       c :: t2 = t3 ++ t4 /\
       (do d1 <- wr (p ++ o1 :: o2 :: q) (zlen p) 92; do d2 <- wr d1 (zlen p + 1) e;
        escaped_loop f size d2 ((t1 ++ [c]) ++ t2 ++ 0 :: r) (zlen p + 2) (zlen (t1 ++ [c]))) = Ok b' /\
       appended (p ++ o1 :: o2 :: q) p (escapes t3) b' /\ (t4 = [] \/ size <= zlen p + zlen (escapes t3) + 2) /\
       (t3 = [] \/ zlen p + zlen (escapes t3) < size)).
    { intros e Ec. rewrite (wr_at p) by reflexivity. cbn [bind].
      replace (p ++ 92 :: o2 :: q) with ((p ++ [92]) ++ o2 :: q) by (rewrite <- app_assoc; reflexivity).
      rewrite (wr_at (p ++ [92])) by (zl; lia). cbn [bind].
      replace ((p ++ [92]) ++ e :: q) with ((p ++ [92; e]) ++ q) by (rewrite <- !app_assoc; reflexivity).
      replace (zlen p + 2) with (zlen (p ++ [92; e])) by (zl; lia).
      destruct (IH f size (t1 ++ [c]) r (p ++ [92; e]) q P2 ltac:(lia) Nq ltac:(zl; lia)) as (t3 & t4 & b' & -> & R & A & C1 & C2).
      exists (c :: t3), t4, b'. split; [reflexivity|]. split; [exact R|].
      assert (Ee : escapes (c :: t3) = [92; e] ++ escapes t3) by (unfold escapes; cbn [flat_map]; rewrite Ec; reflexivity).
      split; [|split].
      - apply (appended_step p [92; e] q (escapes t3) b' _ ltac:(rewrite <- app_assoc in A; exact A) [o1; o2] eq_refl Ee).
      - rewrite Ee. destruct C1 as [C1|C1]; [left; exact C1|right; zl; lia].
      - right. rewrite Ee. destruct C2 as [->|C2]; [cbn; zl; lia|zl; lia]. }
    unfold escape in Two. destruct (c =? 10) eqn:Q10; [exact (Two _ eq_refl)|]. destruct (c =? 9) eqn:Q9; [exact (Two _ eq_refl)|].
    destruct (c =? 34) eqn:Q34; [exact (Two _ eq_refl)|]. clear Two.
    assert (Ec : escape c = [c]) by (unfold escape; rewrite Q10, Q9, Q34; reflexivity).
    rewrite (wr_at p) by reflexivity. cbn [bind].
    replace (p ++ c :: o2 :: q) with ((p ++ [c]) ++ o2 :: q) by (rewrite <- app_assoc; reflexivity).
    replace (zlen p + 1) with (zlen (p ++ [c])) by (zl; lia).
    destruct (IH f size (t1 ++ [c]) r (p ++ [c]) (o2 :: q) P2 ltac:(lia) ltac:(discriminate) ltac:(zl; lia)) as (t3 & t4 & b' & -> & R & A & C1 & C2).
    exists (c :: t3), t4, b'. split; [reflexivity|]. split; [exact R|].
    assert (Ee : escapes (c :: t3) = [c] ++ escapes t3) by (unfold escapes; cbn [flat_map]; rewrite Ec; reflexivity).
    split; [|split].
    + apply (appended_step p [c] (o2 :: q) (escapes t3) b' _ ltac:(rewrite <- app_assoc in A; exact A) [o1] eq_refl Ee).
    + rewrite Ee. destruct C1 as [C1|C1]; [left; exact C1|right; zl; lia].
    + right. rewrite Ee. destruct C2 as [->|C2]; [cbn; zl; lia|zl; lia].
Qed.

Lemma shown_nil size n : n + 4 < size -> shown size n [] = [].
Proof. intro H. unfold shown. rewrite zlen_nil. destruct (Z.ltb_spec (n + 0 + 4) size); [reflexivity|lia]. Qed.
Lemma shown_cons size n c line : n + 4 < size -> shown size n (c :: line) = c :: shown size (n + 1) line.
Proof.
  intro H. unfold shown. zl. replace (n + (zlen line + 1) + 4) with (n + 1 + zlen line + 4) by lia.
  destruct (n + 1 + zlen line + 4 <? size); [reflexivity|].
  destruct (Z.leb_spec (n + 4) size); [|lia]. destruct (Z.leb_spec (n + 1 + 4) size); [|lia].
  replace (Z.to_nat (size - 4 - n)) with (S (Z.to_nat (size - 4 - (n + 1)))) by lia. reflexivity.
Qed.

Lemma line_loop_run t2 : forall fuel size t1 r p q, plain t2 -> (length t2 < fuel)%nat -> q <> [] -> size <= zlen (p ++ q) ->
  exists b', line_loop fuel size (p ++ q) (t1 ++ t2 ++ 0 :: r) (zlen p) (zlen t1) = Ok b' /\
    appended (p ++ q) p (shown size (zlen p) (first_line t2)) b'.
Proof.
  assert (Full : forall size p q l, q <> [] -> size <= zlen (p ++ q) -> size <= zlen p + 4 -> exists b',
    (if zlen p + 4 =? size then
      do d1 <- wr (p ++ q) (zlen p) 46; do d2 <- wr d1 (zlen p + 1) 46; do d3 <- wr d2 (zlen p + 2) 46; wr d3 (zlen p + 3) 0
    else wr (p ++ q) (zlen p) 0) = Ok b' /\ appended (p ++ q) p (shown size (zlen p) l) b').
  { intros size p q l N B G. unfold shown. pose proof (zlen_nonneg l).
    destruct (Z.ltb_spec (zlen p + zlen l + 4) size); [lia|].
    destruct (Z.eqb_spec (zlen p + 4) size) as [E|E].
    - destruct (Z.leb_spec (zlen p + 4) size); [|lia]. replace (Z.to_nat (size - 4 - zlen p)) with 0%nat by lia. cbn [firstn app].
      destruct q as [|o1 [|o2 [|o3 [|o4 q]]]]; try (zl; lia). exists (p ++ [46; 46; 46] ++ 0 :: q).
      split; [|exists [o1; o2; o3; o4], q; split; [reflexivity|split; reflexivity]].
      rewrite (wr_at p) by reflexivity. cbn [bind].
      replace (p ++ 46 :: o2 :: o3 :: o4 :: q) with ((p ++ [46]) ++ o2 :: o3 :: o4 :: q) by (rewrite <- app_assoc; reflexivity).
      rewrite (wr_at (p ++ [46])) by (zl; lia). cbn [bind].
      replace ((p ++ [46]) ++ 46 :: o3 :: o4 :: q) with ((p ++ [46; 46]) ++ o3 :: o4 :: q) by (rewrite <- !app_assoc; reflexivity).
      rewrite (wr_at (p ++ [46; 46])) by (zl; lia). cbn [bind].
      replace ((p ++ [46; 46]) ++ 46 :: o4 :: q) with ((p ++ [46; 46; 46]) ++ o4 :: q) by (rewrite <- !app_assoc; reflexivity).
      rewrite (wr_at (p ++ [46; 46; 46])) by (zl; lia). rewrite <- app_assoc. reflexivity.
    - destruct (Z.leb_spec (zlen p + 4) size); [lia|]. exact (appended_done p q _ eq_refl N). }
  induction t2 as [|c t2 IH]; intros [|f] size t1 r p q P L N B; cbn [length] in L; try lia; cbn [line_loop app].
  - destruct (Z.ltb_spec (zlen p + 4) size) as [G|G]; [|exact (Full size p q [] N B G)].
    rewrite (rd_at t1) by reflexivity. cbn [bind]. change (0 =? 0) with true. cbn [negb andb first_line].
    rewrite shown_nil by exact G. exact (appended_done p q _ eq_refl N).
  - destruct (plain_inv _ _ P) as (Nc & _ & P2). destruct (Z.ltb_spec (zlen p + 4) size) as [G|G]; [|apply Full; assumption].
    rewrite (rd_at t1) by reflexivity. cbn [bind]. destruct (Z.eqb_spec c 0); [contradiction|]. cbn [negb andb first_line].
    destruct (c =? 10); cbn [negb].
    + rewrite shown_nil by exact G. exact (appended_done p q _ eq_refl N).
    + destruct q as [|o1 q]; [contradiction|]. assert (Nq : q <> []) by (intros ->; zl; lia).
      rewrite (wr_at p) by reflexivity. cbn [bind]. rewrite shown_cons by exact G.
      replace (t1 ++ c :: t2 ++ 0 :: r) with ((t1 ++ [c]) ++ t2 ++ 0 :: r) by (rewrite <- app_assoc; reflexivity).
      replace (zlen t1 + 1) with (zlen (t1 ++ [c])) by (zl; lia).
      replace (p ++ c :: q) with ((p ++ [c]) ++ q) by (rewrite <- app_assoc; reflexivity).
      replace (zlen p + 1) with (zlen (p ++ [c])) by (zl; lia).
      destruct (IH f size (t1 ++ [c]) r (p ++ [c]) q P2 ltac:(lia) Nq ltac:(zl; lia)) as (b' & R & A).
      exists b'. split; [exact R|].
      refine (appended_step p [c] q _ b' _ _ [o1] eq_refl eq_refl). rewrite <- app_assoc in A. exact A.
Qed.

Lemma pad_loop_run n : forall p q v, (n < length q)%nat ->
  exists b', pad_loop n (p ++ q) v (zlen p) = Ok b' /\ appended (p ++ q) p (repeat v n) b'.
Proof.
  induction n as [|n IH]; intros p q v L; cbn [pad_loop repeat].
  - apply appended_done; [reflexivity|intros ->; cbn in L; lia].
  - destruct q as [|o1 q]; cbn [length] in L; [lia|]. rewrite (wr_at p) by reflexivity. cbn [bind].
    replace (p ++ v :: q) with ((p ++ [v]) ++ q) by (rewrite <- app_assoc; reflexivity).
    replace (zlen p + 1) with (zlen (p ++ [v])) by (zl; lia).
    destruct (IH (p ++ [v]) q v ltac:(lia)) as (b' & R & A). exists b'. split; [exact R|].
    refine (appended_step p [v] q _ b' _ _ [o1] eq_refl eq_refl). rewrite <- app_assoc in A. exact A.
Qed.

Lemma escaped_run size dst a src t : holds dst a -> holds src t -> zlen a < MAX32 -> size <= zlen dst ->
  exists t3 t4 b', t = t3 ++ t4 /\ append_escaped size dst src = Ok b' /\ appended dst a (escapes t3) b' /\
    (t4 = [] \/ size <= zlen a + zlen (escapes t3) + 2) /\ (t3 = [] \/ zlen a + zlen (escapes t3) < size).
Proof.
  intros H (Pt & r & ->) M B. unfold append_escaped. rewrite (strlen_short _ _ H M). cbn [bind]. destruct H as (Pa & rest & ->).
  refine (escaped_loop_run t _ size [] r a (0 :: rest) Pt _ _ B); [rewrite app_length; cbn; lia|discriminate].
Qed.
Lemma line_run size dst a src t : holds dst a -> holds src t -> zlen a < MAX32 -> size <= zlen dst ->
  exists b', append_line size dst src = Ok b' /\ appended dst a (shown size (zlen a) (first_line t)) b'.
Proof.
  intros H (Pt & r & ->) M B. unfold append_line. rewrite (strlen_short _ _ H M). cbn [bind]. destruct H as (Pa & rest & ->).
  refine (line_loop_run t _ size [] r a (0 :: rest) Pt _ _ B); [rewrite app_length; cbn; lia|discriminate].
Qed.
Lemma pad_run n dst a v : holds dst a -> zlen a < MAX32 -> n <= zlen dst ->
  exists b', pad_line n dst v = Ok b' /\ appended dst a (repeat v (Z.to_nat (n - 1 - zlen a))) b'.
Proof.
  intros H M B. unfold pad_line. rewrite (strlen_short _ _ H M). cbn [bind]. destruct H as (Pa & rest & ->).
  apply pad_loop_run. zl. cbn [length]. rewrite (zlen_length rest) in B. lia.
Qed.

Lemma lines_loop_run t2 : forall fuel t1 r c, plain t2 -> (length t2 < fuel)%nat ->
  lines_loop fuel (t1 ++ t2 ++ 0 :: r) (zlen t1) c = Ok (c + newlines t2).
Proof.
  induction t2 as [|x t2 IH]; intros [|f] t1 r c P L; cbn [length] in L; try lia; cbn [lines_loop app newlines];
    rewrite (rd_at t1) by reflexivity; cbn [bind].
  - change (0 =? 0) with true. cbv iota. f_equal. lia.
  - destruct (plain_inv _ _ P) as (N & _ & P2). destruct (Z.eqb_spec x 0); [contradiction|].
    replace (t1 ++ x :: t2 ++ 0 :: r) with ((t1 ++ [x]) ++ t2 ++ 0 :: r) by (rewrite <- app_assoc; reflexivity).
    replace (zlen t1 + 1) with (zlen (t1 ++ [x])) by (zl; lia).
    rewrite IH by (try exact P2; lia). f_equal. destruct (x =? 10); lia.
Qed.
Lemma lines_run b t : holds b t -> count_lines b = Ok (newlines t).
Proof.
  intros (P & r & ->). unfold count_lines. refine (lines_loop_run t _ [] r 0 P _). rewrite app_length; cbn; lia.
Qed.
