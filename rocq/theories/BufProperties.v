(** * BufProperties: C71, C string helpers and growing strings respect their buffers

    An array is the list of its bytes and [holds b t] says that the array [b]
    holds the string [t]; reading or writing outside of an array is [Ub].  So
    each theorem that gives an [Ok] also says that nothing outside of the arrays
    is touched. *)
From Coq Require Import ZArith List Lia.
From Verif Require Import Base BaseFacts BufModel BufSpec BufProofs.
Import ListNotations.
Open Scope Z_scope.

(** The length of a string is the number of bytes before the terminator, and the
    count stops before it could wrap. *)
Theorem C71_length : forall b t, holds b t ->
  strlen b = Ok (Z.min (zlen t) 4294967294).
Proof. exact strlen_run. Qed.
Print Assumptions C71_length.

(** A copy limited to [len] characters writes the first [len] characters and a
    terminator: it needs [len + 1] bytes, and with fewer it writes past the end
    if the string is long enough. *)
Theorem C71_copy : forall dst src t len, holds src t -> zlen t < 4294967295 -> 0 <= len ->
  (Z.min (zlen t) len < zlen dst ->
     exists u v dst', t = u ++ v /\ zlen u = Z.min (zlen t) len /\
       strcpy_s dst src len = Ok dst' /\ overwritten dst u dst') /\
  (zlen dst <= Z.min (zlen t) len -> strcpy_s dst src len = Ub UbOob).
Proof.
  intros dst src t len H M P. split; intro F.
  - exact (strcpy_s_run dst src t len H M P F).
  - exact (strcpy_s_past dst src t len H M F).
Qed.
Print Assumptions C71_copy.

(** A concatenation appends the second string to the first one and leaves the
    bytes after the new terminator as they were, given room for it. *)
Theorem C71_concatenate : forall a rest src t, plain a -> holds src t -> zlen a + zlen t < 4294967295 -> zlen t <= zlen rest ->
  exists dst', strcat (a ++ 0 :: rest) src = Ok dst' /\ appended (a ++ 0 :: rest) a t dst'.
Proof.
  intros a rest src t Pa H M F. eexists. split; [exact (strcat_run a rest src t Pa H M F)|].
  exists (0 :: firstn (length t) rest), (skipn (length t) rest).
  split; [cbn [length]; rewrite firstn_length; unfold zlen in F; lia|]. split; [|reflexivity].
  cbn [app]. rewrite firstn_skipn. reflexivity.
Qed.
Print Assumptions C71_concatenate.

(** Comparing gives the order of the strings as sequences of signed chars, and 0
    exactly if they are equal. *)
Theorem C71_compare : forall a b s t, holds a s -> holds b t -> zlen s < 4294967295 ->
  strcmp a b = Ok (order_of s t) /\ (strcmp a b = Ok 0 <-> s = t).
Proof.
  intros a b s t Ha Hb M. pose proof (strcmp_run a b s t Ha Hb M) as R. split; [exact R|]. rewrite R.
  destruct Ha as (Ps & _), Hb as (Pt & _). rewrite <- (order_of_zero s t Ps Pt).
  split; [intro E; injection E as E; exact E|intros ->; reflexivity].
Qed.
Print Assumptions C71_compare.

(** Filling, copying and comparing blocks of bytes. *)
Theorem C71_blocks : forall p q len, 0 <= len <= zlen p -> len <= zlen q ->
  (forall c, memset p c len = Ok (repeat (c mod 256) (Z.to_nat len) ++ skipn (Z.to_nat len) p)) /\
  memcpy p q len = Ok (firstn (Z.to_nat len) q ++ skipn (Z.to_nat len) p) /\
  memcmp p q len = Ok (order (firstn (Z.to_nat len) p) (firstn (Z.to_nat len) q)) /\
  (memcmp p q len = Ok 0 <-> firstn (Z.to_nat len) p = firstn (Z.to_nat len) q).
Proof.
  intros p q len H H2. split; [intro c; apply memset_run; exact H|]. split; [apply memcpy_run; assumption|].
  pose proof (memcmp_run p q len H H2) as R. split; [exact R|]. rewrite R. rewrite <- order_same.
  - split; [intro E; injection E as E; exact E|intros ->; reflexivity].
  - rewrite !firstn_length. unfold zlen in *. lia.
Qed.
Print Assumptions C71_blocks.

(** The host's memory: a block has the size asked for. *)
Definition sized (o : heap) : Prop := forall n b, o n = Some b -> zlen b = n.

(** A copy on the heap is either refused or exact, whatever the block contained
    and however long the string is. *)
Theorem C71_duplicate : forall o, sized o -> forall b t, holds b t ->
  strdup o b = Ok (if 4294967263 <? zlen t + 1 then None
                   else match o (zlen t + 1) with Some _ => Some (t ++ [0]) | None => None end).
Proof.
  intros o Ho b t H. rewrite (strdup_run o b t Ho H). unfold got, block.
  change (MAX32 - 32) with 4294967263. destruct (4294967263 <? zlen t + 1); reflexivity.
Qed.
Print Assumptions C71_duplicate.

(** Appending to a growing string gives both strings one after the other, or is
    refused for want of memory.  It never cuts a string, never reports one as cut
    and never writes outside of the block: a sum that would have to be cut needs a
    block larger than any the allocator gives. *)
Theorem C71_append : forall o, sized o -> forall data a str t, holds data a -> holds str t ->
  dyn_append o data (Some str) =
  Ok (if 4294967263 <? zlen a + zlen t + 1 then None
      else match o (zlen a + zlen t + 1) with Some _ => Some (a ++ t ++ [0], false) | None => None end).
Proof.
  intros o Ho data a str t Ha Ht. rewrite (append_run o data a str t Ho Ha Ht). unfold got, block.
  change (MAX32 - 32) with 4294967263. destruct (4294967263 <? zlen a + zlen t + 1); [reflexivity|].
  destruct (o (zlen a + zlen t + 1)); reflexivity.
Qed.
Print Assumptions C71_append.

(** Any number of appends: refused, or the concatenation; and not refused if the
    host has the memory and the result fits. *)
Theorem C71_sum : forall o, sized o -> forall l ts data a, holds data a -> zlen data = zlen a + 1 -> Forall2 holds l ts ->
  (dyn_appends o data l = Ok None \/ dyn_appends o data l = Ok (Some (a ++ concat ts ++ [0]))) /\
  ((forall n, 0 < n <= 4294967263 -> o n <> None) -> zlen a + zlen (concat ts) + 1 <= 4294967263 ->
   dyn_appends o data l = Ok (Some (a ++ concat ts ++ [0]))).
Proof.
  intros o Ho l ts data a Ha Zd F. split.
  - exact (appends_run o Ho l ts data a Ha Zd F).
  - intros Hm M. exact (appends_done o Ho Hm l ts data a Ha Zd F M).
Qed.
Print Assumptions C71_sum.

(** A NULL string counts as the text "<null>". *)
Theorem C71_null : forall o, sized o -> forall data a, holds data a ->
  dyn_append o data None =
  Ok (if 4294967263 <? zlen a + 7 then None
      else match o (zlen a + 7) with Some _ => Some (a ++ [60; 110; 117; 108; 108; 62] ++ [0], false) | None => None end).
Proof.
  intros o Ho data a Ha. rewrite (append_null o data a Ho Ha). unfold got, block.
  replace (zlen a + 6 + 1) with (zlen a + 7) by lia. change (MAX32 - 32) with 4294967263.
  destruct (4294967263 <? zlen a + 7); [reflexivity|]. destruct (o (zlen a + 7)); reflexivity.
Qed.
Print Assumptions C71_null.

(** Adjacent literals of a script: joined or refused, as long as both have less
    than 2^32 - 1 bytes together.  That holds in the compiler because both are
    allocated at that time and the sum of all blocks fits 32 bits
    (C01, C02). *)
Theorem C71_literals : forall o, sized o -> forall x a y b, holds x a -> holds y b -> zlen a + zlen b < 4294967295 ->
  join_literals o x y =
  Ok (if 4294967263 <? zlen a + zlen b + 1 then None
      else match o (zlen a + zlen b + 1) with Some _ => Some (a ++ b ++ [0], false) | None => None end).
Proof.
  intros o Ho x a y b Ha Hb M. rewrite (join_run o x a y b Ho Ha Hb M). unfold got, block.
  change (MAX32 - 32) with 4294967263. destruct (4294967263 <? zlen a + zlen b + 1); [reflexivity|].
  destruct (o (zlen a + zlen b + 1)); reflexivity.
Qed.
Print Assumptions C71_literals.

(** Beyond that the size wraps to 0 and the copy goes to a null pointer, also
    where the code means to truncate: the bound is needed. *)
Theorem C71_literals_beyond : forall o x a y b, holds x a -> holds y b ->
  zlen a < 4294967295 -> zlen b < 4294967295 -> 4294967295 <= zlen a + zlen b ->
  join_literals o x y = Ub UbOob.
Proof. intros o x a y b Ha Hb La Lb M. exact (join_huge o x a y b Ha Hb La M Lb). Qed.
Print Assumptions C71_literals_beyond.

(** Listings: a string with newlines, tabs and quotes as escapes is appended
    completely, or as many characters of it as leave fewer than three bytes; and
    never beyond the size given. *)
Theorem C71_escaped : forall size dst a src t, holds dst a -> holds src t -> zlen a < 4294967295 -> size <= zlen dst ->
  exists t1 t2 dst', t = t1 ++ t2 /\ append_escaped size dst src = Ok dst' /\ appended dst a (escapes t1) dst' /\
    (t2 = [] \/ size <= zlen a + zlen (escapes t1) + 2) /\ (t1 = [] \/ zlen a + zlen (escapes t1) < size).
Proof. exact escaped_run. Qed.
Print Assumptions C71_escaped.

(** Listings: the first line of a text is appended completely, or cut with dots. *)
Theorem C71_line : forall size dst a src t, holds dst a -> holds src t -> zlen a < 4294967295 -> size <= zlen dst ->
  exists dst', append_line size dst src = Ok dst' /\ appended dst a (shown size (zlen a) (first_line t)) dst'.
Proof. exact line_run. Qed.
Print Assumptions C71_line.

(** Listings: padding fills up to one less than the width, for the terminator. *)
Theorem C71_padding : forall n dst a v, holds dst a -> zlen a < 4294967295 -> n <= zlen dst ->
  exists dst', pad_line n dst v = Ok dst' /\ appended dst a (repeat v (Z.to_nat (n - 1 - zlen a))) dst'.
Proof. exact pad_run. Qed.
Print Assumptions C71_padding.

(** Counting lines counts newlines. *)
Theorem C71_lines : forall b t, holds b t -> count_lines b = Ok (newlines t).
Proof. exact lines_run. Qed.
Print Assumptions C71_lines.

(** ** Cases *)

(** A host with blocks up to 40 bytes, filled with 7s. *)
Definition host40 (n : Z) : option (list Z) := if (0 <=? n) && (n <=? 40) then Some (repeat 7 (Z.to_nat n)) else None.

Example C71_case_host : sized host40.
Proof.
  intros n b H. unfold host40 in H. destruct (Z.leb_spec 0 n); cbn [andb] in H; [|discriminate H].
  destruct (n <=? 40); [|discriminate H]. injection H as <-. unfold zlen. rewrite repeat_length. lia.
Qed.

(** "ab" + "c" + "" in an array with something after the terminator; a copy of
    "abc" limited to 2 into 3 bytes and into 2; the order of "ab" and a string
    with a byte above 127. *)
Example C71_case :
  holds [97; 98; 0; 9] [97; 98] /\
  dyn_append host40 [97; 98; 0; 9] (Some [99; 0]) = Ok (Some ([97; 98; 99; 0], false)) /\
  dyn_appends host40 [97; 0] [[98; 0]; [0]; [99; 99; 0]] = Ok (Some [97; 98; 99; 99; 0]) /\
  dyn_append host40 (repeat 97 30 ++ [0]) (Some (repeat 98 10 ++ [0])) = Ok None /\
  join_literals host40 [97; 0] [98; 0] = Ok (Some ([97; 98; 0], false)) /\
  strcpy_s [1; 2; 3; 4] [97; 98; 99; 0] 2 = Ok [97; 98; 0; 4] /\
  strcpy_s [1; 2] [97; 98; 99; 0] 2 = Ub UbOob /\
  strcmp [97; 98; 0] [200; 0] = Ok 1 /\ order_of [97; 98] [200] = 1.
Proof. split; [split; [repeat constructor|exists [9]; reflexivity]|]. vm_compute. repeat split. Qed.

(** Listings in arrays of 10 bytes: an escape that does not fit, a cut line, and a
    string of 3 padded to 6. *)
Example C71_case_listing :
  append_escaped 10 [0; 1; 1; 1; 1; 1; 1; 1; 1; 1] [97; 10; 98; 34; 9; 99; 99; 0] = Ok [97; 92; 110; 98; 92; 34; 92; 116; 0; 1] /\
  append_line 10 [97; 0; 1; 1; 1; 1; 1; 1; 1; 1] [98; 99; 100; 101; 102; 103; 0] = Ok [97; 98; 99; 100; 101; 102; 46; 46; 46; 0] /\
  append_line 10 [97; 0; 1; 1; 1; 1; 1; 1; 1; 1] [98; 99; 10; 101; 0] = Ok [97; 98; 99; 0; 1; 1; 1; 1; 1; 1] /\
  pad_line 6 [97; 98; 99; 0; 1; 1; 1; 1; 1; 1] 32 = Ok [97; 98; 99; 32; 32; 0; 1; 1; 1; 1] /\
  count_lines [97; 10; 10; 98; 0] = Ok 2.
Proof. vm_compute. repeat split. Qed.
