(** * BufModel: the C string helpers, on buffers

    Elsewhere in the model a string is the list of its bytes.  Here it is what
    it is in C: an array of bytes, of which those before the first zero count.
    An array is a list of its bytes (0..255); reading or writing outside of it
    is undefined.  Each loop gets one step more than the array it reads has
    bytes, so it cannot run out before it reads outside of the array. *)
From Verif Require Import Base.

(** The largest index, ~(nkuint32_t)0. *)
Definition MAX32 : Z := 4294967295.

(** nkiStrlen.  /repo/src/nkstring.c:214-229. *)
Fixpoint strlen_loop (fuel : nat) (s : list Z) (i : Z) : res Z :=
  match fuel with
  | O => Ub UbOob
  | S f =>
    do c <- rd s i;
    if c =? 0 then Ok i
    else if i =? MAX32 - 1 then Ok i
    else strlen_loop f s (i + 1)
  end.
Definition strlen (s : list Z) : res Z := strlen_loop (S (length s)) s 0.

(** A byte as a (signed) char. *)
Definition schar (c : Z) : Z := if c <? 128 then c else c - 256.

(** nkiStrcmp.  /repo/src/nkstring.c:231-250. *)
Fixpoint strcmp_loop (fuel : nat) (a b : list Z) (i : Z) : res Z :=
  match fuel with
  | O => Ub UbOob
  | S f =>
    do x <- rd a i;
    do y <- rd b i;
    if negb (x =? 0) && negb (y =? 0) then
      if i =? MAX32 - 1 then Ok 0
      else if schar y <? schar x then Ok 1
      else if schar x <? schar y then Ok (-1)
      else strcmp_loop f a b (i + 1)
    else
      if schar y <? schar x then Ok 1
      else if schar x <? schar y then Ok (-1)
      else Ok 0
  end.
Definition strcmp (a b : list Z) : res Z := strcmp_loop (S (length a)) a b 0.

(** nkiStrcat.  /repo/src/nkstring.c:252-270. *)
Fixpoint strcat_loop (fuel : nat) (dst src : list Z) (start i : Z) : res (list Z) :=
  match fuel with
  | O => Ub UbOob
  | S f =>
    do c <- rd src (i - start);
    if c =? 0 then wr dst i 0
    else if i =? MAX32 then wr dst i 0
    else do dst' <- wr dst i c; strcat_loop f dst' src start (i + 1)
  end.
Definition strcat (dst src : list Z) : res (list Z) :=
  do i <- strlen dst;
  strcat_loop (S (length src)) dst src i i.

(** nkiStrcpy_s.  /repo/src/nkstring.c:277-300. *)
Fixpoint strcpy_loop (fuel : nat) (dst src : list Z) (len i : Z) : res (list Z) :=
  match fuel with
  | O => Ub UbOob
  | S f =>
    do c <- rd src i;
    if c =? 0 then wr dst i 0
    else if len <=? i then wr dst i 0
    else
      do dst' <- wr dst i c;
      if i + 1 =? MAX32 then wr dst' (i + 1) 0
      else strcpy_loop f dst' src len (i + 1)
  end.
Definition strcpy_s (dst src : list Z) (len : Z) : res (list Z) := strcpy_loop (S (length src)) dst src len 0.

(** nkiStrcpy.  /repo/src/nkstring.c:272-275. *)
Definition strcpy (dst src : list Z) : res (list Z) := strcpy_s dst src MAX32.

(** nkiMemset.  /repo/src/nkstring.c:302-308. *)
Fixpoint memset_loop (n : nat) (p : list Z) (c i : Z) : res (list Z) :=
  match n with
  | O => Ok p
  | S m => do p' <- wr p i (c mod 256); memset_loop m p' c (i + 1)
  end.
Definition memset (p : list Z) (c len : Z) : res (list Z) := memset_loop (Z.to_nat len) p c 0.

(** nkiMemcpy, for arrays that do not overlap.  /repo/src/nkstring.c:310-316. *)
Fixpoint memcpy_loop (n : nat) (dst src : list Z) (i : Z) : res (list Z) :=
  match n with
  | O => Ok dst
  | S m => do c <- rd src i; do dst' <- wr dst i c; memcpy_loop m dst' src (i + 1)
  end.
Definition memcpy (dst src : list Z) (len : Z) : res (list Z) := memcpy_loop (Z.to_nat len) dst src 0.

(** nkiMemcmp.  /repo/src/nkstring.c:318-328. *)
Fixpoint memcmp_loop (n : nat) (a b : list Z) (i : Z) : res Z :=
  match n with
  | O => Ok 0
  | S m =>
    do x <- rd a i;
    do y <- rd b i;
    if y <? x then Ok 1 else if x <? y then Ok (-1) else memcmp_loop m a b (i + 1)
  end.
Definition memcmp (a b : list Z) (len : Z) : res Z := memcmp_loop (Z.to_nat len) a b 0.

(** ** Strings on the heap *)

(** What the host's malloc answers to a request for [n] bytes: a block with
    whatever was in it, or NULL. *)
Definition heap := Z -> option (list Z).

(** nkiMalloc of a size that is not 0, without the book-keeping (MemModel):
    [None] if it does not return (longjmp).  The header of a block has 32 bytes.
    /repo/src/nkmem.c:122-165. *)
Definition block (o : heap) (n : Z) : option (list Z) :=
  if MAX32 - 32 <? n then None else o n.

(** nkiStrdup of a string that is not NULL; the length cannot wrap because
    nkiStrlen stops before.  /repo/src/nkmem.c:273-287. *)
Definition strdup (o : heap) (s : list Z) : res (option (list Z)) :=
  do n <- strlen s;
  match block o (n + 1) with
  | None => Ok None
  | Some b => do b' <- strcpy b s; Ok (Some b')
  end.

(** The text "<null>" with its terminator. *)
Definition null_text : list Z := [60; 110; 117; 108; 108; 62; 0].
Definition or_null (s : option (list Z)) : list Z := match s with Some x => x | None => null_text end.

(** nkiDynStrCreate: the data.  /repo/src/nkdynstr.c:46-53. *)
Definition dyn_create (o : heap) (s : option (list Z)) : res (option (list Z)) := strdup o (or_null s).

(** nkiRealloc of a block.  /repo/src/nkmem.c:256-271. *)
Definition resize (o : heap) (b : list Z) (n : Z) : res (option (list Z)) :=
  match block o n with
  | None => Ok None
  | Some b' => do b2 <- memcpy b' b (Z.min n (zlen b)); Ok (Some b2)
  end.

(** nkiDynStrAppend: the data, and whether the error about the length limit is
    reported.  /repo/src/nkdynstr.c:61-87. *)
Definition dyn_append (o : heap) (data : list Z) (s : option (list Z)) : res (option (list Z * bool)) :=
  let str := or_null s in
  do len1 <- strlen data;
  do len2 <- strlen str;
  let long := MAX32 - len1 <=? len2 in
  let len2' := if long then MAX32 - len1 - 1 else len2 in
  do r <- resize o data (len1 + len2' + 1);
  match r with
  | None => Ok None
  | Some d => do d' <- strcat d str; Ok (Some (d', long))
  end.

(** The text of a sum of strings: nkiDynStrCreate, then nkiDynStrAppend for each
    part (nkiOpcode_add, the error messages). *)
Fixpoint dyn_appends (o : heap) (data : list Z) (l : list (list Z)) : res (option (list Z)) :=
  match l with
  | [] => Ok (Some data)
  | s :: r =>
    do x <- dyn_append o data (Some s);
    match x with
    | None => Ok None
    | Some (d, _) => dyn_appends o d r
    end
  end.

(** Joining two adjacent string literals of a script.  The size is computed in
    32 bits; a request for 0 bytes is answered with NULL
    (/repo/src/nkmem.c:220-222), and the first write then is undefined.
    /repo/src/nktoken.c:181-197. *)
Definition join_literals (o : heap) (a b : list Z) : res (option (list Z * bool)) :=
  do len1 <- strlen a;
  do len2 <- strlen b;
  let long := MAX32 - len1 <? len2 in
  let len2' := if long then MAX32 - len1 else len2 in
  let n := u32 (len1 + len2' + 1) in
  if n =? 0 then Ub UbOob
  else match block o n with
  | None => Ok None
  | Some d => do d1 <- strcpy d a; do d2 <- strcat d1 b; Ok (Some (d2, long))
  end.

(** ** Lines of a listing

    The sums are exact: they cannot wrap for buffers shorter than 2^32 - 4
    bytes. *)

(** nkiDbgAppendEscaped; the size of the buffer is given separately, as in the
    code.  /repo/src/nkdbg.c:75-99. *)
Fixpoint escaped_loop (fuel : nat) (size : Z) (dst src : list Z) (i j : Z) : res (list Z) :=
  match fuel with
  | O => Ub UbOob
  | S f =>
    if i + 2 <? size then
      do c <- rd src j;
      if c =? 0 then wr dst i 0
      else if c =? 10 then
        do d1 <- wr dst i 92; do d2 <- wr d1 (i + 1) 110; escaped_loop f size d2 src (i + 2) (j + 1)
      else if c =? 9 then
        do d1 <- wr dst i 92; do d2 <- wr d1 (i + 1) 116; escaped_loop f size d2 src (i + 2) (j + 1)
      else if c =? 34 then
        do d1 <- wr dst i 92; do d2 <- wr d1 (i + 1) 34; escaped_loop f size d2 src (i + 2) (j + 1)
      else
        do d1 <- wr dst i c; escaped_loop f size d1 src (i + 1) (j + 1)
    else wr dst i 0
  end.
Definition append_escaped (size : Z) (dst src : list Z) : res (list Z) :=
  do i <- strlen dst;
  escaped_loop (S (length src)) size dst src i 0.

(** nkiDbgAppendLine.  /repo/src/nkdbg.c:572-592. *)
Fixpoint line_loop (fuel : nat) (size : Z) (dst src : list Z) (i j : Z) : res (list Z) :=
  match fuel with
  | O => Ub UbOob
  | S f =>
    if i + 4 <? size then
      do c <- rd src j;
      if negb (c =? 0) && negb (c =? 10) then
        do d1 <- wr dst i c; line_loop f size d1 src (i + 1) (j + 1)
      else wr dst i 0
    else if i + 4 =? size then
      do d1 <- wr dst i 46; do d2 <- wr d1 (i + 1) 46; do d3 <- wr d2 (i + 2) 46; wr d3 (i + 3) 0
    else wr dst i 0
  end.
Definition append_line (size : Z) (dst src : list Z) : res (list Z) :=
  do i <- strlen dst;
  line_loop (S (length src)) size dst src i 0.

(** nkiDbgPadLine.  /repo/src/nkdbg.c:594-601. *)
Fixpoint pad_loop (n : nat) (dst : list Z) (v i : Z) : res (list Z) :=
  match n with
  | O => wr dst i 0
  | S m => do d <- wr dst i v; pad_loop m d v (i + 1)
  end.
Definition pad_line (padding : Z) (dst : list Z) (v : Z) : res (list Z) :=
  do i <- strlen dst;
  pad_loop (Z.to_nat (padding - 1 - i)) dst v i.

(** nkiDbgCountLines.  /repo/src/nkdbg.c:603-613. *)
Fixpoint lines_loop (fuel : nat) (s : list Z) (i c : Z) : res Z :=
  match fuel with
  | O => Ub UbOob
  | S f => do x <- rd s i; if x =? 0 then Ok c else lines_loop f s (i + 1) (if x =? 10 then c + 1 else c)
  end.
Definition count_lines (s : list Z) : res Z := lines_loop (S (length s)) s 0 0.
