(** * StrModel: interned strings (/repo/src/nkstring.c) *)
From Verif Require Export State.

(** A byte as the (signed) [char] it is on the modelled platforms. *)
Definition s8 (c : Z) : Z := if c <? 128 then c else c - 256.

(** The loop of nkiStringHash over the remaining bytes. *)
Fixpoint hash_loop (s : bytes) (a b : Z) : Z * Z :=
  match s with
  | [] => (a, b)
  | c :: r => let a' := u32 (a + s8 c) mod 65521 in
              let b' := u32 (b + a') mod 65521 in hash_loop r a' b'
  end.
(** nkiStringHash.  /repo/src/nkstring.c:46-59. *)
Definition str_hash (s : bytes) : Z :=
  let '(a, b) := hash_loop s 1 0 in u32 (Z.lor (Z.shiftl b 16) a).

(** nkiStrcmp.  /repo/src/nkstring.c:231-250.  The terminator compares as 0;
    the guard for strings of 2^32-2 bytes is not modelled. *)
Fixpoint str_cmp (a b : bytes) : Z :=
  match a, b with
  | [], [] => 0
  | [], y :: _ => if s8 y <? 0 then 1 else -1
  | x :: _, [] => if 0 <? s8 x then 1 else -1
  | x :: a', y :: b' =>
    if s8 y <? s8 x then 1 else if s8 x <? s8 y then -1 else str_cmp a' b'
  end.

(** nkiVmStringTableGetEntryById.  /repo/src/nkstring.c:86-94. *)
Definition get_str_entry (s : vm) (i : Z) : option nkstr := tab_get (v_strs s) i.

(** nkiVmStringTableGetStringById.  /repo/src/nkstring.c:96-103. *)
Definition get_str (s : vm) (i : Z) : option bytes :=
  match get_str_entry s i with Some e => Some (s_str e) | None => None end.

(** Walking a hash chain for a string with this text.
    /repo/src/nkstring.c:118-123. *)
Fixpoint find_in_chain (t : table nkstr) (chain : list Z) (txt : bytes) : res (option Z) :=
  match chain with
  | [] => Ok None
  | i :: r =>
    match tab_get t i with
    | None => Ub UbNull
    | Some e => if str_cmp (s_str e) txt =? 0 then Ok (Some (s_idx e)) else find_in_chain t r txt
    end
  end.

Definition STR_BUCKETS : Z := 256.

(** nkiVmStringTableFindOrAddString.  /repo/src/nkstring.c:105-152. *)
Definition find_or_add_string (txt : bytes) : M Z :=
  let h := str_hash txt in
  let b := Z.land h (STR_BUCKETS - 1) in
  s <- gets (fun s => s) ;;
  chain <- lift (rd (v_byhash s) b) ;;
  found <- lift (find_in_chain (v_strs s) chain txt) ;;
  match found with
  | Some i => ret i
  | None =>
    match tab_add (v_strs s) (mkS 0 0 false 0 []) with
    | None =>
      add_error (bs "Address space exhaustion when adding item to table.") ;;; ret INVALID
    | Some (i, t) =>
      (* the entry is filled in after it has been put into the table *)
      slots <- lift (wr (t_slots t) i (Some (mkS i 0 false h txt))) ;;
      modify (fun s => set_strs (mkT slots (t_holes t)) s) ;;;
      modify (fun s => set_byhash (zupd (v_byhash s) b (i :: chain)) s) ;;;
      ret i
    end
  end.

(** The chain walk of nkiVmStringTableCleanOldStrings for one bucket: the
    surviving chain and the table with the others erased.
    /repo/src/nkstring.c:188-210. *)
Fixpoint clean_chain (t : table nkstr) (chain : list Z) (pass : Z) : res (table nkstr * list Z) :=
  match chain with
  | [] => Ok (t, [])
  | i :: r =>
    match tab_get t i with
    | None => Ub UbNull
    | Some e =>
      if negb (pass =? s_gc e) && negb (s_keep e) then
        do t' <- tab_erase t (s_idx e) ; clean_chain t' r pass
      else
        do (t', r') <- clean_chain t r pass ; Ok (t', i :: r')
    end
  end.

Fixpoint clean_buckets (t : table nkstr) (bks : list (list Z)) (pass : Z) : res (table nkstr * list (list Z)) :=
  match bks with
  | [] => Ok (t, [])
  | c :: r =>
    do (t1, c') <- clean_chain t c pass ;
    do (t2, r') <- clean_buckets t1 r pass ; Ok (t2, c' :: r')
  end.

(** nkiVmStringTableCleanOldStrings.  /repo/src/nkstring.c:176-212.  The
    "Bad string index" exit needs a table index of 2^32-1, which
    nkiTableAddEntry never returns; it is not modelled. *)
Definition clean_old_strings (pass : Z) : M unit :=
  s <- gets (fun s => s) ;;
  '(t, bks) <- lift (clean_buckets (v_strs s) (v_byhash s) pass) ;;
  modify (fun s => set_byhash bks (set_strs t s)).
