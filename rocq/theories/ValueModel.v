(** * ValueModel: conversions and comparison of values (/repo/src/nkvalue.c) *)
From Verif Require Export StrModel.

(** nkiValueTypeGetName.  /repo/src/nkvalue.c:64-95. *)
Definition type_name (t : Z) : bytes :=
  if t =? T_INT then bs "integer"
  else if t =? T_FLOAT then bs "float"
  else if t =? T_STRING then bs "string"
  else if t =? T_FUNC then bs "function"
  else if t =? T_OBJ then bs "object"
  else if t =? T_NIL then bs "nil"
  else bs "unknown".

(** nkiValueHash.  /repo/src/nkvalue.c:357-390. *)
Definition value_hash (s : vm) (v : value) : Z :=
  let t := v_type v in
  if (t =? T_INT) || (t =? T_FLOAT) || (t =? T_FUNC) || (t =? T_OBJ) then v_data v
  else if t =? T_STRING then
    match get_str_entry s (v_data v) with Some e => s_hash e | None => 0 end
  else 0.

Definition err_convert (t : Z) : bytes :=
  bs "Cannot convert type " ++ type_name t ++ bs " to an integer.".

(** nkiValueToInt.  /repo/src/nkvalue.c:97-137.  (In the string case
    nkiValueToString is the plain table lookup.) *)
Definition to_int (v : value) : M Z :=
  let t := v_type v in
  if t =? T_INT then ret (v_int v)
  else if t =? T_FLOAT then of_opt UbFloatCast (f_trunc (v_data v))
  else if t =? T_STRING then
    s <- gets (fun s => s) ;;
    match get_str s (v_data v) with Some txt => ret (c_atol txt) | None => ret 0 end
  else if t =? T_OBJ then ret 1
  else if t =? T_NIL then ret 0
  else add_error (err_convert t) ;;; ret 0.

(** nkiValueToFloat.  /repo/src/nkvalue.c:139-174. *)
Definition to_float (v : value) : M Z :=
  let t := v_type v in
  if t =? T_INT then ret (f_of_int (v_int v))
  else if t =? T_FLOAT then ret (v_data v)
  else if t =? T_STRING then
    s <- gets (fun s => s) ;;
    match get_str s (v_data v) with Some txt => ret (c_atof txt) | None => ret 0 end
  else if t =? T_NIL then ret 0
  else add_error (err_convert t) ;;; ret 0.

(** The text a non-string value converts to.  /repo/src/nkvalue.c:185-231. *)
Definition value_text (s : vm) (v : value) : bytes :=
  let t := v_type v in
  if t =? T_INT then i_to_str (v_int v)
  else if t =? T_FLOAT then f_to_str (v_data v)
  else bs "<" ++ type_name t ++ bs ":" ++ i_to_str (s32 (value_hash s v)) ++ bs ">".

(** nkiValueToString; [None] is the NULL result.  /repo/src/nkvalue.c:176-233. *)
Definition to_string (v : value) : M (option bytes) :=
  if v_type v =? T_STRING then gets (fun s => get_str s (v_data v))
  else
    s <- gets (fun s => s) ;;
    i <- find_or_add_string (value_text s v) ;;
    gets (fun s => get_str s i).

(** Three-way result of two C comparisons "a > b ? 1 : a == b ? 0 : -1". *)
Definition cmp3 (gt eq : bool) : Z := if gt then 1 else if eq then 0 else -1.

(** nkiValueCompare (with value_compareType).  /repo/src/nkvalue.c:235-355.
    The pointer-equality shortcut for strings is omitted: equal pointers have
    equal text, for which nkiStrcmp also gives 0. *)
Definition value_compare (a b : value) (strict : bool) : M Z :=
  let t := v_type a in
  if strict && (t <? v_type b) then ret (-1)
  else if strict && (v_type b <? t) then ret 1
  else if t =? T_NIL then ret (if v_type b =? T_NIL then 0 else 1)
  else if v_type b =? T_NIL then ret (-1)
  else if t =? T_INT then
    other <- to_int b ;; ret (cmp3 (other <? v_int a) (v_int a =? other))
  else if t =? T_FLOAT then
    other <- to_float b ;; ret (cmp3 (f_gt (v_data a) other) (f_eq (v_data a) other))
  else if t =? T_STRING then
    other <- to_string b ;;
    this <- to_string a ;;
    match other, this with
    | Some o, Some t => ret (str_cmp t o)
    | _, _ => add_error (bs "Bad string comparison.") ;;; ret 1
    end
  else if (t =? T_FUNC) || (t =? T_OBJ) then
    ret (if (v_type b =? t) && (v_data b =? v_data a) then 0
         else if v_data a <? v_data b then -1 else 1)
  else
    add_error (bs "Comparison unimplemented for type " ++ type_name t ++ bs ".") ;;;
    ret (-1).
