(** * InsnSpec: what the instruction properties C56-C59 talk about *)
From Coq Require Import Floats.SpecFloat.
From Verif Require Import Base State StrModel ValueModel StackModel ObjsModel VmModel StrSpec OpSpec.

(** The float a value converts to. *)
Inductive as_float (s : vm) : value -> Z -> Prop :=
| af_int v : v_type v = T_INT -> as_float s v (f_of_int (v_int v))
| af_float v : v_type v = T_FLOAT -> as_float s v (v_data v)
| af_string v t : v_type v = T_STRING -> get_str s (v_data v) = Some t -> as_float s v (c_atof t).

(** Lexicographic order of two texts; characters compare as C's (signed)
    char, and a proper prefix compares as if it went on with a zero. *)
Fixpoint lex (a b : bytes) : comparison :=
  match a, b with
  | [], [] => Eq
  | [], y :: _ => Z.compare 0 (s8 y)
  | x :: _, [] => Z.compare (s8 x) 0
  | x :: a', y :: b' => match Z.compare (s8 x) (s8 y) with Eq => lex a' b' | c => c end
  end.

(** How two operands of a comparison are ordered.  The left operand decides
    how the right one is converted; nil is above everything else.  (A string
    compared with a non-string is not covered.) *)
Inductive orders (s : vm) : value -> value -> comparison -> Prop :=
| or_int a b y : v_type a = T_INT -> v_type b <> T_NIL -> as_int s b y -> orders s a b (Z.compare (v_int a) y)
| or_float a b y c : v_type a = T_FLOAT -> as_float s b y ->
    SFcompare (f_dec (v_data a)) (f_dec y) = Some c -> orders s a b c
| or_string a b t u : v_type a = T_STRING -> v_type b = T_STRING ->
    get_str s (v_data a) = Some t -> get_str s (v_data b) = Some u -> all_bytes t -> all_bytes u -> orders s a b (lex t u)
| or_func a b : v_type a = T_FUNC -> v_type b = T_FUNC -> orders s a b (Z.compare (v_data a) (v_data b))
| or_obj a b : v_type a = T_OBJ -> v_type b = T_OBJ -> orders s a b (Z.compare (v_data a) (v_data b))
| or_nil a b : v_type a = T_NIL -> v_type b = T_NIL -> orders s a b Eq
| or_nil_left a b : v_type a = T_NIL -> v_type b <> T_NIL -> orders s a b Gt
| or_nil_right a b : v_type a <> T_NIL -> v_type b = T_NIL -> orders s a b Lt.

(** The comparison instructions and when they answer 1. *)
Definition comparisons : list (Z * (comparison -> Prop)) :=
  [(O_LT, fun c => c = Lt); (O_GT, fun c => c = Gt); (O_EQ, fun c => c = Eq);
   (O_LE, fun c => c = Lt \/ c = Eq); (O_GE, fun c => c = Gt \/ c = Eq); (O_NE, fun c => c <> Eq)].

(** 1 for yes, 0 for no. *)
Definition answers (P : Prop) (v : Z) : Prop := (P /\ v = 1) \/ (~ P /\ v = 0).

(** There is room for one more value: a spare slot, or the stack may still
    double (its hard limit is 2^16 slots, the host may set a lower one). *)
Definition can_push (s : vm) : Prop :=
  exists c, znth (v_ctxs s) (v_cur s) = Some (Some c) /\
    (k_size (c_stack c) < k_cap (c_stack c) \/
     (k_cap (c_stack c) <= 65535 /\ k_cap (c_stack c) * 2 <= v_maxstack s)).

(** [l] with the value at index [i] replaced by [x]. *)
Definition replaced (l : list value) (i : Z) (x : value) (l' : list value) : Prop :=
  zlen l' = zlen l /\ znth l' i = Some x /\ forall j, j <> i -> znth l' j = znth l j.

(** A stack index as instructions use it: from the bottom if it is not
    negative, from the top otherwise. *)
Definition slot_of (l : list value) (i j : Z) : Prop :=
  0 <= j < zlen l /\ (0 <= i /\ j = i \/ i < 0 /\ j = zlen l + i).

(** The text a value has when it is appended to a string. *)
Inductive text_of (s : vm) : value -> bytes -> Prop :=
| to_str v t : v_type v = T_STRING -> get_str s (v_data v) = Some t -> text_of s v t
| to_dec v : v_type v = T_INT -> text_of s v (i_to_str (v_int v))
| to_flo v : v_type v = T_FLOAT -> text_of s v (f_to_str (v_data v)).

(** The code word at address [a] (addresses wrap at the size of the code). *)
Definition code_at (s : vm) (a w : Z) : Prop := znth (v_code s) (Z.land a (v_cmask s)) = Some w.

(** [s'] is [s] with the global at index [i] replaced by [x] and the operand
    stack replaced by [l]. *)
Definition stored (s : vm) (i : Z) (x : value) (l : list value) (s' : vm) : Prop :=
  exists g, replaced (v_static s) i x g /\ restacked (set_static g s) l s'.
