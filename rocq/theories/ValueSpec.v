(** * ValueSpec: what the value properties talk about *)
From Coq Require Import Floats.SpecFloat.
From Verif Require Import Base State StrModel.

(** An ordinary value: one of the six types, a 32-bit payload, a string
    identifier that is in use, and not a floating-point NaN. *)
Definition ordinary (s : vm) (v : value) : Prop :=
  0 <= v_data v < W32 /\
  ((v_type v = T_INT) \/
   (v_type v = T_FLOAT /\ f_dec (v_data v) <> S754_nan) \/
   (v_type v = T_STRING /\ exists t, get_str s (v_data v) = Some t) \/
   (v_type v = T_FUNC) \/ (v_type v = T_OBJ) \/ (v_type v = T_NIL)).

(** Same type and same contents: integers, functions and objects by payload,
    floats by IEEE equality, strings by text; all nils are alike. *)
Definition same_value (s : vm) (a b : value) : Prop :=
  v_type a = v_type b /\
  (v_type a = T_INT -> v_int a = v_int b) /\
  (v_type a = T_FLOAT -> SFcompare (f_dec (v_data a)) (f_dec (v_data b)) = Some Eq) /\
  (v_type a = T_STRING -> exists t, get_str s (v_data a) = Some t /\ get_str s (v_data b) = Some t) /\
  (v_type a = T_FUNC -> v_data a = v_data b) /\
  (v_type a = T_OBJ -> v_data a = v_data b).
