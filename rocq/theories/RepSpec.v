(** * RepSpec: what the values of the semantics are in the virtual machine
    (C37, C38, C40-C42)

    RunSpec speaks of values; this says which values of the virtual machine
    they are.  The objects of the semantics are numbered in the order they are
    made; [W] gives the identifier the virtual machine has for one, or nothing
    if the object is no longer in use. *)

From Verif Require Import Base State StrModel ObjsModel ObjsSpec RunSpec.

Definition rep (s : vm) (W : Z -> option Z) (v : val) (x : value) : Prop :=
  match v with
  | VInt z => x = vint z /\ is_s32 z
  | VFlt b => x = mkV T_FLOAT b
  | VStr t => v_type x = T_STRING /\ get_str s (v_data x) = Some t
  | VNil => v_type x = T_NIL
  | VFun id => x = mkV T_FUNC id /\ is_u32 id
  | VObj a => exists i, W a = Some i /\ x = vobj i
  end.

(** The objects in use have exactly the fields they should have: reading a
    field gives its value, and there are as many as there should be. *)
Definition heap_is (s : vm) (W : Z -> option Z) (H : list obj) : Prop :=
  (forall a b i, W a = Some i -> W b = Some i -> a = b) /\
  forall a i, W a = Some i -> exists l o, znth H a = Some l /\ get_obj s i = Some o /\ o_size o = zlen l /\
    forall k kx, key_ok k -> rep s W k kx -> exists x, read_field i kx s = Ok (x, s) /\ rep s W (oget k l) x.
