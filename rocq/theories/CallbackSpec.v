(** * CallbackSpec: what C69 is about *)
From Verif Require Import Base State ObjsModel CallbackModel.

(** Exactly one message was added to the errors, [msg] behind the position
    the machine was at, and nothing else changed. *)
Definition noted (s : vm) (msg : bytes) (s' : vm) : Prop :=
  exists at_, s' = set_errs (v_errs s ++ [at_ ++ bs ": " ++ msg]) s.

(** At least one message was added and nothing else changed. *)
Definition complained (s s' : vm) : Prop :=
  exists e more, s' = set_errs (v_errs s ++ e :: more) s.

(** The value [a] is what the declaration [d] asks for: a parameter declared
    nil takes anything; an object has to exist and to be of the external type
    that is asked for, if one is. *)
Definition wanted (s : vm) (d : decl) (a : value) : Prop :=
  d_type d = T_NIL \/
  (v_type a = d_type d /\
   (d_type d = T_OBJ ->
    exists o, get_obj s (v_data a) = Some o /\ (d_ext d = INVALID \/ o_ext o = d_ext d))).

(** The argument with index [i] is an object that exists, of the external
    type [et]. *)
Definition external_argument (s : vm) (args : list value) (i et : Z) (o : nkobj) : Prop :=
  exists a, znth args i = Some a /\ v_type a = T_OBJ /\ get_obj s (v_data a) = Some o /\ o_ext o = et.
