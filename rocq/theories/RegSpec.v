(** * RegSpec: what the registries and reports are supposed to do *)
From Verif Require Import Base TableModel State StrModel TokenModel RegModel.

(** One registration made by the host or the compiler, and any interleaving
    of them. *)
Inductive registration : vm -> vm -> Prop :=
| R_function n cb s i s' : register_external_function n cb s = Ok (i, s') -> registration s s'
| R_internal e s i s' : get_or_create_internal e s = Ok (i, s') -> registration s s'
| R_type n a b c s i s' : register_external_type n a b c s = Ok (i, s') -> registration s s'
| R_subsystem n d a b s i s' : init_subsystem n d a b s = Ok (i, s') -> registration s s'
| R_file n s i s' : add_source_file n s = Ok (i, s') -> registration s s'.

Inductive registrations : vm -> vm -> Prop :=
| RS_none s : registrations s s
| RS_more s s1 s2 : registration s s1 -> registrations s1 s2 -> registrations s s2.

(** Every text is a C string: bytes 1..255. *)
Definition text (t : bytes) : Prop := Forall (fun c => 0 < c < 256) t.

(** Everything the host reads in an error report: every message in order,
    each followed by a newline. *)
Definition report (errs : list bytes) : bytes := concat (map (fun e => e ++ [10]) errs).

(** Source positions recorded in the order of the code. *)
Fixpoint in_code_order (l : list marker) : Prop :=
  match l with
  | a :: (b :: _) as r => mk_instr a <= mk_instr b /\ in_code_order r
  | _ => True
  end.

(** [m] is the last position of [l] recorded at or before instruction [i]. *)
Definition last_at_or_before (l : list marker) (i : Z) (m : marker) : Prop :=
  exists before after, l = before ++ m :: after /\
    mk_instr m <= i /\ Forall (fun x => i < mk_instr x) after.

(** The host's enumeration loop, starting at index [i]: the identifiers it is
    given until the function returns false. *)
Inductive enumerates (s : vm) (ty : Z) : Z -> list Z -> Prop :=
| En_end i out i' : get_next_object s ty i = Ok (false, out, i') -> enumerates s ty i []
| En_more i o i' l : get_next_object s ty i = Ok (true, o, i') ->
    enumerates s ty i' l -> enumerates s ty i (o :: l).

Fixpoint increasing (l : list Z) : Prop :=
  match l with
  | a :: (b :: _) as r => a < b /\ increasing r
  | _ => True
  end.

(** Registrations that do not initialise the subsystem called [n]. *)
Inductive registrations_except (n : bytes) : vm -> vm -> Prop :=
| RE_none s : registrations_except n s s
| RE_function f cb s i s1 s2 : register_external_function f cb s = Ok (i, s1) ->
    registrations_except n s1 s2 -> registrations_except n s s2
| RE_internal e s i s1 s2 : get_or_create_internal e s = Ok (i, s1) ->
    registrations_except n s1 s2 -> registrations_except n s s2
| RE_type t a b c s i s1 s2 : register_external_type t a b c s = Ok (i, s1) ->
    registrations_except n s1 s2 -> registrations_except n s s2
| RE_subsystem m d a b s i s1 s2 : m <> n -> init_subsystem m d a b s = Ok (i, s1) ->
    registrations_except n s1 s2 -> registrations_except n s s2
| RE_file f s i s1 s2 : add_source_file f s = Ok (i, s1) ->
    registrations_except n s1 s2 -> registrations_except n s s2.

(** The names of all subsystems a machine knows. *)
Definition subsystem_names (s : vm) : list bytes := map sub_name (concat (v_subsys s)).
