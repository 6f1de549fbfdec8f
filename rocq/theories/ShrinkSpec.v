(** * ShrinkSpec: what giving memory back is supposed to leave alone *)
From Verif Require Import Base TableModel State StackModel StackProofs StrModel ObjsModel.

(** A value once the objects and strings have got new identifiers. *)
Definition ren (ro rs : Z -> Z) (v : value) : value :=
  if v_type v =? T_OBJ then mkV T_OBJ (ro (v_data v))
  else if v_type v =? T_STRING then mkV T_STRING (rs (v_data v))
  else v.
Definition ren_field (ro rs : Z -> Z) (kv : value * value) : value * value := (ren ro rs (fst kv), ren ro rs (snd kv)).

(** Machine [t] is machine [s] with its objects and strings renumbered by [ro]
    and [rs]. *)
Record renumbered (s t : vm) (ro rs : Z -> Z) : Prop := {
  (* every object is still there, with the same fields *)
  rn_obj : forall i o, get_obj s i = Some o -> exists p, get_obj t (ro i) = Some p /\
             o_buckets p = map (map (ren_field ro rs)) (o_buckets o) /\ o_size p = o_size o /\
             o_handles p = o_handles o /\ o_ext p = o_ext o /\ o_data p = o_data o;
  rn_obj_only : forall j p, get_obj t j = Some p -> exists i o, get_obj s i = Some o /\ ro i = j;
  rn_obj_inj : forall i j o p, get_obj s i = Some o -> get_obj s j = Some p -> ro i = ro j -> i = j;
  (* under the same identifier if the host has a handle or it is a coroutine *)
  rn_fixed : forall i o, get_obj s i = Some o -> o_handles o <> 0 \/ o_ext o = v_corotype s -> ro i = i;
  (* every string is still there, under the same identifier if it is a literal *)
  rn_str : forall i e, get_str_entry s i = Some e -> exists f, get_str_entry t (rs i) = Some f /\
             s_str f = s_str e /\ s_keep f = s_keep e;
  rn_str_only : forall j f, get_str_entry t j = Some f -> exists i e, get_str_entry s i = Some e /\ rs i = j;
  rn_str_inj : forall i j e f, get_str_entry s i = Some e -> get_str_entry s j = Some f -> rs i = rs j -> i = j;
  rn_literal : forall i e, get_str_entry s i = Some e -> s_keep e = true -> rs i = i;
  (* the static space, where the global variables are *)
  rn_static : v_static t = map (ren ro rs) (v_static s);
  (* the stack of the context that is running *)
  rn_current : forall c, znth (v_ctxs s) (v_cur s) = Some (Some c) -> exists d, znth (v_ctxs t) (v_cur s) = Some (Some d) /\
             contents (c_stack d) = map (ren ro rs) (contents (c_stack c)) /\
             c_ip d = c_ip c /\ c_parent d = c_parent c /\ c_obj d = c_obj c /\ c_state d = c_state c;
  (* everything else as it was *)
  rn_rest : t = set_strs (v_strs t) (set_byhash (v_byhash t) (set_objs (v_objs t) (set_static (v_static t) (set_ctxs (v_ctxs t) s))))
}.

(** The stacks of the contexts that are not running: the same values -- which is
    right only if they need no renumbering. *)
Definition others_same (s t : vm) : Prop :=
  forall i c, i <> v_cur s -> znth (v_ctxs s) i = Some (Some c) -> exists d, znth (v_ctxs t) i = Some (Some d) /\
    contents (c_stack d) = contents (c_stack c) /\
    c_ip d = c_ip c /\ c_parent d = c_parent c /\ c_obj d = c_obj c /\ c_state d = c_state c.
Definition others_renumbered (s t : vm) (ro rs : Z -> Z) : Prop :=
  forall i c, znth (v_ctxs s) i = Some (Some c) -> exists d, znth (v_ctxs t) i = Some (Some d) /\
    contents (c_stack d) = map (ren ro rs) (contents (c_stack c)) /\
    c_ip d = c_ip c /\ c_parent d = c_parent c /\ c_obj d = c_obj c /\ c_state d = c_state c.
(** Values that have no identifier in them. *)
Definition no_reference (v : value) : Prop := v_type v <> T_OBJ /\ v_type v <> T_STRING.
