(** * SaveSpec: what saving and loading are supposed to do *)
From Verif Require Import Base TableModel State StackModel StackProofs StrModel ObjsModel VmModel VmSpec ValueSpec ObjsSpec RegModel RegSpec SaveModel.

(** A machine the host has just made: created, then registrations in any
    order, then limits of its choice. *)
Definition prepared (s : vm) : Prop :=
  exists s0 ms mf lf, registrations vm_init s0 /\ is_u32 ms /\
    s = set_maxstack ms (set_maxfields mf (set_left lf s0)).

(** A file: any bytes. *)
Definition any_bytes (b : bytes) : Prop := Forall (fun c => 0 <= c < 256) b.

(** What a file can get wrong without the loader noticing. *)
Record sane (s : vm) : Prop := {
  (* tables of no capacity *)
  sn_strs : 0 < t_cap (v_strs s);
  sn_objs : 0 < t_cap (v_objs s);
  (* two strings with the same text *)
  sn_uniq : forall i j t, get_str s i = Some t -> get_str s j = Some t -> i = j;
  (* strings and objects marked by a collection that has not happened yet *)
  sn_sgc : forall i e, get_str_entry s i = Some e -> s_gc e <= v_gcpass s;
  sn_ogc : forall i o, get_obj s i = Some o -> o_gc o <= v_gcpass s;
  (* a coroutine whose stack holds more than there is room for *)
  sn_stk : forall i c, znth (v_ctxs s) i = Some (Some c) -> k_size (c_stack c) <= k_cap (c_stack c)
}.

(** ** Saving and loading back *)

Definition raw_value (v : value) : Prop := is_u32 (v_type v) /\ is_u32 (v_data v).
(** A C string whose length can be written. *)
Definition short_text (t : bytes) : Prop := text t /\ zlen t < INVALID.
Definition raw_stack (k : stack) : Prop :=
  Forall raw_value (k_vals k) /\ k_cap k < INVALID / 8.

(** Everything in the machine is made of 32-bit words and C strings, and no
    table is larger than nkiMallocArray allows. *)
Record machine_words (s : vm) : Prop := {
  mw_code : Forall is_u32 (v_code s) /\ zlen (v_code s) < INVALID / 4;
  mw_static : Forall raw_value (v_static s) /\ zlen (v_static s) < INVALID / 8;
  mw_errs : Forall short_text (v_errs s) /\ zlen (v_errs s) < W32;
  mw_ctxs : forall i c, znth (v_ctxs s) i = Some (Some c) ->
              is_u32 (c_ip c) /\ is_u32 (c_state c) /\ raw_stack (c_stack c);
  mw_strs : t_cap (v_strs s) < INVALID / 8 /\
            forall i e, get_str_entry s i = Some e -> zlen (s_str e) < INVALID - 33;
  mw_gc : is_u32 (v_gcpass s) /\ is_u32 (v_gcint s) /\ is_u32 (v_gccount s) /\
          is_u32 (v_newint s) /\ is_u32 (v_newcount s);
  mw_extfuncs : zlen (v_extfuncs s) < INVALID / 4 /\
                Forall (fun x => is_u32 (x_func x) /\ short_text (x_name x)) (v_extfuncs s);
  mw_funcs : zlen (v_funcs s) < INVALID / 12 /\
             Forall (fun f => is_u32 (f_argc f) /\ is_u32 (f_first f) /\
                              (f_ext f = INVALID \/ 0 <= f_ext f < zlen (v_extfuncs s))) (v_funcs s);
  mw_objs : t_cap (v_objs s) < INVALID / 8 /\
            forall i o, get_obj s i = Some o ->
              is_u32 (o_ext o) /\ (o_ext o = INVALID \/ o_ext o < zlen (v_exttypes s)) /\
              Forall (fun kv => raw_value (fst kv) /\ raw_value (snd kv)) (concat (o_buckets o));
  mw_globals : zlen (v_globals s) < INVALID / 16 /\
               Forall (fun g => is_u32 (fst g) /\ short_text (snd g)) (v_globals s);
  mw_types : Forall (fun t => short_text (et_name t)) (v_exttypes s) /\
             4 * zlen (v_exttypes s) + longest (v_exttypes s) + 8 < INVALID;
  mw_subs : zlen (concat (v_subsys s)) < W32 /\
            Forall (fun x => short_text (sub_name x)) (concat (v_subsys s));
  mw_files : Forall short_text (v_files s) /\ zlen (v_files s) < INVALID / 8;
  mw_markers : zlen (v_markers s) < INVALID / 16 /\
               Forall (fun m => is_u32 (mk_instr m) /\ is_u32 (mk_file m) /\ is_u32 (mk_line m) /\ is_u32 (mk_actual m)) (v_markers s)
}.

(** A machine worth saving: well formed, its objects' counts exact, the fields
    of each object under ordinary keys, different from each other and each in
    the bucket of its hash, the coroutines that are waiting for another one
    running, and at least one script function (see C43_no_functions_refuted). *)
Record saveable (s : vm) : Prop := {
  sv_wf : wf true 0 s;
  sv_words : machine_words s;
  sv_keys : forall i o b c, get_obj s i = Some o -> znth (o_buckets o) b = Some c ->
              Forall (fun kv => ordinary s (fst kv) /\ key_bucket s (fst kv) = b) c /\
              forall p q k l, p <> q -> znth c p = Some k -> znth c q = Some l -> key_eq (fst k) (fst l) = false;
  sv_running : forall l, chain (v_ctxs s) (v_cur s) l -> forall i c, In i l -> znth (v_ctxs s) i = Some (Some c) ->
              c_state c = CO_RUNNING;
  sv_funcs : v_funcs s <> []
}.

(** A machine prepared like the one saved: the same types, host functions and
    subsystems under the same names, and limits that allow what was saved. *)
Record twin (s t : vm) : Prop := {
  tn_types : v_exttypes t = v_exttypes s;
  tn_co : v_corotype t = v_corotype s;
  tn_funcs : map x_name (v_extfuncs t) = map x_name (v_extfuncs s);
  tn_names : NoDup (map x_name (v_extfuncs s));
  tn_subs : forall x, In x (concat (v_subsys s)) ->
              exists l y, znth (v_subsys t) (sub_bucket (sub_name x)) = Some l /\
                          find_sub l (sub_name x) = Some y /\ sub_ser y = sub_ser x;
  tn_stack : forall i c, znth (v_ctxs s) i = Some (Some c) -> k_cap (c_stack c) <= v_maxstack t;
  tn_fields : forall i o, get_obj s i = Some o -> o_size o <= v_maxfields t;
  tn_errs : v_errs t = []
}.

(** What the host's own writers write for the objects of the machine, its
    readers read back. *)
Definition host_faithful (s : vm) (host_save : Z -> Z -> option Z -> bytes) (host_load : Z -> Z -> bytes -> option Z * nat) : Prop :=
  forall i o, get_obj s i = Some o -> o_ext o <> INVALID -> o_ext o <> v_corotype s ->
    any_bytes (host_save (o_ext o) i (o_data o)) /\
    forall rest, host_load (o_ext o) i (host_save (o_ext o) i (o_data o) ++ rest) =
                 (o_data o, length (host_save (o_ext o) i (o_data o))).
Definition subs_faithful (sub_save : bytes -> bytes) (sub_load : bytes -> bytes -> nat) : Prop :=
  forall n, any_bytes (sub_save n) /\ forall rest, sub_load n (sub_save n ++ rest) = length (sub_save n).

(** The same execution context: same position, same values on the stack, same
    state, of the same coroutine, resumed by the same one.  Contexts are
    compared by the coroutine they belong to. *)
Record same_ctx (s t : vm) (c d : ctx) : Prop := {
  sc_ip : c_ip d = c_ip c;
  sc_stack : contents (c_stack d) = contents (c_stack c);
  sc_size : k_size (c_stack d) = k_size (c_stack c);
  sc_cap : k_cap (c_stack d) = k_cap (c_stack c);
  sc_state : c_state d = c_state c;
  sc_obj : c_obj d = c_obj c;
  sc_parent : match c_parent c, c_parent d with
              | None, None => True
              | Some p, Some q => exists c' d', znth (v_ctxs s) p = Some (Some c') /\
                                   znth (v_ctxs t) q = Some (Some d') /\ c_obj d' = c_obj c'
              | _, _ => False
              end
}.
(** The same object: same fields (each bucket in the opposite order), same
    handles, same type; the host's data if it writes any, the coroutine. *)
Record same_obj (s t : vm) (o p : nkobj) : Prop := {
  so_size : o_size p = o_size o;
  so_handles : o_handles p = o_handles o;
  so_gc : o_gc p = o_gc o;
  so_ext : o_ext p = o_ext o;
  so_fields : o_buckets p = map (@rev _) (o_buckets o);
  so_co : o_ext o = v_corotype s -> exists i j c d, o_data o = Some i /\ o_data p = Some j /\
            znth (v_ctxs s) i = Some (Some c) /\ znth (v_ctxs t) j = Some (Some d) /\ same_ctx s t c d;
  so_host : forall et, o_ext o <> v_corotype s -> o_ext o <> INVALID -> znth (v_exttypes s) (o_ext o) = Some et ->
            et_ser et = true -> o_data p = o_data o
}.
Record same_machine (s t : vm) : Prop := {
  sm_code : v_code t = v_code s /\ v_cmask t = v_cmask s;
  sm_static : v_static t = v_static s /\ v_smask t = v_smask s;
  sm_errs : v_errs t = v_errs s;
  sm_root : exists c d, znth (v_ctxs s) 0 = Some (Some c) /\ znth (v_ctxs t) 0 = Some (Some d) /\ same_ctx s t c d;
  sm_cur : exists c d, znth (v_ctxs s) (v_cur s) = Some (Some c) /\ znth (v_ctxs t) (v_cur t) = Some (Some d) /\
             same_ctx s t c d;
  sm_strs : forall i, get_str_entry t i = get_str_entry s i;
  sm_objs : forall i, match get_obj s i, get_obj t i with
                      | Some o, Some p => same_obj s t o p
                      | None, None => True
                      | _, _ => False
                      end;
  sm_gc : v_gcpass t = v_gcpass s /\ v_gcint t = Z.min 65536 (v_gcint s) /\ v_gccount t = v_gccount s /\
          v_newint t = v_newint s /\ v_newcount t = v_newcount s;
  sm_funcs : v_funcs t = v_funcs s;
  sm_globals : v_globals t = v_globals s;
  sm_files : v_files t = v_files s;
  sm_markers : v_markers t = v_markers s
}.
