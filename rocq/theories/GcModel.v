(** * GcModel: the garbage collector (/repo/src/nkgc.c) *)
From Verif Require Export StackModel.

Section Gc.

(** What the host's GC mark callback of an external type marks, given the
    type, the object and its external data.  Parameter of the model. *)
Variable hostmark : Z -> Z -> option Z -> list value.

(** nkiVmGarbageCollect_markString.  /repo/src/nkgc.c:79-94. *)
Definition mark_string (pass : Z) (i : Z) : M unit :=
  s <- gets (fun s => s) ;;
  match get_str_entry s i with
  | Some e =>
    modify (fun s => set_strs
      (mkT (zupd (t_slots (v_strs s)) i (Some (set_s_gc pass e))) (t_holes (v_strs s))) s)
  | None => add_error (bs "GC error: Bad string table index.")
  end.

(** nkiVmGarbageCollect_addObject; the open list is passed and returned.
    /repo/src/nkgc.c:96-114. *)
Definition gc_add_object (pass : Z) (open : list Z) (i : Z) : M (list Z) :=
  s <- gets (fun s => s) ;;
  match get_obj s i with
  | Some o => ret (if o_gc o =? pass then open else i :: open)
  | None => add_error (bs "Bad object reference in garbage collector.") ;;; ret open
  end.

(** nkiVmGarbageCollect_markValue.  /repo/src/nkgc.c:116-133. *)
Definition mark_value (pass : Z) (open : list Z) (v : value) : M (list Z) :=
  if v_type v =? T_OBJ then gc_add_object pass open (v_data v)
  else if v_type v =? T_STRING then mark_string pass (v_data v) ;;; ret open
  else ret open.

Fixpoint mark_values (pass : Z) (open : list Z) (vs : list value) : M (list Z) :=
  match vs with
  | [] => ret open
  | v :: r => open' <- mark_value pass open v ;; mark_values pass open' r
  end.

(** The values of an object's elements in the order the collector visits
    them.  /repo/src/nkgc.c:150-165. *)
Definition obj_values (o : nkobj) : list value :=
  flat_map (fun kv => [fst kv; snd kv]) (concat (o_buckets o)).

(** The first [k_size] values of a stack. *)
Definition stack_values (k : stack) : list value := firstn (Z.to_nat (k_size k)) (k_vals k).

(** nkiCoroutineLibrary_coroutineGCMark: the values it marks.
    /repo/src/nkcorout.c:51-75. *)
Definition coro_values (d : option Z) : M (list value) :=
  match d with
  | None => ret []
  | Some i =>
    c <- get_ctx i ;;
    p <- (match c_parent c with
          | None => ret []
          | Some j => pc <- get_ctx j ;; ret [c_obj pc]
          end) ;;
    if zlen (k_vals (c_stack c)) <? k_size (c_stack c) then mub UbOob
    else ret (p ++ stack_values (c_stack c))
  end.

(** nkiVmGarbageCollect_markObject.  /repo/src/nkgc.c:135-188. *)
Definition mark_object (pass : Z) (open : list Z) (i : Z) : M (list Z) :=
  o <- rd_obj i ;;
  if o_gc o =? pass then ret open
  else
    wr_obj i (set_o_gc pass o) ;;;
    open1 <- mark_values pass open (obj_values o) ;;
    s <- gets (fun s => s) ;;
    if o_ext o =? INVALID then ret open1
    else
      match znth (v_exttypes s) (o_ext o) with
      | None => ret open1
      | Some et =>
        if et_mark et then
          vs <- (if o_ext o =? v_corotype s then coro_values (o_data o)
                 else ret (hostmark (o_ext o) (o_idx o) (o_data o))) ;;
          mark_values pass open1 vs
        else ret open1
      end.

(** nkiVmGarbageCollect_markReferenced.  /repo/src/nkgc.c:190-204. *)
Fixpoint mark_referenced (fuel : nat) (pass : Z) (open : list Z) : M unit :=
  match open with
  | [] => ret tt
  | i :: r =>
    match fuel with
    | O => mub UbFuel
    | S f => open' <- mark_object pass r i ;; mark_referenced f pass open'
    end
  end.

Fixpoint mark_objects (pass : Z) (open : list Z) (ids : list Z) : M (list Z) :=
  match ids with
  | [] => ret open
  | i :: r => open' <- mark_object pass open i ;; mark_objects pass open' r
  end.

(** Number of values an object can contribute to the open list; only used to
    give the fuelled loop enough fuel. *)
Definition obj_weight (s : vm) (o : nkobj) : nat :=
  Nat.add (length (obj_values o))
   (if (o_ext o =? v_corotype s) then
      match o_data o with
      | Some i => match znth (v_ctxs s) i with
                  | Some (Some c) => S (length (stack_values (c_stack c)))
                  | _ => O end
      | None => O end
    else length (hostmark (o_ext o) (o_idx o) (o_data o))).
Definition gc_fuel (s : vm) (open : list Z) : nat :=
  fold_right (fun x n => match x with Some o => (obj_weight s o + n)%nat | None => n end)
    (length open) (t_slots (v_objs s)).

(** nkiVmGarbageCollect.  /repo/src/nkgc.c:218-290. *)
Definition garbage_collect : M unit :=
  modify (fun s => set_gcpass (u32 (v_gcpass s + 1)) s) ;;;
  pass <- gets v_gcpass ;;
  s <- gets (fun s => s) ;;
  (* objects with external handles *)
  open1 <- mark_objects pass [] (v_hlist s) ;;
  (* the root stack *)
  rc <- get_ctx 0 ;;
  (if zlen (k_vals (c_stack rc)) <? k_size (c_stack rc) then mub UbOob else ret tt) ;;;
  open2 <- mark_values pass open1 (stack_values (c_stack rc)) ;;
  (* the current coroutine *)
  cc <- cur_ctx ;;
  open3 <- mark_value pass open2 (c_obj cc) ;;
  (* static space, slots 0 .. staticAddressMask *)
  (if zlen (v_static s) <? v_smask s + 1 then mub UbOob else ret tt) ;;;
  open4 <- mark_values pass open3 (firstn (Z.to_nat (v_smask s + 1)) (v_static s)) ;;
  s4 <- gets (fun s => s) ;;
  mark_referenced (gc_fuel s4 open4) pass open4 ;;;
  clean_old_strings pass ;;;
  clean_old_objects pass.

End Gc.
