(** * ShrinkModel: giving memory back (/repo/src/nkshrink.c) *)
From Verif Require Import Base TableModel State StackModel ObjsModel.

(** The first [n] values of an array rewritten, each read and written in place. *)
Definition rewrite_first (f : value -> value) (n : Z) (l : list value) : res (list value) :=
  if zlen l <? n then Ub UbOob
  else Ok (map f (firstn (Z.to_nat n) l) ++ skipn (Z.to_nat n) l).

(** A reference to object [a] made one to object [b].
    /repo/src/nkshrink.c:61-65, 70-74, 85-90. *)
Definition ren_obj (a b : Z) (v : value) : value :=
  if (v_type v =? T_OBJ) && (v_data v =? a) then mkV T_OBJ b else v.
(** The same for strings.  /repo/src/nkshrink.c:115-119, 124-128, 140-145. *)
Definition ren_str (a b : Z) (v : value) : value :=
  if (v_type v =? T_STRING) && (v_data v =? a) then mkV T_STRING b else v.

(** References on the stack of the current context.
    /repo/src/nkshrink.c:60-66, 114-120. *)
Definition rewrite_stack (f : value -> value) : M unit :=
  c <- cur_ctx ;;
  let k := c_stack c in
  vals <- lift (rewrite_first f (k_size k) (k_vals k)) ;;
  mod_cur (set_c_stack (mkK vals (k_size k) (k_cap k) (k_mask k))).
(** References in the static space.  /repo/src/nkshrink.c:69-75, 123-129. *)
Definition rewrite_static (f : value -> value) : M unit :=
  l <- gets v_static ;;
  m <- gets v_smask ;;
  l' <- lift (rewrite_first f (m + 1) l) ;;
  modify (set_static l').
(** References in the keys and values of all objects; nothing is moved to
    another bucket.  /repo/src/nkshrink.c:78-95, 132-148. *)
Definition rewrite_fields (f : value -> value) (o : nkobj) : nkobj :=
  set_o_buckets (map (map (fun kv => (f (fst kv), f (snd kv)))) (o_buckets o)) o.
Definition rewrite_objects (f : value -> value) : M unit :=
  modify (fun s => set_objs (mkT (map (option_map (rewrite_fields f)) (t_slots (v_objs s))) (t_holes (v_objs s))) s).

(** nkiVmMoveObject.  /repo/src/nkshrink.c:46-97.  The list of holes is left as
    it is. *)
Definition move_object (a b : Z) : M unit :=
  t <- gets v_objs ;;
  match znth (t_slots t) b, znth (t_slots t) a with
  | Some None, Some (Some o) =>
    modify (set_objs (mkT (zupd (zupd (t_slots t) b (Some (set_o_idx b o))) a None) (t_holes t))) ;;;
    rewrite_stack (ren_obj a b) ;;;
    rewrite_static (ren_obj a b) ;;;
    rewrite_objects (ren_obj a b)
  | _, _ => mub UbAssert
  end.

(** nkiVmMoveString.  /repo/src/nkshrink.c:99-149.  The hash chains link the
    entries themselves; here they hold identifiers, which follow. *)
Definition move_string (a b : Z) : M unit :=
  t <- gets v_strs ;;
  match znth (t_slots t) b, znth (t_slots t) a with
  | Some None, Some (Some e) =>
    modify (set_strs (mkT (zupd (zupd (t_slots t) b (Some (set_s_idx b e))) a None) (t_holes t))) ;;;
    modify (fun s => set_byhash (map (map (fun i => if i =? a then b else i)) (v_byhash s)) s) ;;;
    rewrite_stack (ren_str a b) ;;;
    rewrite_static (ren_str a b) ;;;
    rewrite_objects (ren_str a b)
  | _, _ => mub UbAssert
  end.

(** The search for something that may be moved, from position [i] of the table
    on; [l] is the rest of the table.  /repo/src/nkshrink.c:204-225, 242-251. *)
Fixpoint find_movable {A} (may : A -> bool) (l : list (option A)) (i : Z) : option Z :=
  match l with
  | [] => None
  | Some x :: r => if may x then Some i else find_movable may r (i + 1)
  | None :: r => find_movable may r (i + 1)
  end.
(** The outer loop over the holes: [n] slots to go from [e] on, and [o] is
    objectSearch.  /repo/src/nkshrink.c:193-228, 233-255. *)
Fixpoint pack {A} (tab : vm -> table A) (may : vm -> A -> bool) (move : Z -> Z -> M unit) (n : nat) (e o : Z) : M unit :=
  match n with
  | O => ret tt
  | S k =>
    s <- gets (fun s => s) ;;
    x <- lift (rd (t_slots (tab s)) e) ;;
    match x with
    | Some _ => pack tab may move k (e + 1) o
    | None =>
      let o1 := if o <? e then e + 1 else o in
      match find_movable (may s) (skipn (Z.to_nat o1) (t_slots (tab s))) o1 with
      | Some j => move j e ;;; pack tab may move k (e + 1) j
      | None => pack tab may move k (e + 1) (t_cap (tab s))
      end
    end
  end.

(** An object no handle is held on and that is no coroutine.
    /repo/src/nkshrink.c:215-217. *)
Definition movable_object (s : vm) (o : nkobj) : bool :=
  (o_handles o =? 0) && negb (o_ext o =? v_corotype s).
(** /repo/src/nkshrink.c:244. *)
Definition movable_string (s : vm) (e : nkstr) : bool := negb (s_keep e).

(** nkiVmShrinkStack.  /repo/src/nkshrink.c:151-176. *)
Definition shrink_stack (k : stack) : stack :=
  let n := halve 32 (k_cap k) (k_size k) in
  let n := if n <? 1 then 1 else n in
  if n =? k_cap k then k
  else mkK (firstn (Z.to_nat n) (k_vals k)) (k_size k) n (n - 1).
Definition shrink_ctx (i : Z) : M unit :=
  c <- get_ctx i ;; put_ctx i (set_c_stack (shrink_stack (c_stack c)) c).
(** The stacks of the coroutines.  /repo/src/nkshrink.c:262-273. *)
Fixpoint shrink_coroutines (l : list (option nkobj)) : M unit :=
  match l with
  | [] => ret tt
  | x :: r =>
    ct <- gets v_corotype ;;
    match x with
    | Some o =>
      if o_ext o =? ct then i <- of_opt UbNull (o_data o) ;; shrink_ctx i ;;; shrink_coroutines r
      else shrink_coroutines r
    | None => shrink_coroutines r
    end
  end.

(** nkiVmShrink.  /repo/src/nkshrink.c:178-275. *)
Definition shrink : M unit :=
  e <- gets has_errors ;;
  if e then ret tt
  else
    n <- gets (fun s => length (t_slots (v_objs s))) ;;
    pack v_objs movable_object move_object n 0 0 ;;;
    m <- gets (fun s => length (t_slots (v_strs s))) ;;
    pack v_strs movable_string move_string m 0 0 ;;;
    modify (fun s => set_objs (tab_shrink (v_objs s)) s) ;;;
    modify (fun s => set_strs (tab_shrink (v_strs s)) s) ;;;
    shrink_ctx 0 ;;;
    l <- gets (fun s => t_slots (v_objs s)) ;;
    shrink_coroutines l.
