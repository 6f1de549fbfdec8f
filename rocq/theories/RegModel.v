(** * RegModel: registries, error reports, enumeration

    Functions of the host interface that look things up by name or list
    them: external functions, types, subsystems, the error report, and the
    enumeration of objects by external type. *)
From Verif Require Import Base TableModel State StrModel.

(** A linear search as the registries do it: index of the first entry that
    satisfies the test, counting from [i]. *)
Fixpoint find_idx {A} (p : A -> bool) (l : list A) (i : Z) : option Z :=
  match l with
  | [] => None
  | x :: r => if p x then Some i else find_idx p r (i + 1)
  end.

(** ** External functions *)

(** Comparing callback pointers. *)
Definition cb_eqb (a b : option Z) : bool :=
  match a, b with
  | None, None => true
  | Some x, Some y => x =? y
  | _, _ => false
  end.

(** nkiVmRegisterExternalFunctionNoSearch.  /repo/src/nkfunc.c:175-210. *)
Definition register_external_function_nosearch (n : bytes) (cb : option Z) : M Z :=
  l <- gets v_extfuncs ;;
  if u32 (zlen l + 1) =? 0 then
    add_error (bs "Too many external functions registered.") ;;; ret INVALID
  else
    modify (set_extfuncs (l ++ [mkXF n cb INVALID INVALID []])) ;;;
    ret (zlen l).

(** nkiVmRegisterExternalFunction.  /repo/src/nkfunc.c:148-173. *)
Definition register_external_function (n : bytes) (cb : option Z) : M Z :=
  l <- gets v_extfuncs ;;
  match find_idx (fun x => cb_eqb (x_cb x) cb && bytes_eqb (x_name x) n) l 0 with
  | Some i => ret i
  | None => register_external_function_nosearch n cb
  end.

(** nkiVmCreateFunction (with a non-NULL second argument).
    /repo/src/nkfunc.c:46-65.  When the counter wraps the table is
    reallocated to nothing and the following writes are out of bounds. *)
Definition create_function : M Z :=
  l <- gets v_funcs ;;
  if u32 (zlen l + 1) =? 0 then mub UbOob
  else modify (set_funcs (l ++ [mkF 0 0 INVALID])) ;;; ret (zlen l).

Definition set_x_func (i : Z) (x : extfunc) : extfunc :=
  mkXF (x_name x) (x_cb x) i (x_argc x) (x_types x).

(** nkiVmGetOrCreateInternalFunctionForExternalFunction.
    /repo/src/nkfunc.c:212-245. *)
Definition get_or_create_internal (e : Z) : M Z :=
  l <- gets v_extfuncs ;;
  if zlen l <=? e then
    add_error (bs "Tried to create an internal function to represent a bad external function.") ;;;
    ret INVALID
  else
    x <- lift (rd l e) ;;
    if x_func x =? INVALID then
      i <- create_function ;;
      fs <- gets v_funcs ;;
      fs' <- lift (wr fs i (mkF INVALID 0 e)) ;;
      modify (set_funcs fs') ;;;
      l' <- lift (wr l e (set_x_func i x)) ;;
      modify (set_extfuncs l') ;;;
      ret i
    else ret (x_func x).

(** ** External types *)

(** nkiVmFindExternalType.  /repo/src/nkvm.c:500-515. *)
Definition find_external_type (s : vm) (n : bytes) : Z :=
  match find_idx (fun t => bytes_eqb (et_name t) n) (v_exttypes s) 0 with
  | Some i => i
  | None => INVALID
  end.

(** nkiVmGetExternalTypeName.  /repo/src/nkvm.c:517-524. *)
Definition external_type_name (s : vm) (i : Z) : res bytes :=
  if zlen (v_exttypes s) <=? i then Ok []
  else do t <- rd (v_exttypes s) i; Ok (et_name t).

(** nkiVmRegisterExternalType.  /repo/src/nkvm.c:458-498. *)
Definition register_external_type (n : bytes) (ser cl mk : bool) : M Z :=
  s <- gets (fun s => s) ;;
  if negb (find_external_type s n =? INVALID) then
    add_error (bs "Attempted to register an external type twice.") ;;; ret INVALID
  else if zlen (v_exttypes s) =? INVALID then
    add_error (bs "Allocated too many types.") ;;; ret INVALID
  else
    modify (set_exttypes (v_exttypes s ++ [mkET n ser cl mk])) ;;;
    ret (zlen (v_exttypes s)).

(** ** Subsystems *)

(** The bucket of a subsystem name.  /repo/src/nkvm.c:532-533,
    /repo/src/nkstring.h:66. *)
Definition sub_bucket (n : bytes) : Z := Z.land (str_hash n) 15.

(** The walk of nkiFindExternalSubsystemData along a chain.
    /repo/src/nkvm.c:534-541. *)
Fixpoint find_sub (l : list subsys) (n : bytes) : option subsys :=
  match l with
  | [] => None
  | x :: r => if bytes_eqb (sub_name x) n then Some x else find_sub r n
  end.

(** Writing through the pointer nkiFindExternalSubsystemData returned. *)
Fixpoint set_sub (l : list subsys) (n : bytes) (y : subsys) : list subsys :=
  match l with
  | [] => []
  | x :: r => if bytes_eqb (sub_name x) n then y :: r else x :: set_sub r n y
  end.

(** nkiGetExternalSubsystemData: the stored data pointer, [None] for NULL
    because of a missing entry.  /repo/src/nkvm.c:556-568. *)
Definition get_subsystem_data (s : vm) (n : bytes) : res (option Z) :=
  do l <- rd (v_subsys s) (sub_bucket n);
  Ok (match find_sub l n with Some x => Some (sub_data x) | None => None end).

(** nkxInitSubsystem, including nkiFindExternalSubsystemData with
    create = true.  /repo/src/nkx.c:988-1021, /repo/src/nkvm.c:527-554. *)
Definition init_subsystem (n : bytes) (d : Z) (cl ser : bool) : M bool :=
  s <- gets (fun s => s) ;;
  if has_errors s then
    add_error (bs "Attempting to initialize a subsystem on a broken VM.") ;;; ret false
  else
    l <- lift (rd (v_subsys s) (sub_bucket n)) ;;
    let l' := match find_sub l n with
              | Some x => set_sub l n (mkSub (sub_name x) d ser cl)
              | None => mkSub n d ser cl :: l
              end in
    t <- lift (wr (v_subsys s) (sub_bucket n) l') ;;
    modify (set_subsys t) ;;; ret true.

(** ** The error report *)

(** nkiAllocationFailureStr.  /repo/src/nkerror.c:183. *)
Definition alloc_failure_text : bytes := bs "Allocation failure.".

(** nkiStrlen of a text known by its bytes: the bail-out for very long
    texts.  /repo/src/nkstring.c:214-229. *)
Definition str_len (t : bytes) : Z := Z.min (zlen t) (W32 - 2).

(** The loop of nkiGetErrorLength.  /repo/src/nkerror.c:196-206. *)
Fixpoint error_length_from (n : Z) (l : list bytes) : Z :=
  match l with
  | [] => n
  | e :: r => error_length_from (u32 (n + u32 (str_len e + 1))) r
  end.
(** nkiGetErrorLength.  /repo/src/nkerror.c:185-209. *)
Definition get_error_length (failed : bool) (errs : list bytes) : Z :=
  if failed then u32 (1 + u32 (str_len alloc_failure_text + 1))
  else error_length_from 1 errs.

(** nkiGetErrorCount.  /repo/src/nkerror.c:165-181. *)
Definition get_error_count (failed : bool) (errs : list bytes) : Z :=
  u32 (zlen errs + (if failed then 1 else 0)).

(** nkiStrlen on a buffer.  /repo/src/nkstring.c:214-229. *)
Fixpoint buf_len (fuel : nat) (b : list Z) (i : Z) : res Z :=
  match fuel with
  | O => Ub UbFuel
  | S f =>
    do c <- rd b i;
    if c =? 0 then Ok i else if i =? W32 - 2 then Ok i else buf_len f b (i + 1)
  end.
(** The copying loop of nkiStrcat.  /repo/src/nkstring.c:257-269. *)
Fixpoint cat_loop (b : list Z) (i : Z) (src : bytes) : res (list Z) :=
  match src with
  | [] => wr b i 0
  | c :: r =>
    if i =? INVALID then wr b i 0
    else do b' <- wr b i c; cat_loop b' (i + 1) r
  end.
(** nkiStrcat.  /repo/src/nkstring.c:252-270. *)
Definition str_cat (b : list Z) (src : bytes) : res (list Z) :=
  do i <- buf_len (S (length b)) b 0; cat_loop b i src.

(** The loop of nkiGetErrorText.  /repo/src/nkerror.c:222-230. *)
Fixpoint error_text_from (b : list Z) (l : list bytes) : res (list Z) :=
  match l with
  | [] => Ok b
  | e :: r => do b1 <- str_cat b e; do b2 <- str_cat b1 [10]; error_text_from b2 r
  end.
(** nkiGetErrorText: [b] is the caller's buffer.  /repo/src/nkerror.c:211-234. *)
Definition get_error_text (failed : bool) (errs : list bytes) (b : list Z) : res (list Z) :=
  do b0 <- wr b 0 0;
  if failed then do b1 <- str_cat b0 alloc_failure_text; str_cat b1 [10]
  else error_text_from b0 errs.

(** ** Objects of an external type *)

(** The loop of nkxGetNextObjectOfExternalType: outValue and the advanced
    *startIndex.  /repo/src/nkx.c:1034-1050. *)
Fixpoint next_of_type (fuel : nat) (s : vm) (ty : Z) (out i : Z) : res (bool * Z * Z) :=
  match fuel with
  | O => Ub UbFuel
  | S f =>
    if i <? t_cap (v_objs s) then
      do ob <- rd (t_slots (v_objs s)) i;
      let out' := match ob with
                  | Some o => if o_ext o =? ty then i else out
                  | None => out
                  end in
      let i' := u32 (i + 1) in
      if negb (out' =? INVALID) then Ok (true, out', i')
      else next_of_type f s ty out' i'
    else Ok (false, out, i)
  end.
(** nkxGetNextObjectOfExternalType.  /repo/src/nkx.c:1023-1053. *)
Definition get_next_object (s : vm) (ty i : Z) : res (bool * Z * Z) :=
  next_of_type (S (Z.to_nat (t_cap (v_objs s)))) s ty INVALID i.
