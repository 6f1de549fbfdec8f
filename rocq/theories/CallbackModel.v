(** * CallbackModel: what host callbacks use to check their arguments

    The functions of the host interface that declare the arguments of a host
    function and check them inside of a callback.  The failure recovery
    (setjmp around each of them) only matters when memory runs out, which is
    not modelled here. *)
From Verif Require Import Base TableModel State StrModel ValueModel ObjsModel RegModel.

(** nkxFunctionCallbackCheckArgCount.  /repo/src/nkx.c:378-400. *)
Definition check_arg_count (args : list value) (n : Z) (fname : bytes) : M bool :=
  if negb (zlen args =? n) then
    add_error (bs "Bad argument count in " ++ fname) ;;; ret false
  else ret true.

(** The loop of nkxFunctionCallbackCheckArguments from argument [i] on, with
    [n] to go; [types] are the variadic arguments not read yet.  Reading more
    of them than were passed is undefined.  /repo/src/nkx.c:841-866. *)
Fixpoint check_types (args : list value) (fname : bytes) (i : Z) (n : nat) (types : list Z) : M bool :=
  match n with
  | O => ret true
  | S n' =>
    match types with
    | [] => mub UbOob
    | t :: r =>
      a <- lift (rd args i) ;;
      if negb (v_type a =? t) then
        add_error (fname ++ bs ": Argument " ++ u_to_str i ++ bs ": Expected " ++ type_name t
          ++ bs " but passed " ++ type_name (v_type a) ++ bs ".") ;;; ret false
      else check_types args fname (i + 1) n' r
    end
  end.

(** nkxFunctionCallbackCheckArguments.  /repo/src/nkx.c:805-870. *)
Definition check_arguments (args : list value) (fname : bytes) (n : Z) (types : list Z) : M bool :=
  if negb (n =? zlen args) then
    add_error (fname ++ bs ": Expected " ++ u_to_str n ++ bs " arguments, but passed "
      ++ u_to_str (zlen args) ++ bs ".") ;;; ret false
  else check_types args fname 0 (Z.to_nat n) types.

(** nkxGetExternalSubsystemDataOrError; 0 is NULL.  /repo/src/nkx.c:872-898. *)
Definition subsystem_or_error (n : bytes) : M Z :=
  s <- gets (fun s => s) ;;
  d <- lift (get_subsystem_data s n) ;;
  let p := match d with Some x => x | None => 0 end in
  if p =? 0 then
    add_error (bs "Could not find subsystem data: " ++ n) ;;; ret 0
  else ret p.

(** nkiValueGetTypeNameOfValue.  /repo/src/nkvalue.c:46-62. *)
Definition type_name_of_value (v : value) : M bytes :=
  if v_type v =? T_OBJ then
    e <- get_ext_type v ;;
    s <- gets (fun s => s) ;;
    if negb (e =? INVALID) then lift (external_type_name s e) else ret (type_name (v_type v))
  else ret (type_name (v_type v)).

(** nkxFunctionCallbackGetExternalDataArgument; [None] is NULL.
    /repo/src/nkx.c:900-968.  (The "badtype" case needs externalTypes to be
    NULL with a count above the type's id.) *)
Definition external_data_argument (args : list value) (fname : bytes) (i et : Z) : M (option Z) :=
  if zlen args <=? i then
    add_error (fname ++ bs ": Tried to decode an external object that is beyond the end of the arguments list.") ;;;
    ret None
  else
    a <- lift (rd args i) ;;
    if negb (v_type a =? T_OBJ) then
      add_error (fname ++ bs ": Tried to decode an external object that is not even an object for argument "
        ++ u_to_str i ++ bs ".") ;;; ret None
    else
      s <- gets (fun s => s) ;;
      if zlen (v_exttypes s) <=? et then
        add_error (fname ++ bs ": Argument " ++ u_to_str i ++ bs ": Bad type specified in external function.") ;;;
        ret None
      else
        e <- get_ext_type a ;;
        if negb (e =? et) then
          x <- lift (rd (v_exttypes s) et) ;;
          got <- type_name_of_value a ;;
          add_error (fname ++ bs ": Argument " ++ u_to_str i ++ bs ": Type mismatch. Expected " ++ et_name x
            ++ bs ". Got " ++ got ++ bs ".") ;;; ret None
        else get_ext_data a.

(** The variadic arguments of nkxVmSetupExternalFunction: a type, and for
    objects an external type. *)
Record decl := mkD { d_type : Z; d_ext : Z }.

(** The loop of nkxVmSetupExternalFunction over arrays that
    nkiSetupExternalFunction_addArgs has filled with the wildcards.
    /repo/src/nkx.c:455-464, 499-512. *)
Fixpoint setup_types (l : list decl) : list (Z * Z) :=
  match l with
  | [] => []
  | d :: r => (d_type d, if d_type d =? T_OBJ then d_ext d else INVALID) :: setup_types r
  end.

Definition set_x_args (n : Z) (l : list (Z * Z)) (x : extfunc) : extfunc :=
  mkXF (x_name x) (x_cb x) (x_func x) n l.

(** nkxVmSetupExternalFunction without a compiler (the function that declares
    the global is in RegModel and CompModel).  [None]: argumentCount is
    NK_INVALID_VALUE, no declarations follow and those there are stay.
    /repo/src/nkx.c:470-517. *)
Definition setup_external_function (n : bytes) (cb : option Z) (ds : option (list decl)) : M Z :=
  i <- register_external_function n cb ;;
  if i =? INVALID then ret i
  else
    l <- gets v_extfuncs ;;
    x <- lift (rd l i) ;;
    l' <- lift (wr l i (match ds with
                        | None => set_x_args INVALID (x_types x) x
                        | Some ds => set_x_args (zlen ds) (setup_types ds) x
                        end)) ;;
    modify (set_extfuncs l') ;;; ret i.

(** ** The memory of the declarations *)

(** A pointer to an array: NULL, to memory that was freed, or to memory for
    [n] entries. *)
Inductive arr := Null | Gone | Room (n : Z).

(** argTypes and argExternalTypes of one function, and the flag that an
    allocation has failed.  /repo/src/nkfunc.h:85-92. *)
Record argmem := mkAM { am_types : arr; am_ext : arr; am_broken : bool }.

(** One set-up: the declarations, and which of the two allocations succeed. *)
Record setup := mkSU { su_decls : list decl; su_first : bool; su_second : bool }.

(** nkiSetupExternalFunction_addArgs.  A failing allocation leaves it at once
    (longjmp to the handler it installed), so later lines do not run.
    /repo/src/nkx.c:435-467. *)
Definition add_args_mem (u : setup) (m : argmem) : res argmem :=
  do t <- match am_types m with Null => Ok Null | Gone => Ub UbNull | Room _ => Ok Gone end;
  if negb (su_first u) then Ok (mkAM t (am_ext m) true)
  else if negb (su_second u) then Ok (mkAM (Room (zlen (su_decls u))) (am_ext m) true)
  else Ok (mkAM (Room (zlen (su_decls u))) (Room (zlen (su_decls u))) false).

(** Writing entry [i]. *)
Definition touch (a : arr) (i : Z) : res unit :=
  match a with
  | Room n => if (0 <=? i) && (i <? n) then Ok tt else Ub UbOob
  | _ => Ub UbNull
  end.

(** The loop that writes the declarations.  /repo/src/nkx.c:503-514. *)
Fixpoint write_decls (m : argmem) (i : Z) (ds : list decl) : res unit :=
  match ds with
  | [] => Ok tt
  | d :: r =>
    do _ <- touch (am_types m) i;
    do _ <- (if d_type d =? T_OBJ then touch (am_ext m) i else Ok tt);
    write_decls m (i + 1) r
  end.

(** nkxVmSetupExternalFunction for a function that is registered already.  On
    a broken machine the registration returns an invalid identifier.
    /repo/src/nkx.c:470-517. *)
Definition setup_mem (u : setup) (m : argmem) : res argmem :=
  if am_broken m then Ok m
  else
    do m' <- add_args_mem u m;
    match am_types m', am_ext m' with
    | Null, _ => Ok m'
    | _, Null => Ok m'
    | _, _ => do _ <- write_decls m' 0 (su_decls u); Ok m'
    end.

(** Set-ups of the same function one after the other. *)
Fixpoint setups_mem (l : list setup) (m : argmem) : res argmem :=
  match l with
  | [] => Ok m
  | u :: r => do m' <- setup_mem u m; setups_mem r m'
  end.

(** A function just registered.  /repo/src/nkfunc.c:196-203. *)
Definition fresh_args : argmem := mkAM Null Null false.
