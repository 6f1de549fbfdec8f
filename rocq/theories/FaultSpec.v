(** * FaultSpec: scripts that fail (C65)

    RunSpec says what a script does when nothing goes wrong.  Here: what it
    does up to the point where something does.  [ef E h m n m'] means that the
    evaluation of the expression [n] ends in a run-time error, [m'] being the
    memory at that point; [xf] is the same for statements. *)

From Verif Require Import Base TokenModel ExprModel ParseSpec RunSpec.

(** ** Operations that fail *)

Definition is_int_val (v : val) : bool := match v with VInt _ => true | _ => false end.
Definition is_number_val (v : val) : bool := match v with VInt _ | VFlt _ => true | _ => false end.
Definition is_obj_val (v : val) : bool := match v with VObj _ => true | _ => false end.
Definition is_fun_val (v : val) : bool := match v with VFun _ => true | _ => false end.

(** What a number cannot be combined with: functions, and in the case of
    floats objects too. *)
Definition no_partner (a b : val) : bool :=
  match a, b with VInt _, VFun _ | VFlt _, VFun _ | VFlt _, VObj _ => true | _, _ => false end.
(** Values that can be asked whether they are zero, and functions, which
    cannot (for other values this is not defined). *)
Definition testable (v : val) : Prop := is_fun_val v = true \/ exists z, number_of v = Some z.

(** Dividing by zero, dividing the smallest integer by -1, and operands an
    operator is not made for. *)
Inductive binop_fails : Z -> val -> val -> Prop :=
| bf_div x b y : number_of b = Some y -> y = 0 \/ (x = - W31 /\ y = -1) -> binop_fails TK_DIVIDE (VInt x) b
| bf_mod x b y : number_of b = Some y -> y = 0 \/ (x = - W31 /\ y = -1) -> binop_fails TK_MODULO (VInt x) b
| bf_add a b : is_number_val a = false -> (forall t, a <> VStr t) -> binop_fails TK_PLUS a b
| bf_sub a b : is_number_val a = false -> binop_fails TK_MINUS a b
| bf_mul a b : is_number_val a = false -> binop_fails TK_MULTIPLY a b
| bf_quot a b : is_number_val a = false -> binop_fails TK_DIVIDE a b
| bf_rem a b : is_int_val a = false -> binop_fails TK_MODULO a b
| bf_partner ty a b : In ty [TK_PLUS; TK_MINUS; TK_MULTIPLY; TK_DIVIDE; TK_MODULO; TK_LT; TK_GT; TK_LE; TK_GE; TK_EQ; TK_NE] ->
    no_partner a b = true -> binop_fails ty a b
| bf_logic ty a b : In ty [TK_AND; TK_OR] -> testable a -> testable b -> (is_fun_val a || is_fun_val b)%bool = true -> binop_fails ty a b.

(** Only numbers can be negated, and functions are neither true nor false. *)
Inductive unop_fails : Z -> val -> Prop :=
| uf_neg a : is_number_val a = false -> unop_fails TK_MINUS a
| uf_not a : is_fun_val a = true -> unop_fails TK_NOT a.

(** What cannot be counted up or down: the sum or the difference fails. *)
Definition count_fails (ty : Z) (v : val) : Prop :=
  ((ty = TK_INCREMENT \/ ty = TK_POSTINC) /\ binop_fails TK_PLUS v (VInt 1)) \/
  ((ty = TK_DECREMENT \/ ty = TK_POSTDEC) /\ binop_fails TK_MINUS v (VInt 1)).

(** Nodes whose two parts are evaluated from left to right: operators, a[b],
    and calls as far as what is called is concerned. *)
Definition two_parts : list Z :=
  [TK_PLUS; TK_MINUS; TK_MULTIPLY; TK_DIVIDE; TK_MODULO; TK_LT; TK_GT; TK_LE; TK_GE; TK_EQ; TK_NE; TK_SAME; TK_AND; TK_OR; TK_NOT;
   TK_BRACKET_OPEN].

Section Faults.
Context {HS : Hosts}.
Variable funs : Z -> option fundef.
Variable lim mf : Z.
Notation ev := (ev funs lim mf).
Notation evs := (evs funs lim mf).
Notation ex := (ex funs lim mf).
Notation spare := (spare lim).

(** What cannot be called with [vs]: anything that is no function (calling
    objects is not covered), and functions with another number of parameters. *)
Definition not_callable (v : val) (vs : list val) : Prop :=
  match v with
  | VObj _ => False
  | VFun id => exists fd, funs id = Some fd /\ zlen (fd_params fd) <> zlen vs /\ zlen (fd_params fd) < W31
  | _ => True
  end.

(** The functions written in an expression can be skipped, and there is room. *)
Definition ready_for (h : Z) (e : expr) : Prop := spare h /\ forall ts t, In (ts, t) (lits e) -> usable funs (number t).

Inductive ef : env -> Z -> mem -> ast -> mem -> Prop :=
| ef_left E h m t root a b m' : In (tk_type t) two_parts -> ef E h m a m' ->
    ef E h m (ANode t root a b) m'
| ef_right E h m t root a b x m1 m' : In (tk_type t) two_parts -> ev E h m a x m1 -> ef E (h + 1) m1 b m' ->
    ef E h m (ANode t root a b) m'
| ef_unary E h m t root a x m1 : ev E h m a x m1 -> unop_fails (tk_type t) x ->
    ef E h m (ANode t root a ANull) m1
| ef_binary E h m t root a b x y m1 m2 : ev E h m a x m1 -> ev E (h + 1) m1 b y m2 -> binop_fails (tk_type t) x y ->
    (numeric a && numeric b = true -> same_kind x y = true)%bool ->
    ef E h m (ANode t root a b) m2
| ef_assign E h m t root t0 root0 b m' : tk_type t = TK_ASSIGNMENT -> tk_type t0 = TK_IDENTIFIER -> ef E h m b m' ->
    ef E h m (ANode t root (ANode t0 root0 ANull ANull) b) m'
(* a[b], where a is no object *)
| ef_field E h m t root a b x k m1 m2 : tk_type t = TK_BRACKET_OPEN ->
    ev E h m a x m1 -> ev E (h + 1) m1 b k m2 -> is_obj_val x = false ->
    ef E h m (ANode t root a b) m2
(* x++ and the like *)
| ef_count E h m t root t0 root0 p v : tk_type t0 = TK_IDENTIFIER -> spare h ->
    lookup (tk_str t0) (e_scopes E) = Some p -> read p m = Some v -> count_fails (tk_type t) v ->
    ef E h m (ANode t root (ANode t0 root0 ANull ANull) ANull) m
(* a[b]++ and the like *)
| ef_count_object E h m t root t0 root0 a b x k m1 m2 : tk_type t0 = TK_BRACKET_OPEN -> is_incdec (tk_type t) = true ->
    ev E h m a x m1 -> ev E (h + 1) m1 b k m2 -> is_obj_val x = false ->
    ef E h m (ANode t root (ANode t0 root0 a b) ANull) m2
| ef_count_field E h m t root t0 root0 a b o l k m1 m2 : tk_type t0 = TK_BRACKET_OPEN ->
    ev E h m a (VObj o) m1 -> ev E (h + 1) m1 b k m2 -> fields o m2 = Some l -> key_ok k -> count_fails (tk_type t) (oget k l) ->
    ef E h m (ANode t root (ANode t0 root0 a b) ANull) m2
(* len(a) *)
| ef_len_of E h m t root t1 a m' : tk_type t = TK_FSE -> tk_type t1 = TK_PAREN_OPEN -> ef E h m a m' ->
    ef E h m (ANode t root ANull (ANode t1 false a ANull)) m'
| ef_len E h m t root t1 a x m1 : tk_type t = TK_FSE -> tk_str t = bs "len" -> tk_type t1 = TK_PAREN_OPEN ->
    ev E h m a x m1 -> is_obj_val x = false ->
    ef E h m (ANode t root ANull (ANode t1 false a ANull)) m1
(* a[b] = c *)
| ef_set_value E h m t root t0 root0 a b c m' : tk_type t = TK_ASSIGNMENT -> tk_type t0 = TK_BRACKET_OPEN -> ef E h m c m' ->
    ef E h m (ANode t root (ANode t0 root0 a b) c) m'
| ef_set_object E h m t root t0 root0 a b c v m1 m' : tk_type t = TK_ASSIGNMENT -> tk_type t0 = TK_BRACKET_OPEN ->
    ev E h m c v m1 -> ef E (h + 1) m1 a m' ->
    ef E h m (ANode t root (ANode t0 root0 a b) c) m'
| ef_set_key E h m t root t0 root0 a b c v x m1 m2 m' : tk_type t = TK_ASSIGNMENT -> tk_type t0 = TK_BRACKET_OPEN ->
    ev E h m c v m1 -> ev E (h + 1) m1 a x m2 -> ef E (h + 2) m2 b m' ->
    ef E h m (ANode t root (ANode t0 root0 a b) c) m'
| ef_set E h m t root t0 root0 a b c v x k m1 m2 m3 : tk_type t = TK_ASSIGNMENT -> tk_type t0 = TK_BRACKET_OPEN ->
    ev E h m c v m1 -> ev E (h + 1) m1 a x m2 -> ev E (h + 2) m2 b k m3 -> is_obj_val x = false ->
    ef E h m (ANode t root (ANode t0 root0 a b) c) m3
(* calls *)
| ef_callee E h m t f args m' : tk_type t = TK_PAREN_OPEN -> ef E h m f m' ->
    ef E h m (ANode t true f args) m'
| ef_args E h m t f args x m1 m' : tk_type t = TK_PAREN_OPEN -> ev E h m f x m1 -> efs E (h + 1) m1 args m' ->
    ef E h m (ANode t true f args) m'
| ef_call E h m t f args x vs m1 m2 : tk_type t = TK_PAREN_OPEN ->
    ev E h m f x m1 -> evs E (h + 1) m1 args vs m2 -> spare (h + zlen vs) -> not_callable x vs ->
    ef E h m (ANode t true f args) m2
| ef_body E h m t f args id fd vs m1 m2 m' : tk_type t = TK_PAREN_OPEN ->
    ev E h m f (VFun id) m1 -> evs E (h + 1) m1 args vs m2 -> spare (h + zlen vs) ->
    funs id = Some fd -> zlen (fd_params fd) = zlen vs ->
    xf (fun_env fd) (h + 1) (set_locals (map Some vs ++ [None; None]) m2) (fd_body fd) m' ->
    ef E h m (ANode t true f args) m'
(* a function of the host that reports an error *)
| ef_host E h m t f args id vs m1 m2 m' : tk_type t = TK_PAREN_OPEN ->
    ev E h m f (VFun id) m1 -> evs E (h + 1) m1 args vs m2 -> spare (h + zlen vs) ->
    host_fails id vs m2 m' ->
    ef E h m (ANode t true f args) m'
(* a->n(args) *)
| ef_method_of E h m t ti rooti a n args m' : tk_type t = TK_CALL_SELF -> tk_type ti = TK_INDEX_NOPOP -> ef E h m a m' ->
    ef E h m (ANode t true (ANode ti rooti a n) args) m'
| ef_method_object E h m t ti rooti a tn rootn args x m1 : tk_type t = TK_CALL_SELF -> tk_type ti = TK_INDEX_NOPOP -> tk_type tn = TK_STRING ->
    ev E h m a x m1 -> spare (h + 1) -> is_obj_val x = false ->
    ef E h m (ANode t true (ANode ti rooti a (ANode tn rootn ANull ANull)) args) m1
| ef_method_args E h m t ti rooti a tn rootn args o l m1 m' : tk_type t = TK_CALL_SELF -> tk_type ti = TK_INDEX_NOPOP -> tk_type tn = TK_STRING ->
    ev E h m a (VObj o) m1 -> spare (h + 1) -> fields o m1 = Some l -> efs E (h + 2) m1 args m' ->
    ef E h m (ANode t true (ANode ti rooti a (ANode tn rootn ANull ANull)) args) m'
| ef_method E h m t ti rooti a tn rootn args o l vs m1 m2 : tk_type t = TK_CALL_SELF -> tk_type ti = TK_INDEX_NOPOP -> tk_type tn = TK_STRING ->
    ev E h m a (VObj o) m1 -> spare (h + 1) -> fields o m1 = Some l -> evs E (h + 2) m1 args vs m2 -> spare (h + 1 + zlen vs) ->
    not_callable (oget (VStr (tk_str tn)) l) (VObj o :: vs) ->
    ef E h m (ANode t true (ANode ti rooti a (ANode tn rootn ANull ANull)) args) m2
| ef_method_body E h m t ti rooti a tn rootn args o l id fd vs m1 m2 m' : tk_type t = TK_CALL_SELF ->
    tk_type ti = TK_INDEX_NOPOP -> tk_type tn = TK_STRING ->
    ev E h m a (VObj o) m1 -> spare (h + 1) -> fields o m1 = Some l -> oget (VStr (tk_str tn)) l = VFun id ->
    evs E (h + 2) m1 args vs m2 -> spare (h + 1 + zlen vs) ->
    funs id = Some fd -> zlen (fd_params fd) = zlen vs + 1 ->
    xf (fun_env fd) (h + 1) (set_locals (Some (VObj o) :: map Some vs ++ [None; None]) m2) (fd_body fd) m' ->
    ef E h m (ANode t true (ANode ti rooti a (ANode tn rootn ANull ANull)) args) m'
| ef_method_host E h m t ti rooti a tn rootn args o l id vs m1 m2 m' : tk_type t = TK_CALL_SELF ->
    tk_type ti = TK_INDEX_NOPOP -> tk_type tn = TK_STRING ->
    ev E h m a (VObj o) m1 -> spare (h + 1) -> fields o m1 = Some l -> oget (VStr (tk_str tn)) l = VFun id ->
    evs E (h + 2) m1 args vs m2 -> spare (h + 1 + zlen vs) ->
    host_fails id (VObj o :: vs) m2 m' ->
    ef E h m (ANode t true (ANode ti rooti a (ANode tn rootn ANull ANull)) args) m'
with efs : env -> Z -> mem -> ast -> mem -> Prop :=
| efs_first E h m t a rest m' : tk_type t = TK_PAREN_OPEN \/ tk_type t = TK_CALL_SELF -> ef E h m a m' ->
    efs E h m (ANode t false a rest) m'
| efs_rest E h m t a rest v m1 m' : tk_type t = TK_PAREN_OPEN \/ tk_type t = TK_CALL_SELF -> ev E h m a v m1 -> efs E (h + 1) m1 rest m' ->
    efs E h m (ANode t false a rest) m'
with xf : env -> Z -> mem -> stmt -> mem -> Prop :=
| xf_expr E b m e semi m' : ready_for (b + zlen (m_local m)) e -> ef E (b + zlen (m_local m)) m (tree e) m' ->
    xf E b m (SExpr e semi) m'
| xf_init E b m v n q e semi m' : ready_for (b + zlen (m_local m)) e -> ef E (b + zlen (m_local m)) m (tree e) m' ->
    xf E b m (SInit v n q e semi) m'
| xf_return E b m r e semi m' : ready_for (b + zlen (m_local m)) e -> ef E (b + zlen (m_local m)) m (tree e) m' ->
    xf E b m (SReturn r e semi) m'
| xf_block E b m o l c m' : xfs (enter_scope E) b m l m' -> xf E b m (SBlock o l c) m'
| xf_test E b m i o e c s m' : ready_for (b + zlen (m_local m)) e -> ef E (b + zlen (m_local m)) m (tree e) m' ->
    xf E b m (SIf i o e c s) m'
| xf_if E b m i o e c s v z m1 m' : ev E (b + zlen (m_local m)) m (tree e) v m1 -> spare (b + zlen (m_local m)) ->
    number_of v = Some z -> z <> 0 -> xf (enter_scope E) b m1 s m' ->
    xf E b m (SIf i o e c s) m'
| xf_if_unknown E b m i o e c s v m1 : ev E (b + zlen (m_local m)) m (tree e) v m1 -> spare (b + zlen (m_local m)) -> is_fun_val v = true ->
    xf E b m (SIf i o e c s) m1
| xf_test_else E b m i o e c s el s2 m' : ready_for (b + zlen (m_local m)) e -> ef E (b + zlen (m_local m)) m (tree e) m' ->
    xf E b m (SElse i o e c s el s2) m'
| xf_then E b m i o e c s el s2 v z m1 m' : ev E (b + zlen (m_local m)) m (tree e) v m1 -> spare (b + zlen (m_local m)) ->
    number_of v = Some z -> z <> 0 -> xf (enter_scope E) b m1 s m' ->
    xf E b m (SElse i o e c s el s2) m'
| xf_else E b m i o e c s el s2 v m1 m' : ev E (b + zlen (m_local m)) m (tree e) v m1 -> spare (b + zlen (m_local m)) ->
    number_of v = Some 0 -> xf (enter_scope E) b m1 s2 m' ->
    xf E b m (SElse i o e c s el s2) m'
| xf_else_unknown E b m i o e c s el s2 v m1 : ev E (b + zlen (m_local m)) m (tree e) v m1 -> spare (b + zlen (m_local m)) -> is_fun_val v = true ->
    xf E b m (SElse i o e c s el s2) m1
| xf_while E b m w o e c s m' : lf (enter_loop E) b m e s None m' -> xf E b m (SWhile w o e c s) m'
| xf_do E b m d s w o e c semi m' : xf (enter_scope (enter_loop E)) b m s m' -> xf E b m (SDo d s w o e c semi) m'
| xf_do_test E b m d s w o e c semi m1 m' : ex (enter_scope (enter_loop E)) b m s Next m1 ->
    ready_for (b + zlen (m_local m)) e -> ef (enter_loop E) (b + zlen (m_local m)) (keep (e_used E) m1) (tree e) m' ->
    xf E b m (SDo d s w o e c semi) m'
| xf_do_unknown E b m d s w o e c semi m1 v m2 : ex (enter_scope (enter_loop E)) b m s Next m1 ->
    ev (enter_loop E) (b + zlen (m_local m)) (keep (e_used E) m1) (tree e) v m2 -> is_fun_val v = true ->
    xf E b m (SDo d s w o e c semi) m2
| xf_do_again E b m d s w o e c semi m1 v z m2 m' : ex (enter_scope (enter_loop E)) b m s Next m1 ->
    ev (enter_loop E) (b + zlen (m_local m)) (keep (e_used E) m1) (tree e) v m2 -> spare (b + zlen (m_local m)) ->
    number_of v = Some z -> z <> 0 ->
    xf E b m2 (SDo d s w o e c semi) m' ->
    xf E b m (SDo d s w o e c semi) m'
| xf_for_first E b m f o s0 e semi i c s m' : xf (enter_loop E) b m s0 m' ->
    xf E b m (SFor f o s0 e semi i c s) m'
| xf_for E b m f o s0 e semi i c s m1 m' : ex (enter_loop E) b m s0 Next m1 ->
    lf (after s0 (enter_loop E)) b m1 e s (Some i) m' ->
    (forall ts t, In (ts, t) (lits i) -> usable funs (number t)) ->
    xf E b m (SFor f o s0 e semi i c s) m'
with xfs : env -> Z -> mem -> stmts -> mem -> Prop :=
| xfs_first E b m s l m' : xf E b m s m' -> xfs E b m (Then s l) m'
| xfs_rest E b m s l m1 m' : ex E b m s Next m1 -> xfs (after s E) b m1 l m' -> xfs E b m (Then s l) m'
with lf : env -> Z -> mem -> expr -> stmt -> option expr -> mem -> Prop :=
| lf_test E b m e s i m' : ready_for (b + zlen (m_local m)) e -> ef E (b + zlen (m_local m)) m (tree e) m' ->
    lf E b m e s i m'
| lf_unknown E b m e s i v m1 : ev E (b + zlen (m_local m)) m (tree e) v m1 -> spare (b + zlen (m_local m)) -> is_fun_val v = true ->
    lf E b m e s i m1
| lf_body E b m e s i v z m1 m' : ev E (b + zlen (m_local m)) m (tree e) v m1 -> spare (b + zlen (m_local m)) ->
    number_of v = Some z -> z <> 0 -> xf (enter_scope E) b m1 s m' ->
    lf E b m e s i m'
| lf_again E b m e s v z m1 m2 m' : ev E (b + zlen (m_local m)) m (tree e) v m1 -> spare (b + zlen (m_local m)) ->
    number_of v = Some z -> z <> 0 ->
    ex (enter_scope E) b m1 s Next m2 -> lf E b (keep (e_used E) m2) e s None m' ->
    lf E b m e s None m'
| lf_step_fails E b m e s i v z m1 m2 m' : ev E (b + zlen (m_local m)) m (tree e) v m1 -> spare (b + zlen (m_local m)) ->
    number_of v = Some z -> z <> 0 ->
    ex (enter_scope E) b m1 s Next m2 -> ef E (b + zlen (m_local m)) (keep (e_used E) m2) (tree i) m' ->
    lf E b m e s (Some i) m'
| lf_step E b m e s i v z m1 m2 x m3 m' : ev E (b + zlen (m_local m)) m (tree e) v m1 -> spare (b + zlen (m_local m)) ->
    number_of v = Some z -> z <> 0 ->
    ex (enter_scope E) b m1 s Next m2 -> ev E (b + zlen (m_local m)) (keep (e_used E) m2) (tree i) x m3 ->
    lf E b m3 e s (Some i) m' ->
    lf E b m e s (Some i) m'.
End Faults.

Scheme ef_ind' := Induction for ef Sort Prop
  with efs_ind' := Induction for efs Sort Prop
  with xf_ind' := Induction for xf Sort Prop
  with xfs_ind' := Induction for xfs Sort Prop
  with lf_ind' := Induction for lf Sort Prop.
Combined Scheme fault_ind from ef_ind', efs_ind', xf_ind', xfs_ind', lf_ind'.
