(** * FloatProperties: single precision arithmetic (C67) and conversions of
      floats (C68) *)
From Coq Require Import Floats.SpecFloat.
From Verif Require Import Base BaseFacts.
From Verif Require Import MonadFacts State StackProofs ValueModel FloatModel ObjsSpec VmModel VmProperties OpSpec OpProofs OpProperties.
From Verif Require Import InsnSpec InsnProofs InsnProperties ObjInsn FloatSpec FloatProofs.

(** ** C67: arithmetic *)

(** The instructions of the four operators. *)
Definition code_of (op : arith) : Z :=
  match op with Plus => O_ADD | Minus => O_SUBTRACT | Times => O_MULTIPLY | Over => O_DIVIDE end.

(** C67: +, -, * and / of a float and a value that converts to one leave the
    single precision number nearest to the mathematical result, for all pairs
    of patterns ([ieee] lists the cases). *)
Theorem C67_arithmetic host op s st x b y :
  stack_is s (st ++ [mkV T_FLOAT x; b]) -> as_float s b y -> pattern x -> pattern y ->
  exists s' r, opcode host (code_of op) s = Ok (tt, s') /\ restacked s (st ++ [mkV T_FLOAT r]) s' /\ ieee op x y r.
Proof.
  intros S Y Px Py. destruct (float_bin_run s st x b y S Y) as ((s1 & E1 & R1) & (s2 & E2 & R2) & (s3 & E3 & R3) & (s4 & E4 & R4)).
  pose proof (op_ieee op x y Px Py) as I.
  destruct op; cbn [f_op] in I.
  - exists s1, (f_add x y). auto.
  - exists s2, (f_sub x y). auto.
  - exists s3, (f_mul x y). auto.
  - exists s4, (f_div x y). auto.
Qed.
Print Assumptions C67_arithmetic.

(** Negation flips the sign bit and nothing else, also of zeros and
    infinities. *)
Theorem C67_negate host s st x : stack_is s (st ++ [mkV T_FLOAT x]) -> pattern x -> ~ not_a_number x ->
  exists s' r, opcode host O_NEGATE s = Ok (tt, s') /\ restacked s (st ++ [mkV T_FLOAT r]) s' /\
    pattern r /\ sign_bit r = negb (sign_bit x) /\ expo r = expo x /\ frac r = frac x.
Proof.
  intros S P N. destruct (float_neg_run s st x S) as (s' & E & R). exists s', (f_neg x).
  split; [exact E|]. split; [exact R|]. apply neg_flips; assumption.
Qed.
Print Assumptions C67_negate.

(** Comparisons of finite floats are those of the numbers. *)
Theorem C67_compare host s st x b y op P : stack_is s (st ++ [mkV T_FLOAT x; b]) -> as_float s b y ->
  finite x -> finite y -> In (op, P) comparisons ->
  exists s' v, opcode host op s = Ok (tt, s') /\ restacked s (st ++ [vint v]) s' /\ answers (P (value x ?= value y)) v.
Proof.
  intros S Y Fx Fy I. apply (C56_compare host s st (mkV T_FLOAT x) b); [exact S| |exact I].
  apply or_float with y; [reflexivity|exact Y|]. apply compare_value; assumption.
Qed.
Print Assumptions C67_compare.

(** What [ieee] says leaves no choice for finite operands: two results that
    are both nearest are the same pattern. *)
Theorem C67_unique s n d r r' : 0 < d -> rounded s n d r -> rounded s n d r' -> r = r'.
Proof.
  intros Hd [S H] [S' H'].
  destruct ((2 ^ 25 - 1) * 2 ^ 252 * d <=? Z.abs n); [congruence|].
  destruct H as [F H], H' as [F' H'].
  destruct (H r' F') as [L E], (H' r F) as [L' E'].
  apply same_finite; [assumption|assumption|congruence|].
  destruct (Z.eq_dec (value r) (value r')) as [Q|Q]; [exact Q|exfalso].
  assert (Hq : Z.abs (value r * d - n) = Z.abs (value r' * d - n)) by lia.
  specialize (E ltac:(congruence) Hq). specialize (E' ltac:(congruence) ltac:(lia)).
  exact (no_even_ties s n d r r' Hd F F' S S' Q Hq (fun c Fc => proj1 (H c Fc)) E E').
Qed.
Print Assumptions C67_unique.

(* 0.1 + 0.2, 16777216 + 1 (rounds back), 3e38 + 3e38 (infinite), 1 / -0 and
   the smallest number halved (rounds to zero) *)
Definition tenth : Z := 1036831949.
Definition fifth : Z := 1045220557.
Example C67_values :
  f_add tenth fifth = 1050253722 /\
  f_add (f_of_int 16777216) (f_of_int 1) = f_of_int 16777216 /\
  f_add 2137134461 2137134461 = infinite false /\
  f_div (f_of_int 1) (f_neg 0) = infinite true /\
  f_mul 1 1056964608 = 0.
Proof. repeat split; vm_compute; congruence. Qed.
(* the hypotheses of C67_arithmetic, C67_negate and C67_compare hold with 0.1
   and 0.2 on the stack *)
Example C67_example :
  stack_is (with_values [vint 5; mkV T_FLOAT tenth; mkV T_FLOAT fifth]) ([vint 5] ++ [mkV T_FLOAT tenth; mkV T_FLOAT fifth]) /\
  as_float (with_values [vint 5; mkV T_FLOAT tenth; mkV T_FLOAT fifth]) (mkV T_FLOAT fifth) fifth /\
  finite tenth /\ finite fifth /\ ~ not_a_number tenth.
Proof.
  split; [eexists; split; [vm_compute; reflexivity|]|].
  { split; [|reflexivity]. split; try reflexivity; [exists 2; split; [lia|reflexivity]|vm_compute; split; congruence]. }
  split; [apply af_float; reflexivity|].
  assert (finite tenth) by (split; [split; [discriminate|reflexivity]|discriminate]).
  split; [assumption|]. split; [split; [split; [discriminate|reflexivity]|discriminate]|]. apply finite_nan. assumption.
Qed.

(** ** C68: conversions *)

(** C68: an integer converts to the nearest float; exactly if it has at most
    24 significant bits. *)
Theorem C68_int_to_float s z : is_s32 z ->
  exists r, to_float (vint z) s = Ok (r, s) /\ rounded (z <? 0) (z * 2 ^ 149) 1 r.
Proof.
  intros Hz. exists (f_of_int z). split; [|apply of_int_rounded].
  unfold to_float. change (v_type (vint z) =? T_INT) with true. cbv iota zeta. rewrite (s32_u32 _ Hz : v_int (vint _) = _). reflexivity.
Qed.
Print Assumptions C68_int_to_float.

Theorem C68_exact_int s m k : Z.abs m < 2 ^ 24 -> 0 <= k -> is_s32 (m * 2 ^ k) ->
  exists r, to_float (vint (m * 2 ^ k)) s = Ok (r, s) /\ finite r /\ value r = m * 2 ^ k * 2 ^ 149 /\
    to_int (mkV T_FLOAT r) s = Ok (m * 2 ^ k, s).
Proof.
  intros Hm' Hk Hz. exists (f_of_int (m * 2 ^ k)).
  assert (Q : finite (f_of_int (m * 2 ^ k)) /\ value (f_of_int (m * 2 ^ k)) = m * 2 ^ k * 2 ^ 149).
  { destruct (Z_le_gt_dec k 100) as [L|L]; [apply of_int_exact; [exact Hm'|lia]|].
    assert (m = 0).
    { destruct (Z.eq_dec m 0) as [E|E]; [exact E|exfalso].
      assert (2 ^ 100 <= 2 ^ k) by (apply Z.pow_le_mono_r; lia).
      assert (C : 4294967296 < 2 ^ 100) by reflexivity. unfold is_s32, W31 in Hz. nia. }
    subst m. rewrite Z.mul_0_l. exact (of_int_exact 0 0 eq_refl ltac:(lia)). }
  destruct Q as [F V]. split; [|split; [exact F|split; [exact V|]]].
  - unfold to_float. change (v_type (vint (m * 2 ^ k)) =? T_INT) with true. cbv iota zeta. rewrite (s32_u32 _ Hz : v_int (vint _) = _). reflexivity.
  - unfold to_int. cbn [v_type v_data]. change (T_FLOAT =? T_INT) with false. change (T_FLOAT =? T_FLOAT) with true. cbv iota zeta.
    rewrite trunc_quot by exact F. rewrite V, Z.quot_mul by discriminate.
    assert (I : in_s32 (m * 2 ^ k) = true) by (apply in_s32_spec; exact Hz). rewrite I. reflexivity.
Qed.
Print Assumptions C68_exact_int.

(** A float converts to its integer part, if that is a 32-bit integer; the C
    conversion is undefined otherwise. *)
Theorem C68_float_to_int s x : finite x ->
  (is_s32 (Z.quot (value x) (2 ^ 149)) -> to_int (mkV T_FLOAT x) s = Ok (Z.quot (value x) (2 ^ 149), s)) /\
  (~ is_s32 (Z.quot (value x) (2 ^ 149)) -> to_int (mkV T_FLOAT x) s = Ub UbFloatCast).
Proof.
  intros F. unfold to_int. cbn [v_type v_data]. change (T_FLOAT =? T_INT) with false. change (T_FLOAT =? T_FLOAT) with true. cbv iota zeta.
  rewrite trunc_quot by exact F. destruct (in_s32 _) eqn:I.
  - apply in_s32_spec in I. split; [reflexivity|tauto].
  - split; [|reflexivity]. intros N. apply in_s32_spec in N. congruence.
Qed.
Print Assumptions C68_float_to_int.

(** The text of a finite float: a minus sign if it has one, the whole part
    without leading zeros, a point and six digits, which together are within
    half a millionth of the number. *)
Theorem C68_text s x t : finite x -> InsnSpec.text_of s (mkV T_FLOAT x) t ->
  exists whole six, t = (if sign_bit x then [45] else []) ++ whole ++ [46] ++ six /\
    Forall (fun c => 48 <= c <= 57) (whole ++ six) /\ length six = 6%nat /\
    (whole = [48] \/ hd 48 whole <> 48) /\
    2 * Z.abs (decimal (whole ++ six) * 2 ^ 149 - magnitude x * 1000000) <= 2 ^ 149.
Proof.
  intros F T. inversion T; subst; try discriminate. apply text_decimal, F.
Qed.
Print Assumptions C68_text.

(** Reading: a text that denotes a single precision number reads as that
    number; so a float that six decimals suffice for survives being written
    and read. *)
Theorem C68_read s v x whole fr : finite x -> v_type v = T_STRING ->
  get_str s (v_data v) = Some ((if sign_bit x then [45] else []) ++ whole ++ [46] ++ fr) ->
  Forall (fun c => 48 <= c <= 57) whole -> Forall (fun c => 48 <= c <= 57) fr -> whole <> [] ->
  decimal (whole ++ fr) * 2 ^ 149 = magnitude x * 10 ^ zlen fr ->
  to_float v s = Ok (x, s).
Proof.
  intros F T G W R N E. unfold to_float. rewrite T. change (T_STRING =? T_INT) with false. change (T_STRING =? T_FLOAT) with false.
  change (T_STRING =? T_STRING) with true. cbv iota zeta. unfold mbind, gets. rewrite G. unfold ret. rewrite atof_exact by assumption. reflexivity.
Qed.
Print Assumptions C68_read.

Theorem C68_write_read s s' v x t : finite x -> (2 ^ 149 | magnitude x * 10 ^ 6) ->
  InsnSpec.text_of s (mkV T_FLOAT x) t -> v_type v = T_STRING -> get_str s' (v_data v) = Some t ->
  to_float v s' = Ok (x, s').
Proof.
  intros F D T Tv G. inversion T; subst; try discriminate. cbn [v_data] in G.
  unfold to_float. rewrite Tv. change (T_STRING =? T_INT) with false. change (T_STRING =? T_FLOAT) with false.
  change (T_STRING =? T_STRING) with true. cbv iota zeta. unfold mbind, gets. rewrite G. unfold ret. rewrite text_round_trip by assumption. reflexivity.
Qed.
Print Assumptions C68_write_read.

(* -2.625 is a float six decimals suffice for: its text, and back *)
Definition ex_float : Z := f_neg 1076363264.
Example C68_example : finite ex_float /\ value ex_float * 8 = - 21 * 2 ^ 149 /\
  (2 ^ 149 | magnitude ex_float * 10 ^ 6) /\ f_to_str ex_float = bs "-2.625000" /\
  f_trunc ex_float = Some (-2) /\ c_atof (bs "-2.625") = ex_float.
Proof.
  split; [split; [split; [discriminate|reflexivity]|discriminate]|]. split; [vm_compute; reflexivity|].
  split; [exists 2625000; vm_compute; reflexivity|]. repeat split; vm_compute; reflexivity.
Qed.
(* the smallest float is not: it becomes zero *)
Example C68_lost : f_to_str 1 = bs "0.000000" /\ c_atof (f_to_str 1) = 0.
Proof. split; vm_compute; reflexivity. Qed.
