(** * StackSpec: histories of stack operations *)
From Verif Require Import Base State StackModel.

(** The stack of the current context has just been created. *)
Definition fresh_stack (s : vm) : Prop :=
  exists c, znth (v_ctxs s) (v_cur s) = Some (Some c) /\ c_stack c = stack_init.

(** Overwriting a stack slot through a masked index (nkiOpcode_stackPoke). *)
Definition poke_at (i : Z) (v : value) : M unit := j <- peek_idx i ;; set_slot j v.

(** [stack_history M s l]: with the configured maximum [M], the VM [s] is
    reached from one with a fresh stack by pushes that reported no error,
    pops, multiple pops and overwrites; the list [l] is what a mathematical
    stack would hold (bottom first). *)
Inductive stack_history (M : Z) : vm -> list value -> Prop :=
| kh_init s : fresh_stack s -> v_maxstack s = M -> stack_history M s []
| kh_push s l v s' : stack_history M s l -> push v s = Ok (tt, s') -> v_errs s' = v_errs s ->
    stack_history M s' (l ++ [v])
| kh_pop s l v x s' : stack_history M s (l ++ [v]) -> pop s = Ok (x, s') -> stack_history M s' l
| kh_popn s a b s' : stack_history M s (a ++ b) -> pop_n (zlen b) s = Ok (tt, s') -> stack_history M s' a
| kh_poke s l i v s' : stack_history M s l -> 0 <= i < zlen l -> poke_at i v s = Ok (tt, s') ->
    stack_history M s' (zupd l i v).
