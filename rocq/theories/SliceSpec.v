(** * SliceSpec: running a program in slices (C64)

    A host that does not want to wait for a program calls nkxVmIterate with a
    number of instructions, does something else, and goes on until
    nkxVmProgramHasEnded says that the program has ended or nkxVmHasErrors
    says that it failed (the loop of /repo/src/test/main.c:482-540 is one). *)

From Verif Require Import Base State MonadFacts StackModel VmModel.

Section Slices.
Variable hostmark : Z -> Z -> option Z -> list value.
Variable host : Z -> list value -> M value.

(** The loop, with the number of instructions of every slice; [false] if the
    program was still running after the last one. *)
Fixpoint sliced (counts : list nat) : M bool :=
  s <- self ;;
  if has_errors s then ret true
  else
    e <- program_has_ended ;;
    if e then ret true
    else
      match counts with
      | [] => ret false
      | c :: r => iterate_n hostmark host c ;;; sliced r
      end.

(** [did n s t]: [n] instructions, none of them the end of the program and none
    of them started with an error pending, lead from [s] to [t]. *)
Inductive did : nat -> vm -> vm -> Prop :=
| did_nothing s : did 0 s s
| did_one n s s1 t : program_has_ended s = Ok (false, s) -> has_errors s = false ->
    iterate hostmark host s = Ok (tt, s1) -> did n s1 t -> did (S n) s t.

(** How many instructions the slices allow. *)
Definition allowed (counts : list nat) : nat := fold_right Nat.add 0%nat counts.
End Slices.
