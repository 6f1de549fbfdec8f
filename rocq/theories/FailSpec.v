(** * FailSpec: what it means to stop at the first failure *)

From Coq Require Import ZArith List.
From Verif Require Import FailModel.
Import ListNotations.

(** After a failure nothing happens to the virtual machine any more. *)
Definition quiet (t : list event) : Prop :=
  forall before after e, t = before ++ Failed :: after -> ~ In (Vm e) after.

(** The machine between two API calls: no handler is installed, and the flag
    says whether something failed. *)
Definition between (s : fstate) : Prop :=
  jmp s = None /\ (flag s = true <-> In Failed (trace s)) /\ quiet (trace s).
